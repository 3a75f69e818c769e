(** C87: a linear trend shifts the year-on-year rate by exactly its slope *)

From Coq Require Import QArith Qcanon List ZArith Bool Arith Lia Permutation Sorted.
From Verif.Base Require Import QcExtra ISort Quantile Fl Calendar.
From Verif.Spec Require Import Stats Time YoY Trend.
From Verif.Model Require Import Utilities Bootstrap YearOnYear.
From Verif.Proofs Require Import StatsP FlP YoYP YoYP4.
Import ListNotations.
Open Scope list_scope.
Open Scope Qc_scope.
From Verif.Props Require Import YoYDemo.
Definition is_ok {A : Type} (r : result A) : bool := match r with Ok _ => true | Raise _ => false end.

(** Without recentering: every value, the rate and the interval move by a hundred times the slope per 365 days; the usage counts and errors are the same. *)
Theorem C87_trend : forall infer sortv choice starts ep cl m a b s, moves_rows sortv -> (forall L, m <> CircularBlock L) ->
  degradation_year_on_year infer sortv choice starts false ep cl m (plus_line a b s) =
  match degradation_year_on_year infer sortv choice starts false ep cl m s with
  | Ok o =>
      let up v := fadd v (Fin (qz 100 * (b * qz (days 365)))) in
      Ok (mk_yoy_out (up (yo_rate o)) (map (fun r => (fst r, up (snd r))) (yo_values o)) (yo_renorm o) (yo_usage o)
            (option_map (fun c => (up (fst c), up (snd c))) (yo_ci o)) (option_map up (yo_exceedance o)))
  | Raise e => Raise e
  end.
Proof. exact added_plain. Qed.

(** A constant changes nothing. *)
Theorem C87_offset : forall infer sortv choice starts ep cl m a s, moves_rows sortv -> (forall L, m <> CircularBlock L) ->
  degradation_year_on_year infer sortv choice starts false ep cl m (map (fun r => (fst r, fadd (snd r) (Fin a))) s) =
  degradation_year_on_year infer sortv choice starts false ep cl m s.
Proof. exact added_constant. Qed.

(** With recentering they are also divided by the ratio of the factors. *)
Theorem C87_recentered : forall infer sortv choice starts rc ep cl m a b s o o' rho rho', moves_rows sortv ->
  degradation_year_on_year infer sortv choice starts rc ep cl m s = Ok o ->
  degradation_year_on_year infer sortv choice starts rc ep cl m (plus_line a b s) = Ok o' ->
  yo_renorm o = Fin rho -> yo_renorm o' = Fin rho' -> 0 < rho -> 0 < rho' ->
  let up v := fadd (fmul (Fin (rho / rho')) v) (Fin (qz 100 * (b / rho' * qz (days 365)))) in
  yo_rate o' = up (yo_rate o) /\ yo_values o' = map (fun r => (fst r, up (snd r))) (yo_values o) /\ yo_usage o' = yo_usage o /\
  ((forall L, m <> CircularBlock L) -> yo_ci o' = option_map (fun c => (up (fst c), up (snd c))) (yo_ci o) /\ yo_exceedance o' = option_map up (yo_exceedance o)).
Proof. exact added_recentered. Qed.

Lemma demo_moves : moves_rows demo_sortv.
Proof. intros f l H. unfold demo_sortv. apply isort_map. intros x y. unfold shift_le. rewrite !H. reflexivity. Qed.

(** Two per cent more every 365 days: every value, the rate and the interval are higher by two. *)
Definition slope : Qc := qf 2 100 / qz (days 365).
Definition run (rc : bool) (m : umethod) (s : series) : yoy_out :=
  match degradation_year_on_year demo_infer demo_sortv demo_choice [[3; 1; 0; 4; 2]; [0; 2; 2; 1; 1]]%nat rc (qz 95) (qz 68) m s with Ok o => o | Raise _ => no_out end.
Example C87_example :
  yo_rate (run false Simple demo_input) = fz (-5) /\ yo_rate (run false Simple (plus_line (qf 1 10) slope demo_input)) = fz (-3) /\
  length (yo_values (run false Simple demo_input)) = 3%nat /\
  yo_renorm (run true Simple (plus_line (qf 1 10 - slope * qz (at_date 2012 2 29)) slope demo_input)) = ff 11 10.
Proof. repeat split; fcompute. Qed.
Example C87_applied : exists up, yo_ci (run false Simple (plus_line (qf 1 10) slope demo_input)) = option_map (fun c => (up (fst c), up (snd c))) (yo_ci (run false Simple demo_input)) /\
  yo_ci (run false Simple demo_input) <> None /\ up (fz 0) = fz 2.
Proof.
  exists (fun v => fadd v (Fin (qz 100 * (slope * qz (days 365))))). split; [| split; [vm_compute; discriminate | fcompute]].
  unfold run. rewrite (C87_trend demo_infer demo_sortv demo_choice [[3; 1; 0; 4; 2]; [0; 2; 2; 1; 1]]%nat (qz 95) (qz 68) Simple (qf 1 10) slope demo_input demo_moves ltac:(discriminate)).
  destruct (degradation_year_on_year _ _ _ _ _ _ _ _ _); reflexivity.
Qed.

Lemma circular_ok : is_ok (degradation_year_on_year demo_infer demo_sortv demo_choice [[3; 1; 0; 4; 2]; [0; 2; 2; 1; 1]]%nat false (qz 95) (qz 68) (CircularBlock 1) demo_input) = true.
Proof. vm_compute. reflexivity. Qed.
Definition upper (o : yoy_out) : Qc := match yo_ci o with Some (_, Fin q) => q | _ => 0 end.
Lemma circular_upper : qeq (upper (run false (CircularBlock 1) demo_input)) (upper (run false (CircularBlock 1) (map (fun r => (fst r, fadd (snd r) (Fin 1))) demo_input))) = false.
Proof. vm_compute. reflexivity. Qed.

(** The circular block bootstrap divides by a trend line that starts at one: adding a constant changes the interval. *)
Theorem C87_circular_refuted : ~ (forall infer sortv choice starts ep cl m a s, moves_rows sortv ->
  degradation_year_on_year infer sortv choice starts false ep cl m (map (fun r => (fst r, fadd (snd r) (Fin a))) s) =
  degradation_year_on_year infer sortv choice starts false ep cl m s).
Proof.
  intros H. pose proof circular_upper as X. unfold run in X. rewrite (H _ _ _ _ _ _ _ 1 demo_input demo_moves) in X.
  rewrite (proj2 (qeq_spec _ _) eq_refl) in X. discriminate X.
Qed.
Print Assumptions C87_circular_refuted.

Print Assumptions C87_trend.
Print Assumptions C87_offset.
Print Assumptions C87_recentered.
