(** Energy of evenly spaced power with the default interval. *)

From Coq Require Import QArith Qcanon List ZArith Bool Arith Lia Permutation Sorted.
From Verif.Base Require Import QcExtra ISort Quantile Fl TimeSeries Rolling Segments.
From Verif.Spec Require Import Stats Interp Energy.
From Verif.Model Require Import Interpolation Energy Availability.
From Verif.Proofs Require Import StatsP InterpP EnergyP EnergyP2 EnergyP4 EnergyP6 ClipP ClipP4 AvailP AvailP2.
Import ListNotations.
Open Scope list_scope.
Open Scope Qc_scope.

Definition grid (t0 w : Z) (n : nat) : list Z := map (fun k => (t0 + w * Z.of_nat k)%Z) (seq 0 n).

Lemma grid_length : forall t0 w n, length (grid t0 w n) = n.
Proof. intros. unfold grid. rewrite map_length, seq_length. reflexivity. Qed.
Lemma grid_nth : forall t0 w n i, nth_error (grid t0 w n) i = if (i <? n)%nat then Some (t0 + w * Z.of_nat i)%Z else None.
Proof. intros. unfold grid. rewrite nth_error_map_some, nth_error_seq. destruct (i <? n)%nat; reflexivity. Qed.
Lemma grid_In : forall t0 w n t, In t (grid t0 w n) <-> exists k, (k < n)%nat /\ t = (t0 + w * Z.of_nat k)%Z.
Proof.
  intros. unfold grid. rewrite in_map_iff. split.
  - intros (k & <- & Hk). apply in_seq in Hk. exists k. split; [lia | reflexivity].
  - intros (k & Hk & ->). exists k. split; [reflexivity | apply in_seq; lia].
Qed.
Lemma grid_SSorted : forall t0 w n, (0 < w)%Z -> StronglySorted Z.lt (grid t0 w n).
Proof. intros. apply grid_sorted. assumption. Qed.

(** What a step contributes: nothing known unless both ends are. *)
Definition step_value (h : Qc) (v1 v2 : fl) : fl := match v1, v2 with Fin _, Fin q => Fin (q * h) | _, _ => NaN end.

Lemma energy_regular : forall freq t0 w v, (0 < w)%Z -> (2 <= length v)%nat -> noinf v -> finvals v <> [] ->
  energy_from_power freq (combine (grid t0 w (length v)) v) None None RightLabeled =
  Ok (combine (tl (grid t0 w (length v))) (zip (step_value (hours w)) v (tl v))).
Proof.
  intros freq t0 w v Hw Hn Hv Hf. set (n := length v) in *. set (s := combine (grid t0 w n) v).
  assert (times s = grid t0 w n) as Ets by (unfold s, times; apply (InterpP.combine_times (grid t0 w n) v); rewrite grid_length; reflexivity).
  assert (vals s = v) as Evs by (unfold s; apply combine_vals; rewrite grid_length; reflexivity).
  assert (sorted_index s) as Hs by (unfold sorted_index; rewrite Ets; apply grid_SSorted; exact Hw).
  assert (noinf (vals s)) as Ns by (rewrite Evs; exact Hv).
  assert (length s = n) as Ls by (unfold s; rewrite combine_length, grid_length; unfold n; lia).
  assert (forall g, In g (gaps_between (times s)) -> g = qz w) as Hg.
  { intros g Hg. rewrite Ets in Hg. apply gap_values in Hg. destruct Hg as (a & b & Hab & ->). unfold grid in Hab.
    pose proof (grid_consec _ _ _ _ _ _ Hab) as Eb. f_equal. lia. }
  assert (is_median (gaps_between (times s)) (qz w)) as Hm.
  { destruct (median_exists s ltac:(lia)) as [med Hm]. pose proof Hm as Hm'.
    assert (gaps_between (times s) <> []) as Ng.
    { intros E. rewrite E in Hm'. destruct Hm' as (k & [P _] & R). apply Permutation_nil in P. subst k. destruct R as [(k & K & _) | (k & K & _)]; cbn in K; lia. }
    pose proof (qmedian_spec _ Ng) as Q. rewrite (qmedian_const (qz w) _ Ng Hg) in Q. exact Q. }
  assert (forall t, on_grid s w t <-> In t (times s)) as OG.
  { intros t. rewrite Ets. rewrite grid_In. unfold on_grid, first_time, final_time. rewrite Ets.
    assert (hd 0%Z (grid t0 w n) = t0) as E1.
    { destruct n as [| n']; [lia |]. cbn. lia. }
    assert (List.last (grid t0 w n) 0%Z = (t0 + w * Z.of_nat (n - 1))%Z) as E2.
    { destruct n as [| n']; [lia |]. unfold grid. rewrite seq_S, map_app. cbn [map]. rewrite last_last. f_equal. f_equal. lia. }
    rewrite E1, E2. split.
    - intros (k & Hk & -> & L). exists (Z.to_nat k). split; [nia |]. rewrite Z2Nat.id by lia. reflexivity.
    - intros (k & Hk & ->). exists (Z.of_nat k). split; [lia |]. split; [reflexivity |]. nia. }
  assert (forall i t x, nth_error s i = Some (t, x) <-> nth_error v i = Some x /\ t = (t0 + w * Z.of_nat i)%Z) as Sn.
  { intros i t x. unfold s. rewrite nth_error_combine, grid_nth. destruct (Nat.ltb_spec i n) as [L | L].
    - destruct (nth_error v i) as [y |]; split; [intros E; injection E as <- <-; auto | intros [E ->]; injection E as ->; reflexivity | discriminate | intros [E _]; discriminate].
    - split; [discriminate |]. intros [E _]. exfalso. assert (i < length v)%nat by (apply nth_error_Some; congruence). unfold n in L. lia. }
  assert (forall i x, nth_error v i = Some x -> forall q, interp s (qz w) (t0 + w * Z.of_nat i)%Z (Fin q) <-> x = Fin q) as IP.
  { intros i x Hi q. assert (In ((t0 + w * Z.of_nat i)%Z, x) s) as Hin by (apply nth_error_In with (n := i); apply Sn; auto).
    split.
    - intros H. inversion H as [q' Hq E | t1 v1 t2 v2 B L E | | |].
      + apply (sorted_fun s _ _ _ Hs Hin Hq).
      + exfalso. destruct B as (B1 & B2 & B3 & _). apply In_nth_error in B1. destruct B1 as [i1 B1]. apply In_nth_error in B2. destruct B2 as [i2 B2].
        apply Sn in B1. apply Sn in B2. destruct B1 as [_ ->]. destruct B2 as [_ ->]. apply qz_le_e in L.
        assert (Z.of_nat i1 < Z.of_nat i)%Z by nia. assert (Z.of_nat i < Z.of_nat i2)%Z by nia. assert (w * 2 <= w * (Z.of_nat i2 - Z.of_nat i1))%Z by nia. lia.
    - intros ->. constructor. exact Hin. }
  assert (forall t, ~ in_long_step s (qz w) t) as NL.
  { intros t (a & b & Hab & _ & L). rewrite Ets in Hab. unfold grid in Hab. pose proof (grid_consec _ _ _ _ _ _ Hab) as Eb.
    replace (b - a)%Z with w in L by lia. qlra. }
  assert (exists i q, nth_error v i = Some (Fin q)) as (i0 & q0 & Hi0).
  { destruct (finvals v) as [| q l] eqn:E; [contradiction |]. assert (In (Fin q) v) as K by (apply finvals_In; rewrite E; left; reflexivity).
    apply In_nth_error in K. destruct K as [i K]. eauto. }
  assert (qle (qz w) (qz w) = true) as LE by (apply qle_spec; apply Qcle_refl).
  destruct (energy_short freq s None w None (qz w) (qz w) Hs Ns ltac:(lia) Hm (eq_sym (qfloor_qz w)) eq_refl Hw (Qcle_refl _) (Qclt_le_weak _ _ (qz_pos w Hw))) as [_ HE].
  assert (i0 < n)%nat as Li0 by (apply nth_error_Some; congruence).
  destruct (HE (t0 + w * Z.of_nat i0)%Z q0) as (out & EO & SO & TO & VO).
  { apply OG. rewrite Ets. apply grid_In. exists i0. auto. }
  { apply (IP i0 (Fin q0) Hi0). reflexivity. }
  rewrite EO. f_equal.
  assert (tl (grid t0 w n) = map (fun k => (t0 + w * Z.of_nat k)%Z) (seq 1 (n - 1))) as Etl.
  { unfold grid. destruct n as [| n']; [lia |]. cbn [seq map tl]. replace (S n' - 1)%nat with n' by lia. reflexivity. }
  assert (times out = tl (grid t0 w n)) as Eto.
  { apply sorted_lt_unique; [exact SO | rewrite Etl; apply grid_sorted; exact Hw |]. intros t. rewrite TO. fold (on_grid s w t). rewrite OG, Ets, grid_In, Etl, in_map_iff.
    assert (first_time s = t0) as -> by (unfold first_time; rewrite Ets; destruct n as [| n']; [lia |]; cbn; lia). split.
    - intros [(k & Hk & ->) N]. exists k. split; [reflexivity |]. apply in_seq. assert (k <> 0%nat) by (intros ->; apply N; cbn; lia). lia.
    - intros (k & <- & Hk). apply in_seq in Hk. split; [exists k; split; [lia | reflexivity] | nia]. }
  apply nth_error_ext. intros i. rewrite nth_error_combine. rewrite <- Eto at 1.
  unfold times at 1. rewrite nth_error_map_some. destruct (nth_error out i) as [[t x] |] eqn:Ei; [| reflexivity]. cbn [option_map fst].
  assert (i < n - 1)%nat as Li.
  { assert (i < length (times out))%nat as K by (unfold times; rewrite map_length; apply nth_error_Some; congruence). rewrite Eto, Etl, map_length, seq_length in K. exact K. }
  assert (t = t0 + w * Z.of_nat (S i))%Z as ->.
  { assert (nth_error (times out) i = Some t) as K by (unfold times; rewrite nth_error_map_some, Ei; reflexivity).
    rewrite Eto, Etl, nth_error_map_some, nth_error_seq in K. destruct (i <? n - 1)%nat; [| discriminate]. cbn in K. injection K as <-. f_equal. }
  rewrite zip_nth. destruct (nth_error v i) as [x1 |] eqn:E1; [| apply nth_error_None in E1; fold n in E1; lia].
  assert (nth_error (tl v) i = nth_error v (S i)) as -> by (destruct v; [destruct i; reflexivity | reflexivity]).
  destruct (nth_error v (S i)) as [x2 |] eqn:E2; [| apply nth_error_None in E2; fold n in E2; lia].
  f_equal. f_equal. destruct (VO _ _ (nth_error_In _ _ Ei)) as (_ & V2 & V3).
  assert (forall q, both_ends s w (qz w) (t0 + w * Z.of_nat (S i))%Z q <-> x2 = Fin q /\ exists q', x1 = Fin q') as BE.
  { intros q. unfold both_ends. rewrite (IP (S i) x2 E2 q). replace (t0 + w * Z.of_nat (S i) - w)%Z with (t0 + w * Z.of_nat i)%Z by lia. split.
    - intros (_ & E & q' & Q). split; [exact E |]. exists q'. apply (IP i x1 E1 q'). exact Q.
    - intros (E & q' & Q). split; [apply Qcle_refl |]. split; [exact E |]. exists q'. apply (IP i x1 E1 q'). exact Q. }
  destruct (Hv x1 (nth_error_In _ _ E1)) as [P1 P2]. destruct (Hv x2 (nth_error_In _ _ E2)) as [P3 P4].
  destruct x1 as [| | q1 |]; try contradiction.
  - cbn [step_value]. apply V2. intros q K. apply BE in K. destruct K as (_ & q' & K). discriminate.
  - destruct x2 as [| | q2 |]; try contradiction; cbn [step_value].
    + apply V2. intros q K. apply BE in K. destruct K as (K & _). discriminate.
    + apply V3; [apply NL |]. apply BE. split; [reflexivity | exists q1; reflexivity].
Qed.

Lemma energy_regular_none : forall freq t0 w v, (0 < w)%Z -> (2 <= length v)%nat -> noinf v -> finvals v = [] ->
  energy_from_power freq (combine (grid t0 w (length v)) v) None None RightLabeled = Raise IndexError.
Proof.
  intros freq t0 w v Hw Hn Hv Hf. set (n := length v) in *. set (s := combine (grid t0 w n) v).
  assert (times s = grid t0 w n) as Ets by (unfold s, times; apply (InterpP.combine_times (grid t0 w n) v); rewrite grid_length; reflexivity).
  assert (vals s = v) as Evs by (unfold s; apply combine_vals; rewrite grid_length; reflexivity).
  assert (sorted_index s) as Hs by (unfold sorted_index; rewrite Ets; apply grid_SSorted; exact Hw).
  assert (noinf (vals s)) as Ns by (rewrite Evs; exact Hv).
  assert (length s = n) as Ls by (unfold s; rewrite combine_length, grid_length; unfold n; lia).
  assert (forall g, In g (gaps_between (times s)) -> g = qz w) as Hg.
  { intros g Hg. rewrite Ets in Hg. apply gap_values in Hg. destruct Hg as (a & b & Hab & ->). unfold grid in Hab.
    pose proof (grid_consec _ _ _ _ _ _ Hab) as Eb. f_equal. lia. }
  assert (is_median (gaps_between (times s)) (qz w)) as Hm.
  { destruct (median_exists s ltac:(lia)) as [med Hm]. pose proof Hm as Hm'.
    assert (gaps_between (times s) <> []) as Ng.
    { intros E. rewrite E in Hm'. destruct Hm' as (k & [P _] & R). apply Permutation_nil in P. subst k. destruct R as [(k & K & _) | (k & K & _)]; cbn in K; lia. }
    pose proof (qmedian_spec _ Ng) as Q. rewrite (qmedian_const (qz w) _ Ng Hg) in Q. exact Q. }
  destruct (energy_short freq s None w None (qz w) (qz w) Hs Ns ltac:(lia) Hm (eq_sym (qfloor_qz w)) eq_refl Hw (Qcle_refl _) (Qclt_le_weak _ _ (qz_pos w Hw))) as [HE _].
  assert (forall t q, ~ In (t, Fin q) s) as NF.
  { intros t q K. apply (in_map snd) in K. change (In (Fin q) (vals s)) in K. rewrite Evs in K. apply finvals_In in K. rewrite Hf in K. destruct K. }
  apply HE. intros t q _ K. inversion K as [q' Hq | t1 v1 t2 v2 B L | | |].
  - exact (NF _ _ Hq).
  - destruct B as (B & _). exact (NF _ _ B).
Qed.
