(** More power, higher normalized energies and daily values. *)

From Coq Require Import QArith Qcanon List ZArith Bool Lia.
From Verif.Base Require Import QcExtra ISort Quantile Fl TimeSeries Rolling.
From Verif.Model Require Import Interpolation Energy Normalization.
From Verif.Spec Require Import Superposition.
From Verif.Proofs Require Import SuperP SuperP2 NormLinP AggLinP.
Import ListNotations.
Open Scope Qc_scope.

Lemma fine_quotient : forall x e, fine x -> fine e -> fdiv x e <> PInf -> fdiv x e <> NInf -> fine (fdiv x e).
Proof.
  intros x e [->|(p & -> & P)] [->|(c & -> & C)] H1 H2; try (left; reflexivity).
  destruct (Qc_eq_dec c 0) as [->|Hc]; [left; rewrite (over_zero p H1 H2); vm_compute; reflexivity|].
  apply fine_div; [|right; eauto]. apply Qcle_lt_or_eq in C. destruct C as [C|C]; [exact C|congruence].
Qed.

Lemma zip_fine : forall f x e, (forall v w, fine v -> fine w -> f v w <> PInf -> f v w <> NInf -> fine (f v w)) ->
  nowhere_negative x -> nowhere_negative e -> noinf (vals (zip_aligned f x e)) -> nowhere_negative (zip_aligned f x e).
Proof.
  intros f x e F X E N. unfold nowhere_negative. apply Forall_forall. intros r I.
  destruct (N (snd r)) as [N1 N2]; [unfold vals; now apply in_map|]. unfold zip_aligned, align in I. apply in_map_iff in I. destruct I as ([t [v w]] & <- & I). cbn [fst snd] in *.
  assert (fine v /\ fine w) as [V W]; [|exact (F v w V W N1 N2)].
  destruct (same_index (times x) (times e)); apply in_map_iff in I.
  - destruct I as ([[t1 v1] [t2 w1]] & J & I). cbn in J. injection J as <- <- <-. split; [eapply fine_In; [exact X|exact (in_combine_l _ _ _ _ I)]|eapply fine_In; [exact E|exact (in_combine_r _ _ _ _ I)]].
  - destruct I as (t' & J & I). injection J as <- <- <-. split; apply fine_lookup; assumption.
Qed.
Lemma product_fine : forall v w, fine v -> fine w -> fine (fmul v w).
Proof. intros v w V [->|(c & -> & C)]; [destruct V as [->|(p & -> & P)]; left; reflexivity|now apply fine_mul]. Qed.
Lemma day_fine : forall s w, nowhere_negative s -> nowhere_negative (resample_day_sum s w).
Proof.
  intros s w H. unfold resample_day_sum. destruct s as [|[t0 v0] s]; [constructor|]. apply (fine_map Z (fun b => b)). intros b _. right. apply fine_sum. apply Forall_forall. intros v I.
  unfold vals in I. apply in_map_iff in I. destruct I as ([t u] & <- & I). apply filter_In in I. eapply fine_In; [exact H|apply I].
Qed.

Theorem aggregation_monotone : forall w insolation x y, nowhere_above x y -> times x = times insolation -> nowhere_negative insolation ->
  noinf (vals (aggregation_insol x insolation w)) -> noinf (vals (aggregation_insol y insolation w)) ->
  nowhere_above (aggregation_insol x insolation w) (aggregation_insol y insolation w).
Proof.
  intros w ins x y A T I N1 N2.
  assert (N : noinf (vals ins)).
  { intros v J. unfold vals in J. apply in_map_iff in J. destruct J as ([t u] & <- & J). destruct (fine_In _ _ _ I J) as [E|(q & E & _)]; cbn [snd]; rewrite E; split; discriminate. }
  destruct (aggregation_linear w ins x y (above_side x y A) T N) as [_ L]. destruct (L N1 N2) as [S D]. apply difference_above; [exact S|].
  pose proof (D (- (1)) 1) as E. rewrite <- E. unfold aggregation_insol. apply zip_fine.
  - exact fine_quotient.
  - apply day_fine. unfold nowhere_negative. apply Forall_forall. intros r J. unfold zip_aligned in J. 
    assert (K : nowhere_negative (zip_aligned fmul ins (weighted (- (1)) x 1 y))); [|unfold nowhere_negative in K; rewrite Forall_forall in K; apply K; exact J].
    apply zip_fine; [intros; now apply product_fine|exact I|now apply above_difference|].
    destruct (products (- (1)) 1 ins x y (above_side x y A) T N) as [P1 P2]. rewrite P2. apply side_weighted with (a := - (1)) (b := 1) in P1.
    intros v J'. revert v J'. clear - P1. unfold vals. induction P1 as [|r' s' p q [_ B] P1 IH]; intros v J; [destruct J|]. destruct J as [<-|J]; [|now apply IH].
    destruct B as [[_ ->]|(c & d & _ & ->)]; split; discriminate.
  - now apply day_fine.
  - change (noinf (vals (aggregation_insol (weighted (- (1)) x 1 y) ins w))). rewrite E. clear - S. apply side_weighted with (a := - (1)) (b := 1) in S.
    unfold vals. induction S as [|r' s' p q [_ B] P1 IH]; intros v J; [destruct J|]. destruct J as [<-|J]; [|now apply IH].
    destruct B as [[_ ->]|(c & d & _ & ->)]; split; discriminate.
Qed.

Theorem normalized_not_negative : forall infer pf mf expected poa kind pv u i,
  (forall w, check_series_frequency infer pf pv = Ok w -> (0 <= w)%Z) -> nowhere_negative pv -> nowhere_negative expected ->
  normalize_with_expected_power infer pf mf pv expected poa kind = Ok (u, i) -> noinf (vals u) -> nowhere_negative u.
Proof.
  intros infer pf mf expected poa kind pv u i HW P X H N. unfold normalize_with_expected_power in H.
  destruct (check_series_frequency infer pf pv) as [freq|] eqn:Ec; [|discriminate H]. cbn [bind] in H. pose proof (HW freq eq_refl) as F.
  assert (Fp : forall w, Some freq = Some w \/ pf = Some w -> (0 <= w)%Z).
  { intros w [E|E]; [injection E as <-; exact F|]. subst pf. cbn in Ec. injection Ec as ->. exact F. }
  assert (Fn : forall w, Some freq = Some w \/ None = Some w -> (0 <= w)%Z) by (intros w [E|E]; [injection E as <-; exact F|discriminate]).
  match type of H with bind ?a _ = _ => destruct a as [[energy f]|] eqn:Ee; [|discriminate H] end. cbn [bind fst snd] in H.
  assert (En : nowhere_negative energy).
  { destruct kind; [|injection Ee as <- _; exact P|discriminate Ee]. destruct (energy_from_power pf pv (Some freq) None RightLabeled) as [e|] eqn:E0; [|discriminate Ee]. injection Ee as <- _.
    eapply energy_not_negative; [exact Fp|exact P|exact E0]. }
  match type of H with bind ?a _ = _ => destruct a as [power|] eqn:Ep; [|discriminate H] end. cbn [bind] in H.
  assert (Pn : nowhere_negative power) by (destruct (fgt _ _); [eapply fine_interpolate; [exact X|exact Ep]|injection Ep as <-; exact X]).
  match type of H with bind ?a _ = _ => destruct a as [light|] eqn:El; [|discriminate H] end. cbn [bind] in H.
  destruct (energy_from_power None power (Some freq) None RightLabeled) as [ee|] eqn:E1; [|discriminate H]. cbn [bind] in H.
  pose proof (energy_not_negative None power (Some freq) None RightLabeled ee Fn Pn E1) as Een.
  destruct (energy_from_power None light (Some freq) None RightLabeled) as [ins|] eqn:E2; [|discriminate H]. cbn [bind] in H. injection H as <- _.
  unfold reindex in *. apply (fine_map Z (fun t => t)). intros t I. unfold vals in N. rewrite map_map in N. cbn [snd] in N. destruct (N _ (in_map _ _ _ I)). rewrite zip_lookup in *.
  apply fine_quotient; [now apply fine_lookup|now apply fine_lookup|assumption|assumption].
Qed.

Lemma weighted_noinf : forall a b u v, side_by_side u v -> noinf (vals (weighted a u b v)).
Proof.
  intros a b u v S. apply side_weighted with (a := a) (b := b) in S. unfold vals. induction S as [|r' s' p q [_ B] P1 IH]; intros z J; [destruct J|]. destruct J as [<-|J]; [|now apply IH].
  destruct B as [[_ ->]|(c & d & _ & ->)]; split; discriminate.
Qed.

Theorem normalized_monotone : forall infer pf mf expected poa kind x y u v i j,
  (forall w, check_series_frequency infer pf x = Ok w -> (0 <= w)%Z) -> nowhere_above x y -> nowhere_negative expected ->
  normalize_with_expected_power infer pf mf x expected poa kind = Ok (u, i) ->
  normalize_with_expected_power infer pf mf y expected poa kind = Ok (v, j) ->
  noinf (vals u) -> noinf (vals v) -> nowhere_above u v.
Proof.
  intros infer pf mf expected poa kind x y u v i j HW A X H1 H2 N1 N2. pose proof (normalized_linear infer pf mf expected poa kind x y (above_side x y A)) as L. cbv beta zeta in L. rewrite H1, H2 in L.
  destruct L as (_ & _ & L). destruct (L N1 N2) as [S D]. apply difference_above; [exact S|]. eapply normalized_not_negative; [|apply above_difference; exact A|exact X|apply D|now apply weighted_noinf].
  intros w. unfold check_series_frequency. rewrite (weighted_times _ _ x y (side_times x y (above_side x y A))). exact (HW w).
Qed.
