(** Proofs about evenly soiling arrays: steps of the rolling median. *)

From Coq Require Import QArith Qcanon List ZArith Bool Arith Lia String Sorted.
From Verif.Base Require Import QcExtra ISort Quantile Fl TimeSeries Calendar Rolling Segments.
From Verif.Spec Require Import Stats Filters Theil Soiling SoilingTable Clean Sawtooth.
From Verif.Model Require Import Soiling.
From Verif.Proofs Require Import FlP StatsP FiltersP2 SoilP SoilP2 SoilP3 SoilP4 SoilP5 SoilP9 SoilP10 SoilP13.
Import ListNotations.
Open Scope list_scope.
Open Scope Qc_scope.

(** ** Medians of lists that are near each other *)

Section Near.
Variable st : Qc.
Let R (x y : Qc) : Prop := x - st < y.

Lemma insert_front : forall y s, qsorted (y :: s) -> insert qle y s = y :: s.
Proof.
  intros y s H. inversion H as [|a b S F]; subst a b. destruct s as [|z s]; [reflexivity|]. cbn [insert].
  inversion F as [|a b L F']; subst a b. rewrite (proj2 (qle_spec y z) L). reflexivity.
Qed.
Lemma insert_near : forall s s', Forall2 R s s' -> qsorted s -> qsorted s' -> forall x x', R x x' -> Forall2 R (insert qle x s) (insert qle x' s').
Proof.
  unfold R. intros s s' H. induction H as [|y y' s s' H1 H2 IH]; intros Q Q' x x' X; [constructor; [exact X|constructor]|].
  assert (QS : qsorted s) by (inversion Q; assumption). assert (QS' : qsorted s') by (inversion Q'; assumption). cbn [insert].
  destruct (qle x y) eqn:E; destruct (qle x' y') eqn:E'; qb.
  - constructor; [exact X|]. constructor; [exact H1|exact H2].
  - constructor; [qlra|]. rewrite <- (insert_front y s Q). apply IH; [exact QS|exact QS'|qlra].
  - constructor; [qlra|]. rewrite <- (insert_front y' s' Q'). apply IH; [exact QS|exact QS'|qlra].
  - constructor; [exact H1|]. apply IH; [exact QS|exact QS'|qlra].
Qed.
Lemma qsort_near : forall l l', Forall2 R l l' -> Forall2 R (qsort l) (qsort l').
Proof.
  intros l l' H. induction H as [|x x' l l' H1 H2 IH]; [constructor|]. change (qsort (x :: l)) with (insert qle x (qsort l)). change (qsort (x' :: l')) with (insert qle x' (qsort l')).
  apply insert_near; [exact IH|apply qsort_sorted|apply qsort_sorted|exact H1].
Qed.
Lemma nth_near : forall l l', Forall2 R l l' -> forall k, (k < List.length l)%nat -> R (nth k l 0) (nth k l' 0).
Proof. intros l l' H. induction H as [|x x' l l' H1 H2 IH]; intros k L; [cbn in L; lia|]. destruct k as [|k]; [exact H1|]. apply IH. cbn in L. lia. Qed.
Lemma median_near : forall l l', l <> [] -> Forall2 R l l' -> qmedian l - st < qmedian l'.
Proof.
  intros l l' NE H. pose proof (qsort_near l l' H) as S. pose proof (nth_near _ _ S) as N. assert (EL : List.length (qsort l') = List.length (qsort l)) by (clear -S; induction S; cbn; congruence).
  unfold qmedian. rewrite EL. assert (0 < List.length (qsort l))%nat as P by (rewrite qsort_length; destruct l; [contradiction|cbn; lia]).
  set (n := List.length (qsort l)) in *. destruct (Nat.even n) eqn:E.
  - assert (n / 2 < n)%nat by (apply Nat.div_lt; lia). pose proof (N (n / 2 - 1)%nat ltac:(lia)) as N1. pose proof (N (n / 2)%nat ltac:(lia)) as N2. unfold R in N1, N2.
    set (x := nth (n / 2 - 1) (qsort l) 0) in *. set (y := nth (n / 2) (qsort l) 0) in *. set (x' := nth (n / 2 - 1) (qsort l') 0) in *. set (y' := nth (n / 2) (qsort l') 0) in *. clearbody x y x' y'.
    assert (forall u, u / qz 2 = u * qf 1 2) as D by (intros u; unfold Qcdiv; f_equal; fcompute). rewrite !D. change (qf 1 2) with (qf 1 2) in *. assert (qf 1 2 + qf 1 2 = 1) as HH by fcompute. assert (0 < qf 1 2) as HP by reflexivity. set (h := qf 1 2) in *. clearbody h. qnra.
  - apply N. apply Nat.div_lt; lia.
Qed.
End Near.

(** ** Windows of rows *)

Lemma selected_rows : forall s qs, vals s = map Fin qs -> forall P lo hi k l, (forall j t, P j t <-> (lo <= j < hi)%nat) -> selected P k s l -> l = skipn (lo - k) (firstn (hi - k) qs).
Proof.
  induction s as [|[t v] s IH]; intros qs E P lo hi k l HP H; destruct qs as [|q qs]; try discriminate E.
  - inversion H; subst. rewrite firstn_nil, skipn_nil. reflexivity.
  - cbn [vals map snd] in E. injection E as -> E. inversion H as [|k0 t0 q0 s0 l0 A B|k0 t0 v0 s0 l0 A B]; subst.
    + apply HP in A. rewrite (IH qs E P lo hi (S k) _ HP B). replace (lo - k)%nat with 0%nat by lia. replace (lo - S k)%nat with 0%nat by lia. replace (hi - k)%nat with (S (hi - S k)) by lia. reflexivity.
    + assert (N : ~ (lo <= k < hi)%nat) by (rewrite <- (HP k t); destruct A as [A|A]; [exact A|]; contradiction (A q); reflexivity).
      rewrite (IH qs E P lo hi (S k) _ HP B). destruct (Nat.le_gt_cases lo k) as [L|L].
      * replace (hi - k)%nat with 0%nat by lia. replace (hi - S k)%nat with 0%nat by lia. rewrite !firstn_O, !skipn_nil. reflexivity.
      * replace (lo - k)%nat with (S (lo - S k)) by lia. destruct (Nat.le_gt_cases hi k) as [L'|L']; [replace (hi - k)%nat with 0%nat by lia; replace (hi - S k)%nat with 0%nat by lia; rewrite !firstn_O, !skipn_nil; reflexivity|].
        replace (hi - k)%nat with (S (hi - S k)) by lia. reflexivity.
Qed.

Lemma window_rows : forall k s qs i t l, vals s = map Fin qs -> (1 <= k)%nat -> selected (around_rows k i t) 0 s l -> (k <= List.length l)%nat ->
  exists a, (a + k = S (i + (k - 1) / 2))%nat /\ (a + k <= List.length qs)%nat /\ l = firstn k (skipn a qs).
Proof.
  intros k s qs i t l E K H L. set (h := ((k - 1) / 2)%nat) in *.
  pose proof (selected_rows s qs E (around_rows k i t) (S (i + h) - k) (S (i + h)) 0 l) as W. rewrite !Nat.sub_0_r in W.
  assert (EL : l = skipn (S (i + h) - k) (firstn (S (i + h)) qs)) by (apply W; [intros j u; unfold around_rows; fold h; lia|exact H]). clear W.
  assert (LL : List.length l = (Nat.min (S (i + h)) (List.length qs) - (S (i + h) - k))%nat) by (rewrite EL, skipn_length, firstn_length; reflexivity).
  exists (S (i + h) - k)%nat. split; [lia|]. split; [lia|]. rewrite EL. rewrite skipn_firstn_comm. f_equal. lia.
Qed.

Lemma shifted_rows : forall (P : Qc -> Qc -> Prop) qs, (forall j x y, nth_error qs j = Some x -> nth_error qs (S j) = Some y -> P x y) ->
  forall k a, (S (a + k) <= List.length qs)%nat -> Forall2 P (firstn k (skipn a qs)) (firstn k (skipn (S a) qs)).
Proof.
  intros P qs H. assert (K : forall k qs, (forall j x y, nth_error qs j = Some x -> nth_error qs (S j) = Some y -> P x y) -> (S k <= List.length qs)%nat -> Forall2 P (firstn k qs) (firstn k (tl qs))).
  { clear. induction k as [|k IH]; intros qs H L; [constructor|]. destruct qs as [|x [|y qs]]; cbn in L; try lia. cbn [firstn tl]. constructor; [exact (H 0%nat x y eq_refl eq_refl)|].
    apply (IH (y :: qs)); [intros j u v; exact (H (S j) u v)|cbn; lia]. }
  intros k a L. replace (skipn (S a) qs) with (tl (skipn a qs)).
  - apply K; [|rewrite skipn_length; lia]. intros j x y. rewrite !nth_error_skipn. rewrite Nat.add_succ_r. apply H.
  - clear. revert qs. induction a as [|a IH]; intros [|q qs]; try reflexivity. apply IH.
Qed.

(** Where no day is lower than the day before by [st], no step of the median is. *)
Theorem step_near : forall k f qs st i d, (1 <= k)%nat -> vals f = map Fin qs -> (forall j x y, nth_error qs j = Some x -> nth_error qs (S j) = Some y -> x - st < y) ->
  step_at k f i d -> - st < d.
Proof.
  intros k f qs st i d K E H (j & m & m' & -> & W & W' & ->). destruct W as (t & v & l & _ & S1 & L1 & M1). destruct W' as (t' & v' & l' & _ & S2 & L2 & M2).
  destruct (window_rows _ _ _ _ _ _ E K S1 L1) as (a & A1 & A2 & ->). destruct (window_rows _ _ _ _ _ _ E K S2 L2) as (b & B1 & B2 & ->). assert (a = S b) as -> by lia.
  pose proof (shifted_rows (fun x y => x - st < y) qs H k b ltac:(lia)) as F. assert (NE : forall u : list Qc, (k <= List.length (firstn k u))%nat -> firstn k u <> []) by (intros u X C; rewrite C in X; cbn in X; lia).
  rewrite (is_median_unique _ _ (NE _ L1) M1), (is_median_unique _ _ (NE _ L2) M2). pose proof (median_near st _ _ (NE _ L2) F). qlra.
Qed.
