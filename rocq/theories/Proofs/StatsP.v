(** The model's quantile and median meet their specifications. *)

From Coq Require Import QArith Qcanon List ZArith Bool Permutation Sorted Lia Arith.
From Verif.Base Require Import QcExtra ISort Quantile Fl.
From Verif.Spec Require Import Stats.
From Verif.Model Require Import Bootstrap.
Import ListNotations.
Open Scope Qc_scope.

Lemma arranged_qsort : forall l, arranged l (qsort l).
Proof.
  intros l. split; [apply qsort_perm |].
  apply StronglySorted_Sorted, qsort_sorted.
Qed.

Lemma arranged_unique : forall l s, arranged l s -> s = qsort l.
Proof.
  intros l s [HP HS]. rewrite (qsort_perm_eq l s HP). symmetry.
  apply qsorted_sort_id. apply Sorted_StronglySorted; [| exact HS].
  intros x y z H1 H2. qlra.
Qed.

Lemma qmedian_spec : forall l, l <> [] -> is_median l (qmedian l).
Proof.
  intros l Hl. exists (qsort l). split; [apply arranged_qsort |].
  unfold qmedian. set (s := qsort l).
  assert (0 < length s)%nat as Hn.
  { unfold s. rewrite qsort_length. destruct l; [congruence | cbn; lia]. }
  destruct (Nat.even (length s)) eqn:E.
  - right. apply Nat.even_spec in E. destruct E as [j Hj]. exists (j - 1)%nat.
    split; [lia |]. rewrite Hj. replace (2 * j / 2)%nat with j.
    + replace (j - 1 + 1)%nat with j by lia. reflexivity.
    + rewrite Nat.mul_comm, Nat.div_mul; lia.
  - left. assert (Nat.odd (length s) = true) as Ho by (rewrite <- Nat.negb_even, E; reflexivity).
    apply Nat.odd_spec in Ho. destruct Ho as [j Hj]. exists j. split; [exact Hj |].
    rewrite Hj. replace ((2 * j + 1) / 2)%nat with j; [reflexivity |].
    apply Nat.div_unique with 1%nat; lia.
Qed.

Lemma is_median_unique : forall l m, l <> [] -> is_median l m -> m = qmedian l.
Proof.
  intros l m Hl (s & Hs & H). apply arranged_unique in Hs. subst s.
  unfold qmedian. destruct H as [(k & Hk & ->) | (k & Hk & ->)]; rewrite Hk.
  - replace (Nat.even (2 * k + 1)) with false.
    + f_equal. apply Nat.div_unique with 1%nat; lia.
    + symmetry. rewrite Nat.add_1_r, Nat.even_succ, <- Nat.negb_even, Nat.even_mul. reflexivity.
  - replace (Nat.even (2 * k + 2)) with true.
    + replace ((2 * k + 2) / 2)%nat with (k + 1)%nat by (apply Nat.div_unique with 0%nat; lia).
      replace (k + 1 - 1)%nat with k by lia. reflexivity.
    + symmetry. apply Nat.even_spec. exists (k + 1)%nat. lia.
Qed.

Lemma qpercentile_spec : forall p l, l <> [] -> 0 <= p -> p <= qz 100 ->
  is_percentile p l (qquantile (p / qz 100) l).
Proof.
  intros p l Hl H0 H1.
  assert (0 <= p / qz 100) as P0 by (apply Qc_le_div; qlra).
  assert (p / qz 100 <= 1) as P1 by (apply Qc_div_le; qlra).
  destruct (qq_pos _ l Hl P0 P1) as [Q0 Q1].
  set (h := qz (Z.of_nat (length l) - 1) * (p / qz 100)) in *.
  exists (qsort l), (Z.to_nat (qfloor h)), (h - qz (qfloor h)).
  rewrite <- (qsort_length l) in Q1.
  pose proof (lo_ix_bound (qsort l) h Q0 Q1) as L. unfold lo_ix in L.
  pose proof (qfloor_nonneg h Q0). pose proof (qfloor_le h). pose proof (qfloor_lt h).
  split; [apply arranged_qsort |]. split; [qlra |]. split; [qlra |].
  rewrite qsort_length. fold h.
  split; [rewrite Z2Nat.id by assumption; ring |].
  rewrite qsort_length in L. split; [exact L |].
  unfold qquantile. fold h. unfold lerp_at. rewrite qsort_length.
  set (k := Z.to_nat (qfloor h)) in *.
  destruct (Nat.lt_ge_cases (S k) (length l)) as [C | C].
  - replace (Nat.min (S k) (length l - 1)) with (S k) by lia.
    rewrite (nth_indep (qsort l) (nth k (qsort l) 0) 0) by (rewrite qsort_length; lia).
    reflexivity.
  - replace (Nat.min (S k) (length l - 1)) with k by lia.
    rewrite (nth_overflow (qsort l) (nth k (qsort l) 0)) by (rewrite qsort_length; lia).
    reflexivity.
Qed.

Lemma existsb_isnan_Fin : forall l, existsb isnan (map Fin l) = false.
Proof. induction l as [| x l IH]; cbn; [reflexivity | exact IH]. Qed.

Lemma noinf_map_Fin : forall l, noinf (map Fin l).
Proof.
  intros l x H. apply in_map_iff in H. destruct H as [y [<- _]]. split; discriminate.
Qed.

Lemma np_percentile_fin : forall p l, l <> [] -> 0 <= p -> p <= qz 100 ->
  np_percentile p (map Fin l) = Ok (Fin (qquantile (p / qz 100) l)).
Proof.
  intros p l Hl H0 H1. unfold np_percentile.
  rewrite (proj2 (qle_spec 0 p) H0), (proj2 (qle_spec p (qz 100)) H1). cbn [andb].
  rewrite existsb_isnan_Fin. rewrite fquantile_noinf.
  - rewrite finvals_map_Fin. reflexivity.
  - apply noinf_map_Fin.
  - rewrite finvals_map_Fin. exact Hl.
  - apply Qc_le_div; qlra.
  - apply Qc_div_le; qlra.
Qed.

Lemma np_percentile_bad : forall p l, (p < 0 \/ qz 100 < p) -> np_percentile p l = Raise ValueError.
Proof.
  intros p l [H | H]; unfold np_percentile.
  - apply qle_false in H. rewrite H. reflexivity.
  - apply qle_false in H. rewrite H, andb_false_r. reflexivity.
Qed.

Lemma qquantile_0_min : forall l, l <> [] -> is_min l (qquantile 0 l).
Proof.
  intros l Hl. rewrite qquantile_0 by exact Hl. split.
  - apply qsort_nth_In. destruct l; [congruence | cbn; lia].
  - apply qsort_first_min.
Qed.

Lemma qquantile_1_max : forall l, l <> [] -> is_max l (qquantile 1 l).
Proof.
  intros l Hl. rewrite qquantile_1 by exact Hl. split.
  - apply qsort_nth_In. destruct l; [congruence | cbn; lia].
  - apply qsort_last_max.
Qed.

(** Half-width positions of a percentile interval. *)
Lemma ci_lo_range : forall c, 0 <= c -> c <= qz 100 ->
  0 <= qz 50 - c / qz 2 /\ qz 50 - c / qz 2 <= qz 50.
Proof.
  intros c H0 H1.
  assert (0 <= c / qz 2) by (apply Qc_le_div; qlra).
  assert (c / qz 2 <= qz 50) by (apply Qc_div_le; qlra).
  split; qlra.
Qed.

Lemma ci_value : forall c l, l <> [] -> 0 <= c -> c <= qz 100 ->
  percentile_ci c (map Fin l) =
  Ok (Fin (qquantile ((qz 50 - c / qz 2) / qz 100) l),
      Fin (qquantile ((qz 50 + c / qz 2) / qz 100) l)).
Proof.
  intros c l Hl H0 H1. destruct (ci_lo_range c H0 H1). unfold percentile_ci.
  rewrite !np_percentile_fin; auto; try qlra; cbn [bind]; reflexivity.
Qed.

Lemma half_eq : qz 50 / qz 100 = qf 1 2.
Proof. qc_canon. Qed.

Lemma div100_mono : forall a b, a <= b -> a / qz 100 <= b / qz 100.
Proof. intros a b H. apply Qc_div_le; [qlra |]. rewrite Qc_div_mul; [exact H | discriminate]. Qed.

Lemma div100_range : forall a, 0 <= a -> a <= qz 100 -> 0 <= a / qz 100 /\ a / qz 100 <= 1.
Proof.
  intros a H0 H1. split; [apply Qc_le_div; qlra | apply Qc_div_le; qlra].
Qed.

Lemma ci_ordered : forall c l m, l <> [] -> 0 <= c -> c <= qz 100 -> is_median l m ->
  exists lo hi, percentile_ci c (map Fin l) = Ok (Fin lo, Fin hi) /\ lo <= m /\ m <= hi.
Proof.
  intros c l m Hl H0 H1 Hm. apply is_median_unique in Hm; [| exact Hl]. subst m.
  destruct (ci_lo_range c H0 H1) as [A B].
  eexists. eexists. split; [apply ci_value; assumption |].
  rewrite qmedian_quantile by exact Hl. rewrite <- half_eq.
  destruct (div100_range (qz 50) ltac:(qlra) ltac:(qlra)).
  destruct (div100_range (qz 50 - c / qz 2) ltac:(qlra) ltac:(qlra)).
  destruct (div100_range (qz 50 + c / qz 2) ltac:(qlra) ltac:(qlra)).
  split; apply qquantile_mono; auto; apply div100_mono; qlra.
Qed.

Lemma half_mono : forall c c', c <= c' -> c / qz 2 <= c' / qz 2.
Proof. intros c c' H. apply Qc_div_le; [qlra |]. rewrite Qc_div_mul; [exact H | discriminate]. Qed.

Lemma ci_nested : forall c c' l lo hi lo' hi', l <> [] -> 0 <= c -> c <= c' -> c' <= qz 100 ->
  percentile_ci c (map Fin l) = Ok (Fin lo, Fin hi) ->
  percentile_ci c' (map Fin l) = Ok (Fin lo', Fin hi') ->
  lo' <= lo /\ hi <= hi'.
Proof.
  intros c c' l lo hi lo' hi' Hl H0 H1 H2 E E'.
  assert (c <= qz 100) as H3 by qlra. assert (0 <= c') as H4 by qlra.
  rewrite ci_value in E by assumption. rewrite ci_value in E' by assumption.
  injection E as <- <-. injection E' as <- <-.
  pose proof (half_mono c c' H1).
  destruct (ci_lo_range c H0 H3). destruct (ci_lo_range c' H4 H2).
  destruct (div100_range (qz 50 - c' / qz 2) ltac:(qlra) ltac:(qlra)).
  destruct (div100_range (qz 50 - c / qz 2) ltac:(qlra) ltac:(qlra)).
  destruct (div100_range (qz 50 + c / qz 2) ltac:(qlra) ltac:(qlra)).
  destruct (div100_range (qz 50 + c' / qz 2) ltac:(qlra) ltac:(qlra)).
  split; apply qquantile_mono; auto; apply div100_mono; qlra.
Qed.

Lemma ci_full : forall l, l <> [] ->
  exists lo hi, percentile_ci (qz 100) (map Fin l) = Ok (Fin lo, Fin hi) /\
    is_min l lo /\ is_max l hi.
Proof.
  intros l Hl. eexists. eexists. split; [apply ci_value; [exact Hl | qlra | qlra] |].
  replace ((qz 50 - qz 100 / qz 2) / qz 100) with 0 by qc_canon.
  replace ((qz 50 + qz 100 / qz 2) / qz 100) with 1 by qc_canon.
  split; [apply qquantile_0_min | apply qquantile_1_max]; exact Hl.
Qed.

Lemma ci_rejected : forall c l, (qz 100 < c \/ c < - qz 100) ->
  percentile_ci c l = Raise ValueError.
Proof.
  intros c l [H | H]; unfold percentile_ci.
  - rewrite np_percentile_bad; [reflexivity |]. left.
    assert (qz 50 < c / qz 2) by (apply Qc_lt_div; qlra). qlra.
  - rewrite np_percentile_bad; [reflexivity |]. right.
    assert (c / qz 2 < - qz 50) by (apply Qc_div_lt; qlra). qlra.
Qed.

Lemma ci_percentiles : forall c l, l <> [] -> 0 <= c -> c <= qz 100 ->
  exists lo hi, percentile_ci c (map Fin l) = Ok (Fin lo, Fin hi) /\
    is_percentile (qz 50 - c / qz 2) l lo /\ is_percentile (qz 50 + c / qz 2) l hi.
Proof.
  intros c l Hl H0 H1. destruct (ci_lo_range c H0 H1).
  eexists. eexists. split; [apply ci_value; assumption |].
  split; apply qpercentile_spec; auto; qlra.
Qed.

Lemma exceedance_value : forall e l, l <> [] -> 0 <= e -> e <= qz 100 ->
  exceedance e (map Fin l) = Ok (Fin (qquantile ((qz 100 - e) / qz 100) l)).
Proof. intros e l Hl H0 H1. unfold exceedance. apply np_percentile_fin; auto; qlra. Qed.

Lemma exceedance_antitone : forall e e' l, l <> [] -> 0 <= e -> e <= e' -> e' <= qz 100 ->
  exists v v', exceedance e (map Fin l) = Ok (Fin v) /\ exceedance e' (map Fin l) = Ok (Fin v') /\
    v' <= v /\ is_percentile (qz 100 - e) l v.
Proof.
  intros e e' l Hl H0 H1 H2. eexists. eexists.
  split; [apply exceedance_value; auto; qlra |].
  split; [apply exceedance_value; auto; qlra |].
  destruct (div100_range (qz 100 - e') ltac:(qlra) ltac:(qlra)).
  destruct (div100_range (qz 100 - e) ltac:(qlra) ltac:(qlra)).
  split.
  - apply qquantile_mono; auto. apply div100_mono. qlra.
  - apply qpercentile_spec; auto; qlra.
Qed.
