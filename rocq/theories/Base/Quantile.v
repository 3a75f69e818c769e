(** Quantiles and medians of finite rationals (no rdtools code).

    [qquantile q l] is the linear-interpolation quantile used by
    [numpy.percentile] / [numpy.quantile] and [pandas.Series.quantile]
    (numpy/lib/_function_base_impl.py, method "linear"): with the values sorted
    as x_0 <= ... <= x_(n-1) and h = (n-1) q it is
    x_floor(h) + (x_(floor(h)+1) - x_floor(h)) (h - floor h).
    [qmedian] is the middle value, or the mean of the two middle values. *)

From Coq Require Import QArith Qcanon Lqa Lia List ZArith Bool Permutation Sorted Arith.
From Verif.Base Require Import QcExtra ISort.
Import ListNotations.
Open Scope Qc_scope.

Definition qsort (l : list Qc) : list Qc := isort qle l.

(** Interpolated order statistic at (real) position [h] of a sorted list. *)
Definition lerp_at (s : list Qc) (h : Qc) : Qc :=
  let i := qfloor h in
  let a := nth (Z.to_nat i) s 0 in
  let b := nth (Nat.min (S (Z.to_nat i)) (length s - 1)) s 0 in
  a + (b - a) * (h - qz i).

Definition qquantile (q : Qc) (l : list Qc) : Qc :=
  lerp_at (qsort l) (qz (Z.of_nat (length l) - 1) * q).

Definition qmedian (l : list Qc) : Qc :=
  let s := qsort l in
  let n := length s in
  if Nat.even n then (nth (n / 2 - 1) s 0 + nth (n / 2) s 0) / qz 2
  else nth (n / 2) s 0.

(** [np.percentile(l, p)] with [p] in percent. *)
Definition qpercentile (p : Qc) (l : list Qc) : Qc := qquantile (p / qz 100) l.

(** ** Sorting facts *)

Lemma qle_total : forall x y, qle x y = true \/ qle y x = true.
Proof.
  intros x y. destruct (qle x y) eqn:E; [left; reflexivity | right].
  qb. qlra.
Qed.

Lemma qle_trans : forall x y z, qle x y = true -> qle y z = true -> qle x z = true.
Proof. intros x y z H1 H2. qb. qlra. Qed.

Lemma qle_antisym : forall x y, qle x y = true -> qle y x = true -> x = y.
Proof. intros x y H1 H2. qb. qlra. Qed.

Definition qsorted (s : list Qc) : Prop := StronglySorted (fun x y => x <= y) s.

Lemma qsort_sorted : forall l, qsorted (qsort l).
Proof.
  intros l. unfold qsorted, qsort.
  pose proof (isort_sorted qle qle_total qle_trans l) as H.
  induction H as [| x s Hs IH Hx]; constructor; auto.
  eapply Forall_impl; [| exact Hx]. intros y Hy. red in Hy. qb. exact Hy.
Qed.

Lemma qsort_perm : forall l, Permutation l (qsort l).
Proof. intros l. apply isort_perm. Qed.

Lemma qsort_length : forall l, length (qsort l) = length l.
Proof. intros l. apply isort_length. Qed.

Lemma qsort_In : forall x l, In x (qsort l) <-> In x l.
Proof. intros x l. apply isort_In. Qed.

Lemma qsort_perm_eq : forall l1 l2, Permutation l1 l2 -> qsort l1 = qsort l2.
Proof.
  intros l1 l2 H. apply isort_unique; auto using qle_total.
  - exact qle_trans.
  - intros x y _ _. apply qle_antisym.
Qed.

Lemma qsorted_sort_id : forall s, qsorted s -> qsort s = s.
Proof.
  intros s H. apply isort_fixed.
  induction H as [| x s Hs IH Hx]; constructor; auto.
  eapply Forall_impl; [| exact Hx]. intros y Hy. red. qb. exact Hy.
Qed.

Lemma qsorted_nth : forall s i j, qsorted s -> (i <= j)%nat -> (j < length s)%nat ->
  nth i s 0 <= nth j s 0.
Proof.
  intros s i j Hs Hij Hj. destruct (Nat.eq_dec i j) as [-> | N]; [apply Qcle_refl' |].
  apply (StronglySorted_nth _ (fun x y => x <= y)); [exact Hs | lia | exact Hj].
Qed.

(** ** Interpolation in a sorted list *)

Section Lerp.
  Variable s : list Qc.
  Hypothesis Hs : qsorted s.
  Let n1 : Z := (Z.of_nat (length s) - 1)%Z.

  Definition lo_ix (h : Qc) : nat := Z.to_nat (qfloor h).
  Definition hi_ix (h : Qc) : nat := Nat.min (S (lo_ix h)) (length s - 1).

  Lemma lerp_at_eq : forall h,
    lerp_at s h =
    nth (lo_ix h) s 0 + (nth (hi_ix h) s 0 - nth (lo_ix h) s 0) * (h - qz (qfloor h)).
  Proof. reflexivity. Qed.

  Lemma lo_ix_bound : forall h, 0 <= h -> h <= qz n1 -> (lo_ix h < length s)%nat.
  Proof.
    intros h H0 H1. unfold lo_ix.
    pose proof (qfloor_nonneg h H0). apply qfloor_mono in H1. rewrite qfloor_qz in H1.
    unfold n1 in *. lia.
  Qed.

  Lemma hi_ix_bound : forall h, 0 <= h -> h <= qz n1 -> (hi_ix h < length s)%nat.
  Proof. intros h H0 H1. pose proof (lo_ix_bound h H0 H1). unfold hi_ix. lia. Qed.

  Lemma lo_hi : forall h, 0 <= h -> h <= qz n1 -> (lo_ix h <= hi_ix h)%nat.
  Proof. intros h H0 H1. pose proof (lo_ix_bound h H0 H1). unfold hi_ix. lia. Qed.

  Lemma lerp_between : forall h, 0 <= h -> h <= qz n1 ->
    nth (lo_ix h) s 0 <= lerp_at s h /\ lerp_at s h <= nth (hi_ix h) s 0.
  Proof.
    intros h H0 H1. rewrite lerp_at_eq.
    assert (nth (lo_ix h) s 0 <= nth (hi_ix h) s 0) as L.
    { apply qsorted_nth; auto using lo_hi, hi_ix_bound. }
    pose proof (qfloor_le h). pose proof (qfloor_lt h).
    split; qnra.
  Qed.

  Lemma lerp_bounds : forall h m M, 0 <= h -> h <= qz n1 ->
    (forall x, In x s -> m <= x /\ x <= M) -> m <= lerp_at s h /\ lerp_at s h <= M.
  Proof.
    intros h m M H0 H1 HB. destruct (lerp_between h H0 H1) as [A B].
    pose proof (HB _ (nth_In s 0 (lo_ix_bound h H0 H1))) as [C _].
    pose proof (HB _ (nth_In s 0 (hi_ix_bound h H0 H1))) as [_ D].
    split; qlra.
  Qed.

  Lemma lerp_mono : forall h h', 0 <= h -> h <= h' -> h' <= qz n1 ->
    lerp_at s h <= lerp_at s h'.
  Proof.
    intros h h' H0 H1 H2.
    assert (h <= qz n1) as H3 by qlra. assert (0 <= h') as H4 by qlra.
    pose proof (qfloor_mono h h' H1) as F. pose proof (qfloor_nonneg h H0) as F0.
    destruct (Z.eq_dec (qfloor h) (qfloor h')) as [E | NE].
    - rewrite !lerp_at_eq. unfold hi_ix, lo_ix. rewrite <- E.
      fold (lo_ix h). fold (hi_ix h).
      assert (nth (lo_ix h) s 0 <= nth (hi_ix h) s 0) as L.
      { apply qsorted_nth; auto using lo_hi, hi_ix_bound. }
      qnra.
    - destruct (lerp_between h H0 H3) as [_ A].
      destruct (lerp_between h' H4 H2) as [B _].
      assert (nth (hi_ix h) s 0 <= nth (lo_ix h') s 0) as L.
      { pose proof (lo_ix_bound h' H4 H2). apply qsorted_nth; auto.
        unfold hi_ix, lo_ix in *. lia. }
      qlra.
  Qed.

  Lemma lerp_at_int : forall k, (k < length s)%nat ->
    lerp_at s (qz (Z.of_nat k)) = nth k s 0.
  Proof.
    intros k Hk. rewrite lerp_at_eq. unfold lo_ix. rewrite qfloor_qz, Nat2Z.id. ring.
  Qed.
End Lerp.

(** ** Quantile facts *)

Lemma qq_pos : forall q (l : list Qc), l <> [] -> 0 <= q -> q <= 1 ->
  0 <= qz (Z.of_nat (length l) - 1) * q /\
  qz (Z.of_nat (length l) - 1) * q <= qz (Z.of_nat (length l) - 1).
Proof.
  intros q l Hl H0 H1.
  assert (0 <= qz (Z.of_nat (length l) - 1)) as P.
  { apply qz_nonneg. destruct l; [congruence | cbn [length]; lia]. }
  split; qnra.
Qed.

Lemma qquantile_perm : forall q l1 l2, Permutation l1 l2 -> qquantile q l1 = qquantile q l2.
Proof.
  intros q l1 l2 H. unfold qquantile.
  rewrite (qsort_perm_eq l1 l2 H), (Permutation_length H). reflexivity.
Qed.

Lemma qmedian_perm : forall l1 l2, Permutation l1 l2 -> qmedian l1 = qmedian l2.
Proof.
  intros l1 l2 H. unfold qmedian. rewrite (qsort_perm_eq l1 l2 H). reflexivity.
Qed.

Lemma qquantile_bounds : forall q l m M, l <> [] -> 0 <= q -> q <= 1 ->
  (forall x, In x l -> m <= x /\ x <= M) ->
  m <= qquantile q l /\ qquantile q l <= M.
Proof.
  intros q l m M Hl H0 H1 HB. unfold qquantile.
  destruct (qq_pos q l Hl H0 H1) as [P1 P2].
  apply lerp_bounds; [apply qsort_sorted | exact P1 | rewrite qsort_length; exact P2 |].
  intros x Hx. apply HB, qsort_In, Hx.
Qed.

Lemma qquantile_mono : forall q q' l, l <> [] -> 0 <= q -> q <= q' -> q' <= 1 ->
  qquantile q l <= qquantile q' l.
Proof.
  intros q q' l Hl H0 H1 H2. unfold qquantile.
  assert (q <= 1) as H3 by qlra. assert (0 <= q') as H4 by qlra.
  destruct (qq_pos q l Hl H0 H3) as [P1 P2].
  destruct (qq_pos q' l Hl H4 H2) as [P3 P4].
  apply lerp_mono; [apply qsort_sorted | exact P1 | | rewrite qsort_length; exact P4].
  assert (0 <= qz (Z.of_nat (length l) - 1)) as P.
  { apply qz_nonneg. destruct l; [congruence | cbn [length]; lia]. }
  qnra.
Qed.

Lemma qquantile_0 : forall l, l <> [] -> qquantile 0 l = nth 0 (qsort l) 0.
Proof.
  intros l Hl. unfold qquantile. rewrite Qcmult_0_r.
  change 0 with (qz (Z.of_nat 0)) at 1. apply lerp_at_int.
  rewrite qsort_length. destruct l; [congruence | cbn [length]; lia].
Qed.

Lemma qquantile_1 : forall l, l <> [] ->
  qquantile 1 l = nth (length l - 1) (qsort l) 0.
Proof.
  intros l Hl. unfold qquantile. rewrite Qcmult_1_r.
  assert (0 < length l)%nat by (destruct l; [congruence | cbn [length]; lia]).
  replace (Z.of_nat (length l) - 1)%Z with (Z.of_nat (length l - 1)) by lia.
  apply lerp_at_int. rewrite qsort_length. lia.
Qed.

(** Minimum and maximum of the data are the extreme order statistics. *)
Lemma qsort_first_min : forall l x, In x l -> nth 0 (qsort l) 0 <= x.
Proof.
  intros l x H. apply qsort_In in H. destruct (In_nth _ _ 0 H) as [k [Hk <-]].
  apply qsorted_nth; [apply qsort_sorted | lia | exact Hk].
Qed.

Lemma qsort_last_max : forall l x, In x l -> x <= nth (length l - 1) (qsort l) 0.
Proof.
  intros l x H. apply qsort_In in H. destruct (In_nth _ _ 0 H) as [k [Hk <-]].
  rewrite qsort_length in Hk.
  apply qsorted_nth; [apply qsort_sorted | lia | rewrite qsort_length; lia].
Qed.

Lemma qsort_nth_In : forall l k, (k < length l)%nat -> In (nth k (qsort l) 0) l.
Proof.
  intros l k H. apply qsort_In, nth_In. rewrite qsort_length. exact H.
Qed.

(** ** Affine equivariance *)

Lemma qsort_map_affine : forall a b l, 0 < a ->
  qsort (map (fun x => a * x + b) l) = map (fun x => a * x + b) (qsort l).
Proof.
  intros a b l Ha. unfold qsort. apply isort_map. intros x y.
  destruct (qle x y) eqn:E; qb; qnra.
Qed.

Lemma qsort_map_const : forall b (l : list Qc),
  qsort (map (fun _ => b) l) = map (fun _ => b) l.
Proof.
  intros b l. apply qsorted_sort_id. induction l as [| x l IH]; cbn; constructor; auto.
  apply Forall_forall. intros y Hy. apply in_map_iff in Hy. destruct Hy as [z [<- _]].
  apply Qcle_refl'.
Qed.

Lemma nth_map_q : forall (f : Qc -> Qc) s i, (i < length s)%nat ->
  nth i (map f s) 0 = f (nth i s 0).
Proof.
  intros f s i H. rewrite (nth_indep _ 0 (f 0)); [apply map_nth |].
  rewrite map_length. exact H.
Qed.

Lemma lerp_at_map : forall a b s h, 0 <= h -> h <= qz (Z.of_nat (length s) - 1) ->
  lerp_at (map (fun x => a * x + b) s) h = a * lerp_at s h + b.
Proof.
  intros a b s h H0 H1. rewrite !lerp_at_eq. unfold hi_ix, lo_ix. rewrite map_length.
  pose proof (lo_ix_bound s h H0 H1) as L. pose proof (hi_ix_bound s h H0 H1) as U.
  unfold hi_ix, lo_ix in *. rewrite !nth_map_q by assumption. ring.
Qed.

Lemma qquantile_affine : forall q a b l, l <> [] -> 0 <= q -> q <= 1 -> 0 <= a ->
  qquantile q (map (fun x => a * x + b) l) = a * qquantile q l + b.
Proof.
  intros q a b l Hl H0 H1 Ha. unfold qquantile. rewrite map_length.
  destruct (qq_pos q l Hl H0 H1) as [P1 P2].
  destruct (Qc_le_lt_or_eq _ _ Ha) as [Hp | E].
  - rewrite qsort_map_affine by exact Hp.
    apply lerp_at_map; [exact P1 | rewrite qsort_length; exact P2].
  - subst a.
    assert (map (fun x => 0 * x + b) l = map (fun _ => b) l) as E.
    { apply map_ext. intros x. ring. }
    rewrite E, qsort_map_const, <- E.
    rewrite lerp_at_map; [ring | exact P1 | exact P2].
Qed.

Lemma qquantile_scale : forall q c l, l <> [] -> 0 <= q -> q <= 1 -> 0 <= c ->
  qquantile q (map (Qcmult c) l) = c * qquantile q l.
Proof.
  intros q c l Hl H0 H1 Hc.
  rewrite (map_ext (Qcmult c) (fun x => c * x + 0)) by (intros; ring).
  rewrite qquantile_affine by assumption. ring.
Qed.

Lemma qquantile_const : forall q c (l : list Qc), l <> [] -> 0 <= q -> q <= 1 ->
  (forall x, In x l -> x = c) -> qquantile q l = c.
Proof.
  intros q c l Hl H0 H1 H.
  destruct (qquantile_bounds q l c c Hl H0 H1) as [A B].
  - intros x Hx. rewrite (H x Hx). split; apply Qcle_refl'.
  - qlra.
Qed.

(** ** The median is the 1/2 quantile *)

Lemma qmedian_quantile : forall l, l <> [] -> qmedian l = qquantile (qf 1 2) l.
Proof.
  intros l Hl. unfold qmedian, qquantile. rewrite qsort_length.
  set (n := length l). assert (0 < n)%nat as Hn by (destruct l; [congruence | cbn in *; lia]).
  rewrite lerp_at_eq. unfold hi_ix, lo_ix. rewrite qsort_length. fold n.
  assert (forall m, Nat.even m = true -> m = (2 * (m / 2))%nat) as EV.
  { intros m Hm. apply Nat.even_spec in Hm. destruct Hm as [k ->].
    rewrite (Nat.mul_comm 2 k), Nat.div_mul by lia. lia. }
  assert (forall m, Nat.even m = false -> m = (2 * (m / 2) + 1)%nat) as OD.
  { intros m Hm. assert (Nat.odd m = true) as Ho by (rewrite <- Nat.negb_even, Hm; reflexivity).
    apply Nat.odd_spec in Ho. destruct Ho as [k ->].
    replace ((2 * k + 1) / 2)%nat with k; [lia |].
    apply Nat.div_unique with 1%nat; lia. }
  destruct (Nat.even n) eqn:E.
  - apply EV in E. set (k := (n / 2)%nat) in *.
    assert (qfloor (qz (Z.of_nat n - 1) * qf 1 2) = Z.of_nat k - 1)%Z as F.
    { apply qfloor_unique.
      - replace (Z.of_nat n - 1)%Z with (2 * (Z.of_nat k - 1) + 1)%Z by lia.
        rewrite qz_add, qz_mul. qlra.
      - replace (Z.of_nat n - 1)%Z with (2 * (Z.of_nat k - 1) + 1)%Z by lia.
        rewrite qz_add, qz_mul. qlra. }
    rewrite F. replace (Z.to_nat (Z.of_nat k - 1)) with (k - 1)%nat by lia.
    replace (Nat.min (S (k - 1)) (n - 1)) with k by lia.
    replace (Z.of_nat n - 1)%Z with (2 * (Z.of_nat k - 1) + 1)%Z by lia.
    rewrite qz_add, qz_mul. change (qz 2) with (1 + 1). change (qz 1) with 1.
    change (qf 1 2) with (1 / (1 + 1)). field. discriminate.
  - apply OD in E. set (k := (n / 2)%nat) in *.
    assert (qz (Z.of_nat n - 1) * qf 1 2 = qz (Z.of_nat k)) as F.
    { replace (Z.of_nat n - 1)%Z with (2 * Z.of_nat k)%Z by lia. rewrite qz_mul. qlra. }
    rewrite F, qfloor_qz, Nat2Z.id. ring.
Qed.

Lemma half_range : 0 <= qf 1 2 /\ qf 1 2 <= 1.
Proof. split; qlra. Qed.

Lemma qmedian_bounds : forall l m M, l <> [] ->
  (forall x, In x l -> m <= x /\ x <= M) -> m <= qmedian l /\ qmedian l <= M.
Proof.
  intros l m M Hl H. rewrite qmedian_quantile by exact Hl.
  apply qquantile_bounds; auto; apply half_range.
Qed.

Lemma qmedian_affine : forall a b l, l <> [] -> 0 <= a ->
  qmedian (map (fun x => a * x + b) l) = a * qmedian l + b.
Proof.
  intros a b l Hl Ha. rewrite !qmedian_quantile; auto.
  - apply qquantile_affine; auto; apply half_range.
  - destruct l; [congruence | discriminate].
Qed.

Lemma qmedian_scale : forall c l, l <> [] -> 0 <= c ->
  qmedian (map (Qcmult c) l) = c * qmedian l.
Proof.
  intros c l Hl Hc.
  rewrite (map_ext (Qcmult c) (fun x => c * x + 0)) by (intros; ring).
  rewrite qmedian_affine by assumption. ring.
Qed.

Lemma qmedian_const : forall c l, l <> [] -> (forall x, In x l -> x = c) -> qmedian l = c.
Proof.
  intros c l Hl H. rewrite qmedian_quantile by exact Hl.
  apply qquantile_const; auto; apply half_range.
Qed.

(** ** Negation reverses quantiles *)

Lemma qsorted_rev_opp : forall s, qsorted s -> qsorted (rev (map Qcopp s)).
Proof.
  intros s H. induction H as [| x s Hs IH Hx]; cbn; [constructor |].
  apply StronglySorted_app; [exact IH | repeat constructor |].
  intros y z Hy [<- | []]. apply in_rev in Hy. apply in_map_iff in Hy.
  destruct Hy as [w [<- Hw]]. rewrite Forall_forall in Hx. specialize (Hx w Hw). qlra.
Qed.

Lemma qsort_map_opp : forall l, qsort (map Qcopp l) = rev (map Qcopp (qsort l)).
Proof.
  intros l. rewrite <- (qsorted_sort_id (rev (map Qcopp (qsort l)))).
  - apply qsort_perm_eq. rewrite <- Permutation_rev.
    apply Permutation_map, qsort_perm.
  - apply qsorted_rev_opp, qsort_sorted.
Qed.

Lemma lerp_at_rev_opp : forall s h, 0 <= h -> h <= qz (Z.of_nat (length s) - 1) ->
  lerp_at (rev (map Qcopp s)) h = - lerp_at s (qz (Z.of_nat (length s) - 1) - h).
Proof.
  intros s h H0 H1. set (n := length s).
  assert (0 < n)%nat as Hn.
  { assert (qz 0 <= qz (Z.of_nat n - 1)) as L by (change (qz 0) with 0; unfold n; qlra).
    apply qz_le_e in L. lia. }
  assert (forall i, (i < n)%nat -> nth i (rev (map Qcopp s)) 0 = - nth (n - 1 - i) s 0) as NR.
  { intros i Hi. rewrite rev_nth by (rewrite map_length; exact Hi).
    rewrite map_length. fold n. rewrite nth_map_q by (fold n; lia).
    f_equal. f_equal. lia. }
  pose proof (qfloor_nonneg h H0) as F0. pose proof (qfloor_mono h _ H1) as F1.
  rewrite qfloor_qz in F1. fold n in F1. fold n in H1.
  rewrite !lerp_at_eq. unfold hi_ix, lo_ix. rewrite rev_length, map_length. fold n.
  set (f := qfloor h) in *.
  destruct (Qc_eq_dec h (qz f)) as [E | NE].
  - (* integer position *)
    assert (qfloor (qz (Z.of_nat n - 1) - h) = Z.of_nat n - 1 - f)%Z as G.
    { rewrite E, <- qz_sub. apply qfloor_qz. }
    rewrite G, E, <- (qz_sub (Z.of_nat n - 1) f). rewrite NR by lia.
    replace (n - 1 - Z.to_nat f)%nat with (Z.to_nat (Z.of_nat n - 1 - f)) by lia.
    ring.
  - (* strictly between two integers *)
    pose proof (qfloor_le h) as A. pose proof (qfloor_lt h) as B. fold f in A, B.
    assert (qz f < h) as A' by (destruct (Qc_le_lt_or_eq _ _ A); [assumption | congruence]).
    assert (f < Z.of_nat n - 1)%Z as F2.
    { apply qz_lt_e. qlra. }
    assert (qfloor (qz (Z.of_nat n - 1) - h) = Z.of_nat n - 2 - f)%Z as G.
    { apply qfloor_unique.
      - replace (Z.of_nat n - 2 - f)%Z with ((Z.of_nat n - 1) - (f + 1))%Z by lia.
        rewrite qz_sub, qz_add. change (qz 1) with 1. qlra.
      - replace (Z.of_nat n - 2 - f)%Z with ((Z.of_nat n - 1) - (f + 1))%Z by lia.
        rewrite (qz_sub _ (f + 1)), qz_add. change (qz 1) with 1. qlra. }
    rewrite G.
    replace (Nat.min (S (Z.to_nat f)) (n - 1)) with (S (Z.to_nat f)) by lia.
    rewrite !NR by lia.
    replace (n - 1 - S (Z.to_nat f))%nat with (Z.to_nat (Z.of_nat n - 2 - f)) by lia.
    replace (Nat.min (S (Z.to_nat (Z.of_nat n - 2 - f))) (n - 1))
      with (n - 1 - Z.to_nat f)%nat by lia.
    set (u := nth (n - 1 - Z.to_nat f) s 0).
    set (v := nth (Z.to_nat (Z.of_nat n - 2 - f)) s 0).
    replace (Z.of_nat n - 2 - f)%Z with ((Z.of_nat n - 1) - (f + 1))%Z by lia.
    rewrite (qz_sub _ (f + 1)), (qz_add f 1). change (qz 1) with 1. ring.
Qed.

Lemma qquantile_opp : forall q l, l <> [] -> 0 <= q -> q <= 1 ->
  qquantile q (map Qcopp l) = - qquantile (1 - q) l.
Proof.
  intros q l Hl H0 H1. unfold qquantile. rewrite qsort_map_opp, map_length.
  destruct (qq_pos q l Hl H0 H1) as [P1 P2].
  rewrite lerp_at_rev_opp; [| exact P1 | rewrite qsort_length; exact P2].
  rewrite qsort_length. f_equal. f_equal. ring.
Qed.

Lemma qmedian_opp : forall l, l <> [] -> qmedian (map Qcopp l) = - qmedian l.
Proof.
  intros l Hl. rewrite !qmedian_quantile; auto.
  - rewrite qquantile_opp; auto; apply half_range.
  - destruct l; [congruence | discriminate].
Qed.

Lemma qmedian_affine_any : forall a b l, l <> [] ->
  qmedian (map (fun x => a * x + b) l) = a * qmedian l + b.
Proof.
  intros a b l Hl. destruct (Qclt_le_dec' a 0) as [N | P]; [| apply qmedian_affine; assumption].
  assert (map (fun x => a * x + b) l = map (fun x => (- a) * x + b) (map Qcopp l)) as ->.
  { rewrite map_map. apply map_ext. intros x. ring. }
  rewrite qmedian_affine.
  - rewrite qmedian_opp by exact Hl. ring.
  - destruct l; [congruence | discriminate].
  - qlra.
Qed.
