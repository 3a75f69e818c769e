(** Pointwise filters and robust statistics. *)

From Coq Require Import QArith Qcanon List ZArith Bool Arith Lia Permutation Sorted.
From Verif.Base Require Import QcExtra ISort Quantile Fl TimeSeries Rolling.
From Verif.Spec Require Import Stats Filters.
From Verif.Model Require Import Utilities Filters.
From Verif.Proofs Require Import StatsP FlP.
Import ListNotations.
Open Scope Qc_scope.

Lemma below_iff : forall x y, flt x y = true <-> below x y.
Proof.
  intros x y. split.
  - destruct x, y; cbn; intros H; try discriminate; constructor. qb. exact H.
  - intros []; try reflexivity. cbn. apply qlt_spec. assumption.
Qed.

Lemma where_mask : forall (f : fl -> bool) (P : fl -> Prop) s, (forall v, In v (vals s) -> (f v = true <-> P v)) ->
  mask_is (fun _ _ v => P v) s (where_ f s).
Proof.
  intros f P s H. split.
  - unfold where_, times. rewrite map_map. reflexivity.
  - intros i t v b Hs Hm. rewrite where_nth, Hs in Hm. injection Hm as <-. apply H.
    apply nth_error_In in Hs. apply in_map_iff. exists (t, v). auto.
Qed.

(** ** Range filters *)

Lemma between_iff : forall lo hi v, between lo hi v = true <-> below lo v /\ below v hi.
Proof. intros. unfold between, fgt. rewrite andb_true_iff, !below_iff. reflexivity. Qed.

Lemma normalized_spec : forall low high s,
  mask_is (fun _ _ v => below (match low with Some l => l | None => NInf end) v /\
                        below v (match high with Some h => h | None => PInf end)) s (normalized_filter low high s).
Proof. intros. apply (where_mask _ (fun v => _)). intros. apply between_iff. Qed.

Lemma poa_spec : forall low high s, mask_is (fun _ _ v => below low v /\ below v high) s (poa_filter low high s).
Proof. intros. apply (where_mask _ (fun v => _)). intros. apply between_iff. Qed.

Lemma tcell_spec : forall low high s, mask_is (fun _ _ v => below low v /\ below v high) s (tcell_filter low high s).
Proof. intros. apply (where_mask _ (fun v => _)). intros. apply between_iff. Qed.

Lemma below_nan : forall x, ~ below NaN x /\ ~ below x NaN.
Proof. intros x. split; intros H; inversion H. Qed.

Lemma below_trans : forall x y z, below x y -> below y z -> below x z.
Proof. intros x y z H K. inversion H; subst; inversion K; subst; constructor. qlra. Qed.

Lemma flt_le_trans : forall x y z, fle x y = true -> flt y z = true -> flt x z = true.
Proof. intros [] [] [] H K; cbn in *; try congruence; auto. qb. qlra. Qed.
Lemma flt_le_trans_r : forall x y z, flt x y = true -> fle y z = true -> flt x z = true.
Proof. intros [] [] [] H K; cbn in *; try congruence; auto. qb. qlra. Qed.

Lemma filter_widen : forall low high low' high' s i t, fle low' low = true -> fle high high' = true ->
  nth_error (poa_filter low high s) i = Some (t, true) -> nth_error (poa_filter low' high' s) i = Some (t, true).
Proof.
  intros low high low' high' s i t Hl Hh H. unfold poa_filter in *. rewrite where_nth in *.
  destruct (nth_error s i) as [[u v] |]; [| discriminate]. injection H as -> H. cbn [fst snd] in *. f_equal. f_equal.
  unfold between, fgt in *. apply andb_true_iff in H. destruct H as [H1 H2]. apply andb_true_iff. split.
  - eapply flt_le_trans; eassumption.
  - eapply flt_le_trans_r; eassumption.
Qed.

(** ** Clear-sky index *)

Lemma lookup_value_at : forall s t, NoDup (times s) -> value_at s t (lookup s t).
Proof.
  intros s t N. unfold lookup, value_at. destruct (find _ s) as [[u v] |] eqn:E.
  - apply find_some in E. cbn [fst] in E. destruct E as [E1 E2]. apply Z.eqb_eq in E2. subst u. left. exact E1.
  - right. split; [reflexivity |]. intros K. apply in_map_iff in K. destruct K as ([u v] & <- & K).
    pose proof (find_none _ _ E _ K) as F. cbn [fst] in F. rewrite Z.eqb_refl in F. discriminate.
Qed.

Lemma value_at_unique : forall s t v w, NoDup (times s) -> value_at s t v -> value_at s t w -> v = w.
Proof.
  intros s t v w N. revert v w. induction s as [| [u x] s IH]; intros v w Hv Hw.
  - destruct Hv as [[] | [-> _]], Hw as [[] | [-> _]]. reflexivity.
  - cbn [times map fst] in N. inversion N as [| ? ? N1 N2]; subst.
    assert (forall y, In (u, y) s -> False) as K by (intros y Hy; apply N1, in_map_iff; exists (u, y); auto).
    destruct Hv as [[E | Hv] | [-> Hv]], Hw as [[E' | Hw] | [-> Hw]]; try congruence.
    + exfalso. assert (u = t) as -> by congruence. eauto.
    + exfalso. apply Hw. left. cbn [fst]. congruence.
    + exfalso. assert (u = t) as -> by congruence. eauto.
    + apply IH; [exact N2 | left; exact Hv | left; exact Hw].
    + exfalso. apply Hw. right. apply in_map_iff. exists (t, v). auto.
    + exfalso. apply Hv. left. cbn [fst]. congruence.
    + exfalso. apply Hv. right. apply in_map_iff. exists (t, w). auto.
Qed.

Lemma near_one_iff : forall thr m c,
  (let csi := fdiv m c in fge csi (fsub (Fin 1) (Fin thr)) && fle csi (fadd (Fin 1) (Fin thr))) = true <->
  index_near_one thr m c.
Proof.
  intros thr m c. cbv zeta. unfold index_near_one, fge. cbn [fsub fneg fadd]. replace (1 + - thr) with (1 - thr) by ring. split.
  - intros H. apply andb_true_iff in H. destruct H as [H1 H2].
    destruct m as [| | m |], c as [| | c |]; cbn in H1, H2; try discriminate.
    + destruct (qeq c 0); [discriminate |]. unfold inf_sgn in *. destruct (qlt 0 (- c)); [discriminate |]. destruct (qlt (- c) 0); discriminate.
    + exists m. split; [reflexivity |]. right. qb. auto.
    + exists m. split; [reflexivity |]. destruct (qeq c 0) eqn:E.
      * unfold inf_sgn in *. destruct (qlt 0 m); [discriminate |]. destruct (qlt m 0); discriminate.
      * left. exists c. cbn in H1, H2. qb. auto.
    + exists m. split; [reflexivity |]. right. qb. auto.
    + destruct (qeq c 0); [discriminate |]. unfold inf_sgn in *. destruct (qlt 0 c); [discriminate |]. destruct (qlt c 0); discriminate.
  - intros (q & -> & [(d & -> & N & L & U) | ([-> | ->] & L & U)]).
    + cbn [fdiv]. assert (qeq d 0 = false) as -> by (apply qeq_false; exact N). cbn. apply andb_true_iff. split; apply qle_spec; assumption.
    + cbn. apply andb_true_iff. split; apply qle_spec; assumption.
    + cbn. apply andb_true_iff. split; apply qle_spec; assumption.
Qed.

Lemma combine_times : forall (a b : series) t v u w, times a = times b -> In ((t, v), (u, w)) (combine a b) -> t = u.
Proof.
  induction a as [| x a IH]; intros [| y b] t v u w E H; try destruct H; cbn [times map] in E.
  - injection H as -> ->. cbn [fst] in E. injection E. auto.
  - injection E as _ E. eapply IH; eassumption.
Qed.

Lemma csi_spec : forall thr a b, NoDup (times a) -> NoDup (times b) ->
  (times a = times b -> map fst (csi_filter (Fin thr) a b) = times a) /\
  (times a <> times b -> StronglySorted Z.lt (map fst (csi_filter (Fin thr) a b)) /\
     forall t, In t (map fst (csi_filter (Fin thr) a b)) <-> In t (times a) \/ In t (times b)) /\
  forall t x va vb, In (t, x) (csi_filter (Fin thr) a b) -> value_at a t va -> value_at b t vb ->
    (x = true <-> index_near_one thr va vb).
Proof.
  intros thr a b Na Nb.
  assert (forall t p q, In (t, (p, q)) (align a b) -> value_at a t p /\ value_at b t q) as HA.
  { intros t p q H. unfold align in H. destruct (same_index (times a) (times b)) eqn:E.
    - apply same_index_iff in E. apply in_map_iff in H. destruct H as ([[u v] [u' w]] & E1 & H). cbn [fst snd] in E1.
      injection E1 as -> -> ->.
      assert (t = u') as <- by (eapply combine_times; [exact E | exact H]).
      split; left; [eapply in_combine_l, H | eapply in_combine_r, H].
    - apply in_map_iff in H. destruct H as (u & E1 & H). injection E1 as -> <- <-. split; apply lookup_value_at; assumption. }
  split; [| split].
  - intros E. unfold csi_filter. rewrite map_map. cbn [fst]. rewrite align_same by exact E. rewrite map_map. cbn [fst].
    clear HA Na Nb. unfold times in *. revert b E. induction a as [| x a IH]; intros [| y b] E; try discriminate; [reflexivity |].
    cbn [combine map] in *. injection E as E1 E2. f_equal. apply IH, E2.
  - intros N. unfold csi_filter. rewrite map_map. cbn [fst]. unfold align. destruct (same_index _ _) eqn:E.
    + apply same_index_iff in E. contradiction.
    + rewrite map_map. cbn [fst]. rewrite map_id. split; [apply zset_sorted |]. intros t. rewrite zset_In, in_app_iff. reflexivity.
  - intros t x va vb H Ha Hb. unfold csi_filter in H. apply in_map_iff in H. destruct H as ([u [p q]] & E & H). cbn [fst snd] in E.
    cbv zeta in E. assert (u = t) as -> by congruence. destruct (HA _ _ _ H) as [H1 H2].
    pose proof (value_at_unique a t _ _ Na Ha H1) as ->. pose proof (value_at_unique b t _ _ Nb Hb H2) as ->.
    assert (x = (let csi := fdiv p q in fge csi (fsub (Fin 1) (Fin thr)) && fle csi (fadd (Fin 1) (Fin thr)))) as -> by congruence.
    apply near_one_iff.
Qed.

Lemma csi_scale : forall thr k a b, 0 < k -> 
  csi_filter (Fin thr) (map (fun r => (fst r, fscale k (snd r))) a) (map (fun r => (fst r, fscale k (snd r))) b) =
  csi_filter (Fin thr) a b.
Proof.
  intros thr k a b Hk. unfold csi_filter.
  assert (forall s : series, times (map (fun r => (fst r, fscale k (snd r))) s) = times s) as T.
  { intros s. unfold times. rewrite map_map. reflexivity. }
  assert (forall s t, lookup (map (fun r => (fst r, fscale k (snd r))) s) t = fscale k (lookup s t)) as L.
  { intros s t. unfold lookup. induction s as [| r s IH]; cbn [map find fst]; [reflexivity |].
    destruct (fst r =? t)%Z; [reflexivity | exact IH]. }
  unfold align. rewrite !T. destruct (same_index (times a) (times b)).
  - rewrite !map_map. cbn [fst snd].
    revert b. induction a as [| x a IH]; intros [| y b]; cbn [map combine]; try reflexivity.
    cbn [fst snd]. rewrite fdiv_fscale by exact Hk. f_equal. apply IH.
  - rewrite !map_map. cbn [fst snd]. apply map_ext. intros t. rewrite !L, fdiv_fscale by exact Hk. reflexivity.
Qed.

(** ** Robust statistics *)

Lemma is_percentile_unique : forall p l v, l <> [] -> 0 <= p -> p <= qz 100 -> is_percentile p l v -> v = qquantile (p / qz 100) l.
Proof.
  intros p l v Hne H0 H1 Hv. destruct Hv as (s & k & t & A & T0 & T1 & E & Hk & ->).
  rewrite (arranged_unique _ _ A) in *. unfold qquantile. rewrite qsort_length in E.
  rewrite E. rewrite lerp_at_eq. unfold hi_ix, lo_ix.
  assert (qfloor (qz (Z.of_nat k) + t) = Z.of_nat k) as ->.
  { apply qfloor_unique; qlra. }
  rewrite Nat2Z.id. replace (qz (Z.of_nat k) + t - qz (Z.of_nat k)) with t by ring.
  f_equal. f_equal. f_equal.
  destruct (Nat.eq_dec (S k) (length (qsort l))) as [K | K].
  - rewrite nth_overflow by lia. rewrite Nat.min_r by lia. f_equal. lia.
  - rewrite Nat.min_l by lia. apply nth_indep. lia.
Qed.

Lemma pct_100 : forall q, qz 100 * q / qz 100 = q.
Proof. intros q. field. discriminate. Qed.
Lemma pct_range : forall q, 0 <= q -> q <= 1 -> 0 <= qz 100 * q /\ qz 100 * q <= qz 100.
Proof. intros q H0 H1. change (qz 100) with (Q2Qc 100). split; qlra. Qed.

Lemma is_quantile_unique : forall q l v, l <> [] -> 0 <= q -> q <= 1 -> is_percentile (qz 100 * q) l v -> v = qquantile q l.
Proof.
  intros q l v Hl H0 H1 H. destruct (pct_range q H0 H1) as [P0 P1].
  rewrite (is_percentile_unique _ _ _ Hl P0 P1 H), pct_100. reflexivity.
Qed.
Lemma quantile_is : forall q l, l <> [] -> 0 <= q -> q <= 1 -> is_percentile (qz 100 * q) l (qquantile q l).
Proof.
  intros q l Hl H0 H1. destruct (pct_range q H0 H1) as [P0 P1]. pose proof (qpercentile_spec _ l Hl P0 P1) as K.
  rewrite pct_100 in K. exact K.
Qed.

Lemma fillna0_zero : forall x, noinf x -> map fillna0 x = map Fin (map or_zero x).
Proof.
  intros x H. rewrite map_map. apply map_ext_in. intros v Hv. destruct (H v Hv). destruct v; try congruence; reflexivity.
Qed.

Lemma robust_keep_spec : forall q x l, noinf x -> x <> [] -> 0 <= q -> q <= 1 -> robust_part q x l ->
  robust_keep q x = map Fin l.
Proof.
  intros q x l HI Hx H0 H1 (z & Hz & ->). unfold robust_keep, robust_small.
  rewrite (fillna0_zero x HI).
  assert (map or_zero x <> []) as Hne by (destruct x; [congruence | discriminate]).
  rewrite fquantile_noinf; [| apply noinf_map_Fin | rewrite finvals_map_Fin; exact Hne | exact H0 | exact H1].
  rewrite finvals_map_Fin, <- (is_quantile_unique q _ z Hne H0 H1 Hz). cbn [fdiv fz].
  assert (qeq (qz 1000) 0 = false) as -> by reflexivity.
  clear Hne Hz Hx. induction x as [| v x IH]; [reflexivity |].
  assert (noinf x) as Hl by (intros y Hy; apply HI; right; exact Hy).
  cbn [filter]. destruct v as [| | v |]; cbn [fgt flt]; try (destruct (HI _ (or_introl eq_refl)); congruence).
  - cbn [finvals]. apply IH, Hl.
  - cbn [finvals filter]. unfold fgt. cbn [flt]. destruct (qlt (z / qz 1000) v); cbn [map]; [f_equal |]; apply IH, Hl.
Qed.

Lemma robust_part_ex : forall q x, noinf x -> x <> [] -> 0 <= q -> q <= 1 -> exists l, robust_part q x l.
Proof.
  intros q x HI Hx H0 H1. eexists. exists (qquantile q (map or_zero x)). split; [| reflexivity].
  apply quantile_is; auto. destruct x; [congruence | discriminate].
Qed.

Lemma robust_part_unique : forall q x l l', x <> [] -> 0 <= q -> q <= 1 -> robust_part q x l -> robust_part q x l' -> l = l'.
Proof.
  intros q x l l' Hx H0 H1 (z & Hz & ->) (z' & Hz' & ->).
  assert (map or_zero x <> []) as Hne by (destruct x; [congruence | discriminate]).
  rewrite (is_quantile_unique q _ z Hne H0 H1 Hz), (is_quantile_unique q _ z' Hne H0 H1 Hz'). reflexivity.
Qed.

Lemma robust_quantile_spec : forall q x l, noinf x -> x <> [] -> 0 <= q -> q <= 1 -> robust_part q x l ->
  (l = [] -> robust_quantile q x = NaN) /\
  (l <> [] -> exists v, robust_quantile q x = Fin v /\ is_percentile (qz 100 * q) l v).
Proof.
  intros q x l HI Hx H0 H1 HR. unfold robust_quantile. rewrite (robust_keep_spec q x l HI Hx H0 H1 HR). split.
  - intros ->. reflexivity.
  - intros Hl. rewrite fquantile_noinf; [| apply noinf_map_Fin | rewrite finvals_map_Fin; exact Hl | exact H0 | exact H1].
    rewrite finvals_map_Fin. eexists. split; [reflexivity |]. apply quantile_is; assumption.
Qed.

Lemma robust_median_spec : forall q x l, noinf x -> x <> [] -> 0 <= q -> q <= 1 -> robust_part q x l ->
  (l = [] -> robust_median q x = NaN) /\
  (l <> [] -> exists v, robust_median q x = Fin v /\ is_median l v).
Proof.
  intros q x l HI Hx H0 H1 HR. unfold robust_median. rewrite (robust_keep_spec q x l HI Hx H0 H1 HR). split.
  - intros ->. reflexivity.
  - intros Hl. rewrite fmedian_noinf; [| apply noinf_map_Fin | rewrite finvals_map_Fin; exact Hl].
    rewrite finvals_map_Fin. eexists. split; [reflexivity |]. apply qmedian_spec, Hl.
Qed.

Lemma robust_mean_spec : forall q x l, noinf x -> x <> [] -> 0 <= q -> q <= 1 -> robust_part q x l ->
  (l = [] -> robust_mean q x = NaN) /\
  (l <> [] -> robust_mean q x = Fin (qsum l / qz (Z.of_nat (length l)))).
Proof.
  intros q x l HI Hx H0 H1 HR. unfold robust_mean. rewrite (robust_keep_spec q x l HI Hx H0 H1 HR). split.
  - intros ->. reflexivity.
  - intros Hl. rewrite fmean_noinf; [| apply noinf_map_Fin | rewrite finvals_map_Fin; exact Hl].
    rewrite finvals_map_Fin. reflexivity.
Qed.

Lemma qsum_between : forall l lo hi, (forall x, In x l -> lo <= x /\ x <= hi) ->
  lo * qz (Z.of_nat (length l)) <= qsum l /\ qsum l <= hi * qz (Z.of_nat (length l)).
Proof.
  induction l as [| x l IH]; intros lo hi H.
  - cbn. rewrite qz_0. split; qlra.
  - destruct (H x (or_introl eq_refl)) as [H1 H2]. destruct (IH lo hi) as [I1 I2]; [intros y Hy; apply H; right; exact Hy |].
    cbn [length]. rewrite Nat2Z.inj_succ. unfold Z.succ. rewrite qz_add. change (qz 1) with (Q2Qc 1). rewrite qsum_cons. split.
    + replace (lo * (qz (Z.of_nat (length l)) + 1)) with (lo + lo * qz (Z.of_nat (length l))) by ring. qlra.
    + replace (hi * (qz (Z.of_nat (length l)) + 1)) with (hi + hi * qz (Z.of_nat (length l))) by ring. qlra.
Qed.

Lemma robust_range : forall q x l lo hi, noinf x -> x <> [] -> 0 <= q -> q <= 1 -> robust_part q x l ->
  is_min l lo -> is_max l hi -> forall v, (robust_quantile q x = v \/ robust_median q x = v \/ robust_mean q x = v) ->
  exists r, v = Fin r /\ lo <= r /\ r <= hi.
Proof.
  intros q x l lo hi HI Hx H0 H1 HR [Hlo Lo] [_ Hi] v Hv.
  assert (l <> []) as Hl by (intros ->; destruct Hlo).
  assert (forall y, In y l -> lo <= y /\ y <= hi) as B by (intros y Hy; split; [apply Lo | apply Hi]; exact Hy).
  destruct Hv as [<- | [<- | <-]].
  - destruct (proj2 (robust_quantile_spec q x l HI Hx H0 H1 HR) Hl) as (r & -> & K). exists r. split; [reflexivity |].
    rewrite (is_quantile_unique q l r Hl H0 H1 K). apply qquantile_bounds; auto.
  - destruct (proj2 (robust_median_spec q x l HI Hx H0 H1 HR) Hl) as (r & -> & K). exists r. split; [reflexivity |].
    rewrite (is_median_unique l r Hl K). apply qmedian_bounds; auto.
  - rewrite (proj2 (robust_mean_spec q x l HI Hx H0 H1 HR) Hl). eexists. split; [reflexivity |].
    destruct (qsum_between l lo hi B) as [I1 I2].
    assert (0 < qz (Z.of_nat (length l))) as Hn by (apply qz_pos; destruct l; [congruence | cbn; lia]).
    split; [apply Qc_le_div | apply Qc_div_le]; auto.
Qed.

(** ** Quantile filters *)

Lemma quantile_clip_spec : forall q s l, noinf (vals s) -> s <> [] -> 0 <= q -> q <= 1 -> robust_part q (vals s) l ->
  (l = [] -> mask_is (fun _ _ _ => False) s (quantile_clip_filter q s)) /\
  (l <> [] -> exists r, is_percentile (qz 100 * q) l r /\
     mask_is (fun _ _ v => exists x, v = Fin x /\ x < r * qf 99 100) s (quantile_clip_filter q s)).
Proof.
  intros q s l HI Hs H0 H1 HR.
  assert (vals s <> []) as Hv by (destruct s; [congruence | discriminate]).
  destruct (robust_quantile_spec q (vals s) l HI Hv H0 H1 HR) as [K1 K2]. split.
  - intros Hl. specialize (K1 Hl). unfold quantile_clip_filter. rewrite K1. apply (where_mask _ (fun v => False)).
    intros v _. cbn [fmul]. destruct v; cbn; split; intros H; try discriminate; contradiction.
  - intros Hl. destruct (K2 Hl) as (r & E & Hr). exists r. split; [exact Hr |]. unfold quantile_clip_filter. rewrite E.
    apply (where_mask _ (fun v => exists x, v = Fin x /\ x < r * qf 99 100)). intros v Hin. cbn [fmul ff].
    destruct (HI v Hin) as [HPI HNI]. destruct v as [| | x |]; try congruence; cbn [flt]; split.
    + discriminate.
    + intros (y & ? & _). discriminate.
    + intros H2. qb. eauto.
    + intros (y & E' & H2). injection E' as <-. apply qlt_spec. exact H2.
Qed.

Lemma where_same : forall (f g : fl -> bool) k s, (forall v, f (fscale k v) = g v) ->
  where_ f (map (fun r => (fst r, fscale k (snd r))) s) = where_ g s.
Proof. intros f g k s H. unfold where_. rewrite map_map. cbn [fst snd]. apply map_ext. intros r. rewrite H. reflexivity. Qed.

Lemma vals_scale : forall k s, vals (map (fun r => (fst r, fscale k (snd r))) s) = map (fscale k) (vals s).
Proof. intros. unfold vals. rewrite !map_map. reflexivity. Qed.

Lemma quantile_clip_scale : forall q k s, 0 < k ->
  quantile_clip_filter q (map (fun r => (fst r, fscale k (snd r))) s) = quantile_clip_filter q s.
Proof.
  intros q k s Hk. unfold quantile_clip_filter. rewrite vals_scale, robust_quantile_fscale by exact Hk.
  apply where_same. intros v. rewrite fmul_fscale_l, flt_fscale by exact Hk. reflexivity.
Qed.

Lemma insolation_spec : forall q s, noinf (vals s) -> 0 <= q -> q <= 1 ->
  (finvals (vals s) = [] -> mask_is (fun _ _ _ => False) s (insolation_filter q s)) /\
  (finvals (vals s) <> [] -> exists z, is_percentile (qz 100 * q) (finvals (vals s)) z /\
     mask_is (fun _ _ v => exists x, v = Fin x /\ z <= x) s (insolation_filter q s)).
Proof.
  intros q s HI H0 H1. split.
  - intros E. unfold insolation_filter. rewrite fquantile_empty by (rewrite dropna_noinf, E by exact HI; reflexivity).
    apply (where_mask _ (fun v => False)). intros v _. unfold fge. destruct v; cbn; split; intros H; try discriminate; contradiction.
  - intros Hne. exists (qquantile q (finvals (vals s))). split; [apply quantile_is; assumption |].
    unfold insolation_filter. rewrite fquantile_noinf by assumption.
    apply (where_mask _ (fun v => exists x, v = Fin x /\ qquantile q (finvals (vals s)) <= x)). intros v Hin. unfold fge.
    destruct (HI v Hin) as [HPI HNI]. destruct v as [| | x |]; try congruence; cbn [fle]; split.
    + discriminate.
    + intros (y & ? & _). discriminate.
    + intros K. qb. eauto.
    + intros (y & E' & K). injection E' as <-. apply qle_spec. exact K.
Qed.

Lemma filter_nth_count : forall (P : Qc -> bool) s c, (forall i, (c <= i < length s)%nat -> P (nth i s 0) = true) ->
  (length s <= length (filter P s) + c)%nat.
Proof.
  intros P s. induction s as [| x s IH]; intros c H; [cbn; lia |]. destruct c as [| c].
  - assert (P x = true) as Hx by (apply (H 0%nat); cbn; lia). cbn [filter]. rewrite Hx. cbn [length].
    assert (length s <= length (filter P s) + 0)%nat; [| lia]. apply IH. intros i Hi. apply (H (S i)). cbn [length]. lia.
  - assert (length s <= length (filter P s) + c)%nat as K. { apply IH. intros i Hi. apply (H (S i)). cbn [length]. lia. }
    cbn [filter length]. destruct (P x); cbn [length]; lia.
Qed.

Lemma filter_perm_length : forall A (P : A -> bool) l l', Permutation l l' -> length (filter P l) = length (filter P l').
Proof. intros A P l l' H. induction H; cbn; auto; repeat destruct (P _); cbn; congruence. Qed.

Lemma insolation_count : forall q s c, noinf (vals s) -> 0 <= q -> q <= 1 ->
  qz (Z.of_nat (length (finvals (vals s))) - 1) * q <= qz (Z.of_nat c) ->
  (length (finvals (vals s)) <= kept (insolation_filter q s) + c)%nat.
Proof.
  intros q s c HI H0 H1 Hc. set (l := finvals (vals s)) in *.
  assert (l = [] \/ l <> []) as [E | Hne] by (destruct l; [left; reflexivity | right; discriminate]).
  { rewrite E. cbn. lia. }
  assert (kept (insolation_filter q s) = length (filter (fun x => qle (qquantile q l) x) l)) as ->.
  { unfold kept, insolation_filter. rewrite fquantile_noinf by assumption. fold l. unfold where_. subst l. unfold vals in *.
    set (z := qquantile q _). clearbody z. clear Hne Hc.
    assert (fge NaN (Fin z) = false /\ forall x, fge (Fin x) (Fin z) = qle z x) as [F1 F2] by (split; reflexivity).
    induction s as [| [t v] s IH]; [reflexivity |].
    assert (noinf (map snd s)) as HI' by (intros y Hy; apply HI; right; exact Hy). specialize (IH HI').
    cbn [map filter snd fst finvals]. destruct (HI v (or_introl eq_refl)) as [I1 I2].
    destruct v as [| | x |]; try congruence; rewrite ?F1, ?F2; cbn [filter].
    - exact IH.
    - destruct (qle z x); cbn [length]; rewrite IH; reflexivity. }
  rewrite (filter_perm_length _ _ _ _ (qsort_perm l)).
  rewrite <- (qsort_length l) at 1. apply filter_nth_count. intros i Hi. rewrite qsort_length in Hi. apply qle_spec.
  unfold qquantile. destruct (qq_pos q l Hne H0 H1) as [P1 P2].
  assert (c < length l)%nat as Hcl by lia.
  rewrite <- (qsort_length l) in P2.
  assert (lerp_at (qsort l) (qz (Z.of_nat (length l) - 1) * q) <= lerp_at (qsort l) (qz (Z.of_nat c))) as K.
  { apply lerp_mono; [apply qsort_sorted | exact P1 | exact Hc |]. rewrite qsort_length. apply qz_le_i. lia. }
  eapply Qcle_trans; [exact K |]. rewrite lerp_at_int by (rewrite qsort_length; lia).
  apply qsorted_nth; [apply qsort_sorted | lia | rewrite qsort_length; lia].
Qed.

Lemma insolation_mono : forall q q' s i t, noinf (vals s) -> 0 <= q -> q <= q' -> q' <= 1 ->
  nth_error (insolation_filter q' s) i = Some (t, true) -> nth_error (insolation_filter q s) i = Some (t, true).
Proof.
  intros q q' s i t HI H0 Hq H1 H. unfold insolation_filter in *. rewrite where_nth in *.
  destruct (nth_error s i) as [[u v] |] eqn:E; [| discriminate]. injection H as -> H. cbn [fst snd] in *. f_equal. f_equal.
  assert (finvals (vals s) = [] \/ finvals (vals s) <> []) as [N | Hne] by (destruct (finvals (vals s)); [left; reflexivity | right; discriminate]).
  { rewrite fquantile_empty in H by (rewrite dropna_noinf, N by exact HI; reflexivity). unfold fge in H. destruct v; discriminate. }
  assert (0 <= q') as H0' by qlra. assert (q <= 1) as H1' by qlra.
  rewrite fquantile_noinf in * by assumption. unfold fge in *. eapply fle_trans; [| exact H]. cbn [fle]. apply qle_spec.
  apply qquantile_mono; assumption.
Qed.

Lemma insolation_max : forall q s i t x, noinf (vals s) -> 0 <= q -> q <= 1 -> nth_error s i = Some (t, Fin x) ->
  is_max (finvals (vals s)) x -> nth_error (insolation_filter q s) i = Some (t, true).
Proof.
  intros q s i t x HI H0 H1 Hs [Hin Hmax]. unfold insolation_filter. rewrite where_nth, Hs. cbn [fst snd]. f_equal. f_equal.
  assert (finvals (vals s) <> []) as Hne by (intros K; rewrite K in Hin; destruct Hin).
  rewrite fquantile_noinf by assumption. unfold fge. cbn [fle]. apply qle_spec.
  destruct (StatsP.qquantile_0_min _ Hne) as [_ Hmin].
  destruct (qquantile_bounds q (finvals (vals s)) (qquantile 0 (finvals (vals s))) x Hne H0 H1) as [_ K]; [| exact K].
  intros y Hy. split; [apply Hmin, Hy | apply Hmax, Hy].
Qed.

Lemma insolation_scale : forall q k s, 0 < k ->
  insolation_filter q (map (fun r => (fst r, fscale k (snd r))) s) = insolation_filter q s.
Proof.
  intros q k s Hk. unfold insolation_filter. rewrite vals_scale, fquantile_fscale by exact Hk.
  apply where_same. intros v. unfold fge. apply fle_fscale, Hk.
Qed.

(** ** Table lookup *)

Lemma interp_table_step : forall x0 y0 x1 y1 rest x,
  interp_table ((x0, y0) :: (x1, y1) :: rest) x =
  if qle x x0 then y0 else if qle x x1 then y0 + (y1 - y0) / (x1 - x0) * (x - x0) else interp_table ((x1, y1) :: rest) x.
Proof. reflexivity. Qed.

Lemma segment_between : forall x0 y0 x1 y1 x, x0 < x1 -> y0 <= y1 -> x0 <= x -> x <= x1 ->
  y0 <= y0 + (y1 - y0) / (x1 - x0) * (x - x0) /\ y0 + (y1 - y0) / (x1 - x0) * (x - x0) <= y1.
Proof.
  intros x0 y0 x1 y1 x H1 H2 H3 H4.
  assert (0 <= (y1 - y0) / (x1 - x0)) as Hs by (apply Qc_div_nonneg; qlra).
  assert (0 <= (y1 - y0) / (x1 - x0) * (x - x0)) as A by (apply Qc_mul_nonneg; [exact Hs | qlra]).
  assert (0 <= (y1 - y0) / (x1 - x0) * (x1 - x)) as B by (apply Qc_mul_nonneg; [exact Hs | qlra]).
  assert ((y1 - y0) / (x1 - x0) * (x - x0) + (y1 - y0) / (x1 - x0) * (x1 - x) = y1 - y0) as E.
  { field. intros K. qlra. }
  split; qlra.
Qed.

Lemma interp_table_spec : forall table x, table <> [] -> table_sorted table -> on_table table x (interp_table table x).
Proof.
  induction table as [| [x0 y0] [| [x1 y1] rest] IH]; intros x Hne HS; [congruence | |].
  - cbn. destruct (Qclt_le_dec x x0) as [L | L]; [apply tab_before; qlra | apply (tab_after [])]. exact L.
  - rewrite interp_table_step. destruct HS as (H1 & H2 & HS). destruct (qle x x0) eqn:C0; qb; [apply tab_before; exact C0 |].
    destruct (qle x x1) eqn:C1; qb.
    + apply (tab_segment [] x0 y0 x1 y1 rest); [qlra | exact C1].
    + assert (on_table ((x1, y1) :: rest) x (interp_table ((x1, y1) :: rest) x)) as K by (apply IH; [discriminate | exact HS]).
      revert K. generalize (interp_table ((x1, y1) :: rest) x) as v. intros v K.
      inversion K as [a b c d Hle E | pre a b c d e f L U E EV | pre xn yn x' L E EV].
      * exfalso. subst. qlra.
      * change ((x0, y0) :: pre ++ (a, b) :: (c, d) :: e) with (((x0, y0) :: pre) ++ (a, b) :: (c, d) :: e). apply tab_segment; assumption.
      * change ((x0, y0) :: pre ++ [(xn, v)]) with (((x0, y0) :: pre) ++ [(xn, v)]). apply tab_after. exact L.
Qed.

(** The lookup is non-decreasing and stays between the ends of the table. *)
Lemma interp_table_bounds : forall table x lo hi, table <> [] -> table_sorted table ->
  (forall p, In p table -> lo <= snd p /\ snd p <= hi) -> lo <= interp_table table x /\ interp_table table x <= hi.
Proof.
  induction table as [| [x0 y0] [| [x1 y1] rest] IH]; intros x lo hi Hne HS B; [congruence | |].
  - cbn [interp_table]. apply (B (x0, y0)). left. reflexivity.
  - rewrite interp_table_step. destruct HS as (H1 & H2 & HS).
    destruct (B (x0, y0) (or_introl eq_refl)) as [B1 B2]. destruct (B (x1, y1) (or_intror (or_introl eq_refl))) as [B3 B4]. cbn [snd] in *.
    destruct (qle x x0) eqn:C0; qb; [auto |]. destruct (qle x x1) eqn:C1; qb.
    + destruct (segment_between x0 y0 x1 y1 x H1 H2) as [K1 K2]; [qlra | exact C1 |]. split; qlra.
    + apply IH; [discriminate | exact HS |]. intros p Hp. apply B. right. exact Hp.
Qed.

Lemma interp_table_ge : forall x0 y0 rest x, table_sorted ((x0, y0) :: rest) -> y0 <= interp_table ((x0, y0) :: rest) x.
Proof.
  intros x0 y0 rest x. revert x0 y0. induction rest as [| [x1 y1] rest IH]; intros x0 y0 HS; [cbn; apply Qcle_refl |].
  rewrite interp_table_step. destruct HS as (H1 & H2 & HS). destruct (qle x x0) eqn:C0; qb; [apply Qcle_refl |]. destruct (qle x x1) eqn:C1; qb.
  - destruct (segment_between x0 y0 x1 y1 x H1 H2) as [K1 K2]; [qlra | exact C1 | exact K1].
  - eapply Qcle_trans; [exact H2 |]. apply IH, HS.
Qed.

Lemma interp_table_mono : forall table x x', table <> [] -> table_sorted table -> x <= x' -> interp_table table x <= interp_table table x'.
Proof.
  induction table as [| [x0 y0] [| [x1 y1] rest] IH]; intros x x' Hne HS Hx; [congruence | apply Qcle_refl |].
  pose proof HS as HS0. rewrite !interp_table_step. destruct HS as (H1 & H2 & HS).
  destruct (qle x x0) eqn:C0; qb.
  - pose proof (interp_table_ge x0 y0 ((x1, y1) :: rest) x' HS0) as K. rewrite interp_table_step in K. exact K.
  - assert (qle x' x0 = false) as -> by (apply qle_false; qlra). destruct (qle x x1) eqn:C1; qb.
    + destruct (qle x' x1) eqn:C2; qb.
      * assert (0 <= (y1 - y0) / (x1 - x0)) as Hs by (apply Qc_div_nonneg; qlra).
        assert (0 <= (y1 - y0) / (x1 - x0) * (x' - x)) as Hp by (apply Qc_mul_nonneg; [exact Hs | qlra]).
        replace ((y1 - y0) / (x1 - x0) * (x' - x0)) with ((y1 - y0) / (x1 - x0) * (x - x0) + (y1 - y0) / (x1 - x0) * (x' - x)) by ring. qlra.
      * destruct (segment_between x0 y0 x1 y1 x H1 H2) as [K1 K2]; [qlra | exact C1 |].
        eapply Qcle_trans; [exact K2 |]. apply interp_table_ge, HS.
    + assert (qle x' x1 = false) as -> by (apply qle_false; qlra). apply IH; [discriminate | exact HS | exact Hx].
Qed.
