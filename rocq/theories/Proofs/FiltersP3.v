(** Further filter facts. *)

From Coq Require Import QArith Qcanon List ZArith Bool Arith Lia Permutation Sorted String.
From Verif.Base Require Import QcExtra ISort Quantile Fl TimeSeries Rolling.
From Verif.Spec Require Import Stats Interp Filters.
From Verif.Model Require Import Utilities Filters.
From Verif.Proofs Require Import StatsP FlP FiltersP FiltersP2.
Import ListNotations.
Open Scope Qc_scope.

(** ** Robust statistics *)

Lemma robust_scale : forall q c x, 0 < c ->
  robust_quantile q (map (fscale c) x) = fscale c (robust_quantile q x) /\
  robust_median q (map (fscale c) x) = fscale c (robust_median q x) /\
  robust_mean q (map (fscale c) x) = fscale c (robust_mean q x).
Proof.
  intros q c x Hc. split; [apply robust_quantile_fscale, Hc |]. split; [apply robust_median_fscale, Hc | apply robust_mean_fscale, Hc].
Qed.

Lemma same_keep : forall q x y, robust_keep q x = robust_keep q y ->
  robust_quantile q x = robust_quantile q y /\ robust_median q x = robust_median q y /\ robust_mean q x = robust_mean q y.
Proof. intros q x y E. unfold robust_quantile, robust_median, robust_mean. rewrite E. auto. Qed.

(** Missing values count as zeros. *)
Lemma robust_zeros : forall q x, noinf x -> 0 <= q -> q <= 1 -> (forall v, In (Fin v) x -> 0 <= v) ->
  let y := map (fun v => Fin (or_zero v)) x in
  robust_quantile q y = robust_quantile q x /\ robust_median q y = robust_median q x /\ robust_mean q y = robust_mean q x.
Proof.
  intros q x HI H0 H1 Hn y. apply same_keep.
  assert (x = [] \/ x <> []) as [-> | Hx] by (destruct x; [left; reflexivity | right; discriminate]); [reflexivity |].
  assert (noinf y) as Hy. { intros v Hv. apply in_map_iff in Hv. destruct Hv as (w & <- & _). split; discriminate. }
  assert (map or_zero y = map or_zero x) as Ez by (unfold y; rewrite map_map; reflexivity).
  assert (map or_zero x <> []) as Hne by (destruct x; [congruence | discriminate]).
  set (z := qquantile q (map or_zero x)).
  assert (is_percentile (qz 100 * q) (map or_zero x) z) as Hz by (apply quantile_is; assumption).
  assert (0 <= z) as Hz0.
  { destruct (qquantile_0_min _ Hne) as [Hin _]. assert (0 <= qquantile 0 (map or_zero x)) as K.
    { apply in_map_iff in Hin. destruct Hin as (w & <- & Hw). destruct w; cbn; try apply Qcle_refl. apply Hn, Hw. }
    eapply Qcle_trans; [exact K |]. apply qquantile_mono; [exact Hne | apply Qcle_refl | exact H0 | exact H1]. }
  rewrite (robust_keep_spec q x (filter (fun v => qlt (z / qz 1000) v) (finvals x)) HI Hx H0 H1 ltac:(exists z; auto)).
  rewrite (robust_keep_spec q y (filter (fun v => qlt (z / qz 1000) v) (finvals y)) Hy ltac:(unfold y; destruct x; [congruence | discriminate]) H0 H1 ltac:(exists z; rewrite Ez; auto)).
  f_equal. assert (0 <= z / qz 1000) as Ht by (apply Qc_div_nonneg; [exact Hz0 | reflexivity]).
  set (thr := z / qz 1000) in *. unfold y. clearbody thr. clear - Ht. induction x as [| v x IH]; [reflexivity |].
  assert (qlt thr 0 = false) as E0 by (apply qlt_false; exact Ht).
  destruct v as [| | v |]; cbn [map finvals filter].
  - change (or_zero NaN) with (Q2Qc 0). rewrite E0. exact IH.
  - change (or_zero NInf) with (Q2Qc 0). rewrite E0. exact IH.
  - change (or_zero (Fin v)) with v. rewrite IH. reflexivity.
  - change (or_zero PInf) with (Q2Qc 0). rewrite E0. exact IH.
Qed.

(** Dropping them changes nothing unless a value lies between the two thresholds. *)
Lemma finvals_dropna : forall x, finvals (dropna x) = finvals x.
Proof. unfold dropna. induction x as [| [] x IH]; cbn; congruence. Qed.

Lemma robust_dropped : forall q x z z', noinf x -> 0 <= q -> q <= 1 ->
  is_percentile (qz 100 * q) (map or_zero x) z -> is_percentile (qz 100 * q) (finvals x) z' ->
  (forall v, In (Fin v) x -> (z / qz 1000 < v <-> z' / qz 1000 < v)) ->
  robust_quantile q (dropna x) = robust_quantile q x /\ robust_median q (dropna x) = robust_median q x /\
  robust_mean q (dropna x) = robust_mean q x.
Proof.
  intros q x z z' HI H0 H1 Hz Hz' Hb. apply same_keep.
  assert (x <> []) as Hx by (intros ->; apply (percentile_nonempty _ _ _ Hz); reflexivity).
  assert (map or_zero (dropna x) = finvals x) as E. { rewrite dropna_noinf by exact HI. rewrite map_map. apply map_id. }
  rewrite (robust_keep_spec q x (filter (fun v => qlt (z / qz 1000) v) (finvals x)) HI Hx H0 H1 ltac:(exists z; auto)).
  assert (dropna x <> []) as Hd. { intros K. rewrite K in E. apply (percentile_nonempty _ _ _ Hz'). rewrite <- E. reflexivity. }
  assert (noinf (dropna x)) as HI' by (intros v Hv; apply HI; unfold dropna in Hv; apply filter_In in Hv; tauto).
  rewrite (robust_keep_spec q (dropna x) (filter (fun v => qlt (z' / qz 1000) v) (finvals x)) HI' Hd H0 H1).
  - f_equal. apply filter_ext_in. intros v Hv. apply finvals_In in Hv. apply eq_true_iff_eq. rewrite !qlt_spec. symmetry. apply Hb, Hv.
  - exists z'. rewrite E, finvals_dropna. auto.
Qed.

(** ** Range filters *)

Definition ge_limit (a b : option fl) : bool :=
  fle (match a with Some l => l | None => NInf end) (match b with Some l => l | None => NInf end).

Lemma widen_between : forall low high low' high' s i t, fle low' low = true -> fle high high' = true ->
  nth_error (where_ (between low high) s) i = Some (t, true) -> nth_error (where_ (between low' high') s) i = Some (t, true).
Proof. exact filter_widen. Qed.

Lemma range_widen : forall low high low' high' s i t, fle low' low = true -> fle high high' = true ->
  (nth_error (poa_filter low high s) i = Some (t, true) -> nth_error (poa_filter low' high' s) i = Some (t, true)) /\
  (nth_error (tcell_filter low high s) i = Some (t, true) -> nth_error (tcell_filter low' high' s) i = Some (t, true)) /\
  (nth_error (normalized_filter (Some low) (Some high) s) i = Some (t, true) ->
   nth_error (normalized_filter (Some low') (Some high') s) i = Some (t, true) /\
   nth_error (normalized_filter None (Some high') s) i = Some (t, true) /\
   nth_error (normalized_filter (Some low') None s) i = Some (t, true) /\
   nth_error (normalized_filter None None s) i = Some (t, true)).
Proof.
  intros low high low' high' s i t Hl Hh.
  assert (low' <> NaN -> fle NInf low' = true) as A by (destruct low'; cbn; congruence).
  assert (high' <> NaN -> fle high' PInf = true) as B by (destruct high'; cbn; congruence).
  assert (low <> NaN /\ high <> NaN) as [Nl Nh] by (split; intros ->; [destruct low' | destruct high']; discriminate).
  assert (fle NInf low = true) as A' by (destruct low; cbn; congruence).
  assert (fle high PInf = true) as B' by (destruct high; cbn; congruence).
  split; [apply widen_between; assumption |]. split; [apply widen_between; assumption |].
  intros H. unfold normalized_filter in *. repeat split; (eapply widen_between; [| | exact H]); assumption.
Qed.

Lemma range_infinite : forall low high s i t v b, nth_error s i = Some (t, v) -> (v = PInf \/ v = NInf \/ v = NaN) ->
  (nth_error (poa_filter (Fin low) (Fin high) s) i = Some (t, b) -> b = false) /\
  (nth_error (tcell_filter (Fin low) (Fin high) s) i = Some (t, b) -> b = false) /\
  (nth_error (normalized_filter (Some (Fin low)) (Some (Fin high)) s) i = Some (t, b) -> b = false).
Proof.
  intros low high s i t v b Hs Hv.
  assert (nth_error (where_ (between (Fin low) (Fin high)) s) i = Some (t, b) -> b = false) as K.
  { rewrite where_nth, Hs. cbn [fst snd]. intros H. injection H as <-. destruct Hv as [-> | [-> | ->]]; reflexivity. }
  auto.
Qed.

Lemma clip_smaller : forall q s i j t u x y, nth_error s i = Some (t, Fin x) -> nth_error s j = Some (u, Fin y) -> x <= y ->
  nth_error (quantile_clip_filter q s) j = Some (u, true) -> nth_error (quantile_clip_filter q s) i = Some (t, true).
Proof.
  intros q s i j t u x y Hi Hj Hxy H. unfold quantile_clip_filter in *. cbv zeta in *. rewrite where_nth in *. rewrite Hi. rewrite Hj in H.
  cbn [fst snd] in *. f_equal. f_equal. apply (flt_le_trans (Fin x) (Fin y)); [cbn; apply qle_spec, Hxy | injection H as H; exact H].
Qed.

(** ** Parameters of the detector *)

Definition in_range (lo hi x : Qc) : Prop := lo <= x /\ x <= hi.

Lemma lookup_tables : forall nanos p, (0 < nanos)%Z ->
  let minutes := qz nanos / qz 60000000000 in
  let d := detector_params true (Some nanos) p in
  on_table published_windows minutes (p_window_length d) /\ on_table published_max_diffs minutes (p_max_diff d) /\
  on_table published_var_diffs minutes (p_var_diff d) /\ on_table published_slope_devs minutes (p_slope_dev d) /\
  p_mean_diff d = p_mean_diff p /\ p_lower_line d = p_lower_line p /\ p_upper_line d = p_upper_line p.
Proof.
  intros nanos p Hn minutes d. unfold d, detector_params. cbn [p_window_length p_max_diff p_var_diff p_slope_dev p_mean_diff p_lower_line p_upper_line].
  assert (qz nanos / qz 1000000000 / qz 60 = minutes) as ->.
  { unfold minutes. assert (qz 60000000000 = qz 1000000000 * qz 60) as -> by qc_canon. field. split; discriminate. }
  assert (var_diffs_table = published_var_diffs) as -> by (unfold var_diffs_table, published_var_diffs; repeat (f_equal; try qc_canon)).
  repeat split; apply interp_table_spec; try discriminate; cbn; repeat split; discriminate.
Qed.

Lemma lookup_range : forall nanos p, let d := detector_params true (Some nanos) p in
  (qz 50 <= p_window_length d /\ p_window_length d <= qz 120) /\ (qz 60 <= p_max_diff d /\ p_max_diff d <= qz 90) /\
  (qf 5 1000 <= p_var_diff d /\ p_var_diff d <= qf 70 1000) /\ (qz 50 <= p_slope_dev d /\ p_slope_dev d <= qz 96).
Proof.
  intros nanos p d. unfold d, detector_params. cbn [p_window_length p_max_diff p_var_diff p_slope_dev].
  repeat match goal with |- _ /\ _ => split end;
  match goal with
  | |- ?a <= interp_table ?T ?x => apply (interp_table_bounds T x a (qz 200))
  | |- interp_table ?T ?x <= ?b => apply (interp_table_bounds T x 0 b)
  end; try discriminate; try (cbn; repeat split; discriminate);
  intros p0 Hp; cbn [In windows_table max_diffs_table var_diffs_table slope_devs_table] in Hp;
  repeat (destruct Hp as [<- | Hp]; [cbn; split; discriminate |]); destruct Hp.
Qed.

Lemma lookup_mono : forall n n' p, (n <= n')%Z ->
  let d := detector_params true (Some n) p in let d' := detector_params true (Some n') p in
  p_window_length d <= p_window_length d' /\ p_max_diff d <= p_max_diff d' /\ p_var_diff d <= p_var_diff d' /\ p_slope_dev d <= p_slope_dev d'.
Proof.
  intros n n' p Hn d d'. unfold d, d', detector_params. cbn [p_window_length p_max_diff p_var_diff p_slope_dev].
  assert (qz n / qz 1000000000 / qz 60 <= qz n' / qz 1000000000 / qz 60) as K.
  { apply Qc_div_le; [reflexivity |]. replace (qz n' / qz 1000000000 / qz 60 * qz 60) with (qz n' / qz 1000000000) by (field; split; discriminate).
    apply Qc_div_le; [reflexivity |]. replace (qz n' / qz 1000000000 * qz 1000000000) with (qz n') by (field; discriminate). apply qz_le_i, Hn. }
  repeat split; apply interp_table_mono; try exact K; try discriminate; cbn; repeat split; discriminate.
Qed.

Lemma no_lookup : forall lookup freq p, lookup = false \/ freq = None -> detector_params lookup freq p = p.
Proof. intros lookup freq p [-> | ->]; [reflexivity | destruct lookup; reflexivity]. Qed.

(** Only the detector without components is ever called, on the measured column and then
    the clear-sky one. *)
Lemma pvlib_call : forall (K : Type) (detect detect' : list (Z * (fl * fl)) -> clearsky_params -> bool -> K -> result mask) lookup freq p kwargs a b,
  (forall rows q, detect rows q false kwargs = detect' rows q false kwargs) ->
  pvlib_clearsky_filter detect lookup freq p kwargs a b = pvlib_clearsky_filter detect' lookup freq p kwargs a b.
Proof. intros K detect detect' lookup freq p kwargs a b H. apply H. Qed.

Lemma pvlib_rows : forall (K : Type) (detect : list (Z * (fl * fl)) -> clearsky_params -> bool -> K -> result mask) lookup freq p kwargs a b,
  times a = times b ->
  exists rows, pvlib_clearsky_filter detect lookup freq p kwargs a b = detect rows (detector_params lookup freq p) false kwargs /\
    map fst rows = times a /\ map (fun r => fst (snd r)) rows = vals a /\ map (fun r => snd (snd r)) rows = vals b.
Proof.
  intros K detect lookup freq p kwargs a b E. exists (align a b). split; [reflexivity |].
  rewrite align_same by exact E. rewrite !map_map. cbn [fst snd].
  revert b E. unfold times, vals. induction a as [| x a IH]; intros [| y b] E; try discriminate; [auto |].
  cbn [map combine] in *. injection E as E1 E2. destruct (IH b E2) as (H1 & H2 & H3). cbn [fst snd] in *. rewrite H1, H2, H3. auto.
Qed.

(** ** Hour angle *)

Lemma fle_iff : forall x y, fle x y = true <-> below x y \/ (x = y /\ x <> NaN).
Proof.
  intros x y. split.
  - destruct x as [| | a |], y as [| | b |]; cbn; intros H; try discriminate; try solve [left; constructor]; try (right; split; [reflexivity | discriminate]).
    qb. destruct (Qc_eq_dec a b) as [-> | N]; [right; split; [reflexivity | discriminate] |]. left. constructor.
    apply Qcle_lt_or_eq in H. destruct H; [assumption | contradiction].
  - intros [[] | [-> N]]; try reflexivity; [cbn; apply qle_spec; qlra |]. destruct y; try reflexivity; [congruence |]. cbn. apply qle_spec, Qcle_refl.
Qed.

Lemma hour_angle_spec : forall angle low high s,
  mask_is (fun _ t _ => (below (Fin low) (angle t) \/ angle t = Fin low) /\ (below (angle t) (Fin high) \/ angle t = Fin high)) s
    (hour_angle_filter angle (Fin low) (Fin high) s).
Proof.
  intros angle low high s. split; [unfold hour_angle_filter, times; rewrite map_map; reflexivity |].
  intros i t v b Hs Hm. unfold hour_angle_filter in Hm. rewrite nth_error_map, Hs in Hm. cbn [option_map fst snd] in Hm.
  assert (b = fle (Fin low) (angle t) && fle (angle t) (Fin high)) as -> by (unfold fge in Hm; congruence).
  rewrite andb_true_iff, !fle_iff. split.
  - intros [[A | [A _]] [B | [B _]]]; auto.
  - intros [[A | A] [B | B]]; split; auto; right; split; congruence.
Qed.

Lemma hour_angle_widen : forall angle low high low' high' s i t, low' <= low -> high <= high' ->
  nth_error (hour_angle_filter angle (Fin low) (Fin high) s) i = Some (t, true) ->
  nth_error (hour_angle_filter angle (Fin low') (Fin high') s) i = Some (t, true).
Proof.
  intros angle low high low' high' s i t Hl Hh. unfold hour_angle_filter. rewrite !nth_error_map.
  destruct (nth_error s i) as [r |]; [| discriminate]. cbn [option_map]. intros H.
  assert (fst r = t) as <- by congruence. assert (fge (angle (fst r)) (Fin low) && fle (angle (fst r)) (Fin high) = true) as K by congruence.
  f_equal. f_equal. apply andb_true_iff in K. destruct K as [K1 K2]. apply andb_true_iff. unfold fge in *. split.
  - eapply fle_trans; [| exact K1]. cbn. apply qle_spec, Hl.
  - eapply fle_trans; [exact K2 |]. cbn. apply qle_spec, Hh.
Qed.

Lemma dispatch : forall model a b c,
  (clearsky_filter "csi" a b = a /\ clearsky_filter "pvlib" a b = b /\
   (model <> "csi"%string -> model <> "pvlib"%string -> clearsky_filter model a b = Raise ValueError)) /\
  (clip_filter "quantile" a b c = a /\ clip_filter "xgboost" a b c = b /\ clip_filter "logic" a b c = c /\
   (model <> "quantile"%string -> model <> "xgboost"%string -> model <> "logic"%string -> clip_filter model a b c = Raise ValueError)).
Proof.
  intros model a b c. unfold clearsky_filter, clip_filter. repeat split; intros;
  repeat match goal with |- context [String.eqb model ?x] => rewrite (proj2 (String.eqb_neq model x)) by assumption end; reflexivity.
Qed.
