(** Consequences for the logic-based clipping filter, and its invariance under scaling. *)

From Coq Require Import QArith Qcanon List ZArith Bool Arith Lia Sorted.
From Verif.Base Require Import QcExtra ISort Quantile Fl TimeSeries Calendar Rolling.
From Verif.Model Require Import Utilities Interpolation Normalization Clipping.
From Verif.Spec Require Import Stats Filters Normalization Clipping.
From Verif.Proofs Require Import StatsP FlP InterpP EnergyP2 FiltersP FiltersP2 NormP2 NormP4 ClipP ClipP2 UnitP.
Import ListNotations.
Open Scope Qc_scope.

(** ** Errors *)

Lemma logic_clip_errors : forall s m cutoff roll,
  (m = OtherMounting -> logic_clip_filter s m cutoff roll = Raise ValueError) /\
  (m <> OtherMounting -> ~ StronglySorted Z.le (times s) -> logic_clip_filter s m cutoff roll = Raise IndexError) /\
  (m <> OtherMounting -> StronglySorted Z.le (times s) -> (length s <= 10)%nat -> logic_clip_filter s m cutoff roll = Raise PlainException).
Proof.
  intros s m cutoff roll. destruct (format_spec s m) as [X1 X2]. unfold logic_clip_filter. split; [| split].
  - intros H. rewrite (X1 H). reflexivity.
  - intros H K. destruct (X2 H) as [-> _]; [reflexivity | exact K].
  - intros H K L. destruct (X2 H) as [_ X]. destruct (X K) as [-> _]; [reflexivity | exact L].
Qed.

(** ** Missing values are kept *)

Lemma logic_clip_missing : forall s m cutoff roll mask t, logic_clip_filter s m cutoff roll = Ok mask -> sorted_index s ->
  In (t, NaN) s -> In (t, true) mask /\ ~ In (t, false) mask.
Proof.
  intros s m cutoff roll mask t E HS Hin. unfold logic_clip_filter in E.
  destruct (format_clipping s m) as [un |]; [cbn [bind] in E | discriminate]. destruct (detect s m cutoff roll) as [D |]; [cbn [bind] in E | discriminate].
  cbv zeta in E. apply Ok_inj in E. subst mask. unfold level_mask. cbv zeta.
  set (L := day_levels _ _). set (cl := map (fun p => snd (fst p)) _). set (o := overall_rule _ cl). set (q := robust_quantile _ _).
  clearbody L o q. clear cl.
  assert (forall b, In (t, b) (map (fun p : Z * bool * fl => (fst (fst p), negb (snd (fst p) || (o && fge (snd p) q))))
      (combine (map (fun r => (fst r, in_levels (fst (last_at (NaN, NaN) L (fst r))) (snd (last_at (NaN, NaN) L (fst r))) (snd r))) s) (vals (clean s)))) -> b = true) as A.
  { intros b Hb. apply in_map_iff in Hb. destruct Hb as ([[t' c] x] & [= -> <-] & Hc). apply In_nth_error in Hc. destruct Hc as [i Hi].
    rewrite nth_error_combine, nth_error_map_some in Hi. destruct (nth_error s i) as [[t' v] |] eqn:Er; [| discriminate]. cbn [fst snd] in Hi.
    unfold vals, clean in Hi. rewrite !nth_error_map_some, Er in Hi. cbn [fst snd] in Hi. injection Hi as -> <- <-.
    assert (v = NaN) as -> by (apply nth_error_In in Er; exact (sorted_fun s t v NaN HS Er Hin)).
    assert (forall lo hi, in_levels lo hi NaN = false) as LN.
    { intros lo hi. unfold in_levels, fge. assert (forall a, fle a NaN = false) as N1 by (destruct a; reflexivity).
      assert (forall a, fle NaN a = false) as N2 by reflexivity. rewrite !N1, !N2. reflexivity. }
    rewrite LN. match goal with |- context [if ?c then NaN else NaN] => destruct c end; unfold fge; destruct q; cbn; rewrite andb_false_r; reflexivity. }
  split; [| intros K; discriminate (A _ K)].
  match goal with |- In _ ?l => assert (In t (map fst l)) as K end.
  { rewrite map_map. cbn [fst]. assert (length (vals (clean s)) = length s) as EL by (unfold vals, clean; rewrite !map_length; reflexivity).
    revert EL. generalize (vals (clean s)) as l. generalize (fun r : Z * fl => in_levels (fst (last_at (NaN, NaN) L (fst r))) (snd (last_at (NaN, NaN) L (fst r))) (snd r)) as p.
    revert Hin. clear. intros Hin p. induction s as [| r s IH]; intros l EL; [destruct Hin |]. destruct l as [| x l]; [discriminate |].
    cbn [map combine fst]. destruct Hin as [-> | Hin]; [left; reflexivity | right; apply IH; [exact Hin | cbn in EL; lia]]. }
  apply in_map_iff in K. destruct K as ([t' b] & Et & K). cbn in Et. subst t'. rewrite (A _ K) in K. exact K.
Qed.

Lemma filter_none : forall A (p : A -> bool) l, (forall x, In x l -> p x = false) -> filter p l = [].
Proof.
  intros A p l H. induction l as [| x l IH]; [reflexivity |]. cbn [filter]. rewrite (H x (or_introl eq_refl)). apply IH. intros; apply H; right; assumption.
Qed.

(** Without a flat stretch nothing is removed. *)
Lemma logic_clip_none : forall s m cutoff roll mask D, logic_clip_filter s m cutoff roll = Ok mask -> sorted_index s ->
  detect s m cutoff roll = Ok D -> (forall t, ~ In (t, true) D) -> forall t b, In (t, b) mask -> b = true.
Proof.
  intros s m cutoff roll mask D E HS ED HD t b Hb. unfold logic_clip_filter in E.
  destruct (format_clipping s m) as [un |]; [cbn [bind] in E | discriminate]. rewrite ED in E. cbn [bind] in E.
  cbv zeta in E. apply Ok_inj in E.
  assert (forall u, last_at false D u = false) as HL.
  { intros u. unfold last_at. destruct (find _ (rev D)) as [[u' [|]] |] eqn:F; [| reflexivity | reflexivity].
    apply find_some in F. destruct F as [F _]. apply in_rev in F. elim (HD _ F). }
  assert (detected_power D s = on_values (fun _ => NaN) s) as EP.
  { unfold detected_power, on_values. apply map_ext. intros r. rewrite HL. reflexivity. }
  assert (forall freq f, (forall r, In r f -> snd r = NaN) -> forall u, last_at (NaN, NaN) (day_levels freq f) u = (NaN, NaN)) as HV.
  { intros freq f Hf u. unfold last_at. destruct (find _ _) as [[u' lv] |] eqn:F; [| reflexivity]. apply find_some in F. destruct F as [F _].
    apply in_rev in F. unfold day_levels, resample_agg in F. destruct f as [| [t0 v0] f]; [destruct F |]. apply in_map_iff in F. destruct F as (b' & Eb & _).
    apply (f_equal snd) in Eb. cbn [snd] in Eb. subst lv. cbn [snd].
    match goal with |- context [vals ?l] => assert (exists k, vals l = repeat NaN k) as [k ->] end.
    { exists (length (filter (fun r => (bin_start (start_day t0) ns_day (fst r) =? b')%Z) ((t0, v0) :: f))).
      assert (forall g : series, (forall r, In r g -> snd r = NaN) -> vals g = repeat NaN (length g)) as Y.
      { induction g as [| r g IHg]; intros Hg; [reflexivity |]. cbn [vals map length repeat]. rewrite (Hg r (or_introl eq_refl)). f_equal.
        apply IHg. intros; apply Hg; right; assumption. }
      apply Y. intros r Hr. apply filter_In in Hr. apply Hf, Hr. }
    destruct (minutes 10 <=? freq)%Z.
    - f_equal; induction k as [| k IHk]; [reflexivity | | reflexivity |]; exact IHk.
    - assert (forall q, robust_quantile q (repeat NaN k) = NaN) as Y.
      { intros q. unfold robust_quantile, robust_keep. rewrite filter_none; [reflexivity |]. intros x Hx. apply repeat_spec in Hx. subst x. unfold fgt. destruct (robust_small _ _); reflexivity. }
      rewrite !Y. reflexivity. }
  assert (level_mask (mode (steps (times s))) D s = map (fun r => (fst r, false)) s) as EM.
  { unfold level_mask. cbv zeta. apply map_ext. intros r. rewrite EP, HV.
    - f_equal. unfold in_levels. cbn [fst snd fsub fadd fneg fdiv fle fgt flt]. rewrite !andb_false_r. reflexivity.
    - intros x Hx. unfold on_values in Hx. apply in_map_iff in Hx. destruct Hx as (y & <- & _). reflexivity. }
  rewrite EM in E.
  assert (map (fun p => snd (fst p)) (filter (fun p : Z * fl * (Z * bool) => snd (snd p)) (combine s (map (fun r => (fst r, false)) s))) = []) as EC.
  { rewrite (combine_map_filter s (fun _ => false)). rewrite filter_none; [reflexivity | intros; reflexivity]. }
  rewrite EC in E. assert (overall_rule (vals (clean s)) [] = false) as EO.
  { unfold overall_rule. assert (robust_quantile q99 [] = NaN) as -> by reflexivity.
    assert (fsub (robust_quantile q99 (vals (clean s))) NaN = NaN) as -> by (destruct (robust_quantile q99 (vals (clean s))); reflexivity). reflexivity. }
  rewrite EO in E. subst mask. apply in_map_iff in Hb. destruct Hb as ([[t' c] x] & [= -> <-] & Hc). apply in_combine_l in Hc.
  apply in_map_iff in Hc. destruct Hc as (r & [= _ <-] & _). reflexivity.
Qed.

(** ** Scaling *)

Lemma resample_agg_values : forall A (f : list fl -> A) w g s,
  resample_agg f w (on_values g s) = resample_agg (fun l => f (map g l)) w s.
Proof.
  intros A f w g s. destruct s as [| [t0 v0] s]; [reflexivity |]. unfold resample_agg. cbn [on_values map fst snd].
  change ((t0, g v0) :: map (fun r => (fst r, g (snd r))) s) with (on_values g ((t0, v0) :: s)).
  rewrite !last_fst. cbn [fst]. assert (times (on_values g ((t0, v0) :: s)) = times ((t0, v0) :: s)) as -> by (unfold times, on_values; rewrite map_map; reflexivity).
  apply map_ext. intros b. do 2 f_equal. unfold on_values. rewrite filter_map_comm. unfold vals. rewrite !map_map. reflexivity.
Qed.

Lemma resample_agg_map : forall A B (f : list fl -> A) (h : A -> B) w s,
  resample_agg (fun l => h (f l)) w s = map (fun r => (fst r, h (snd r))) (resample_agg f w s).
Proof. intros A B f h w s. destruct s as [| [t0 v0] s]; [reflexivity |]. unfold resample_agg. rewrite map_map. reflexivity. Qed.

Lemma resample_agg_ext : forall A (f g : list fl -> A) w s, (forall l, f l = g l) -> resample_agg f w s = resample_agg g w s.
Proof. intros A f g w s H. destruct s as [| [t0 v0] s]; [reflexivity |]. unfold resample_agg. apply map_ext. intros b. rewrite H. reflexivity. Qed.

Lemma last_at_map : forall A B (h : A -> B) d l t, last_at (h d) (map (fun r => (fst r, h (snd r))) l) t = h (last_at d l t).
Proof.
  intros A B h d l t. unfold last_at. rewrite <- map_rev. induction (rev l) as [| r k IH]; [reflexivity |].
  cbn [map find fst]. destruct (fst r <=? t)%Z; [reflexivity | exact IH].
Qed.

Lemma Ok_bind : forall A B (x : A) (f : A -> result B), bind (Ok x) f = f x.
Proof. reflexivity. Qed.

Section Scale.
  Variable k : Qc.
  Hypothesis Hk : 0 < k.
  Let g := fscale k.

  Lemma times_scaled : forall s, times (on_values g s) = times s.
  Proof. intros s. unfold times, on_values. rewrite map_map. reflexivity. Qed.

  Lemma vals_scaled : forall s, vals (on_values g s) = map g (vals s).
  Proof. intros s. unfold vals, on_values. rewrite !map_map. reflexivity. Qed.

  Lemma fmax2_scale : forall x y, fmax2 (g x) (g y) = g (fmax2 x y).
  Proof.
    intros x y. unfold fmax2, g. rewrite !isnan_fscale, fle_fscale by exact Hk. destruct (isnan x); [reflexivity |]. destruct (isnan y); [reflexivity |].
    destruct (fle x y); reflexivity.
  Qed.
  Lemma fmin2_scale : forall x y, fmin2 (g x) (g y) = g (fmin2 x y).
  Proof.
    intros x y. unfold fmin2, g. rewrite !isnan_fscale, fle_fscale by exact Hk. destruct (isnan x); [reflexivity |]. destruct (isnan y); [reflexivity |].
    destruct (fle x y); reflexivity.
  Qed.
  Lemma fmaximum_scale : forall l, fmaximum (map g l) = g (fmaximum l).
  Proof. induction l as [| x l IH]; [reflexivity |]. cbn [map fmaximum fold_right]. unfold fmaximum in IH. rewrite IH. apply fmax2_scale. Qed.
  Lemma fminimum_scale : forall l, fminimum (map g l) = g (fminimum l).
  Proof. induction l as [| x l IH]; [reflexivity |]. cbn [map fminimum fold_right]. unfold fminimum in IH. rewrite IH. apply fmin2_scale. Qed.

  Lemma finvals_scale : forall l, finvals (map g l) = map (fun q => k * q) (finvals l).
  Proof.
    induction l as [| x l IH]; [reflexivity |]. cbn [map]. destruct x; unfold g at 1; rewrite ?fscale_PInf, ?fscale_NInf, ?fscale_Fin, ?fscale_NaN by exact Hk; cbn [finvals map]; rewrite IH; reflexivity.
  Qed.

  Lemma frozen_scale : forall l, frozen (map g l) = frozen l.
  Proof.
    intros l. unfold frozen. rewrite finvals_scale, map_length.
    assert (existsb (fun x => match x with PInf | NInf => true | _ => false end) (map g l) = existsb (fun x => match x with PInf | NInf => true | _ => false end) l) as ->.
    { induction l as [| x l IH]; [reflexivity |]. cbn [map existsb]. rewrite IH. f_equal. destruct x; unfold g; rewrite ?fscale_PInf, ?fscale_NInf, ?fscale_Fin, ?fscale_NaN by exact Hk; reflexivity. }
    destruct (existsb _ l); [reflexivity |]. set (v := finvals l). set (n := Z.of_nat (length v)). destruct (n <? 2)%Z eqn:E; [reflexivity |].
    apply Z.ltb_ge in E. rewrite qsum_scale. set (m := qsum v / qz n).
    assert (0 < qz n) as Pn by (apply qz_pos; lia). assert (0 < qz (n - 1)) as Pn1 by (apply qz_pos; lia).
    replace (k * qsum v / qz n) with (k * m) by (unfold m; field; apply Qc_pos_neq, Pn).
    assert (qsum (map (fun x => (x - k * m) * (x - k * m)) (map (fun q => k * q) v)) = k * k * qsum (map (fun x => (x - m) * (x - m)) v)) as ->.
    { rewrite map_map. rewrite <- qsum_scale, map_map. f_equal. apply map_ext. intros x. ring. }
    set (S2 := qsum (map (fun x => (x - m) * (x - m)) v)).
    assert (qlt 0 (k * m) = qlt 0 m) as ->.
    { pose proof (flt_fscale k Hk (Fin 0) (Fin m)) as X. rewrite !fscale_Fin in X. cbn [flt] in X. rewrite <- X. f_equal. ring. }
    assert (qlt (k * m) 0 = qlt m 0) as ->.
    { pose proof (flt_fscale k Hk (Fin m) (Fin 0)) as X. rewrite !fscale_Fin in X. cbn [flt] in X. rewrite <- X. f_equal. ring. }
    destruct (qlt 0 m); [| reflexivity].
    assert (0 < k * k) as Hkk by (apply Qc_mul_pos; exact Hk).
    pose proof (flt_fscale (k * k) Hkk (Fin (qz 100 * (S2 / qz (n - 1)))) (Fin (m * m))) as X. rewrite !fscale_Fin in X. cbn [flt] in X. rewrite <- X.
    f_equal; [field; apply Qc_pos_neq, Pn1 | ring].
  Qed.

  Lemma clean_scale : forall s, clean (on_values g s) = on_values g (clean s).
  Proof.
    intros s. unfold clean. rewrite resample_agg_values, (resample_agg_ext _ _ frozen ns_day s frozen_scale).
    unfold on_values. rewrite !map_map. apply map_ext. intros r. cbn [fst snd]. destruct (last_at _ _ _); reflexivity.
  Qed.

  Lemma regularise_scale : forall freq s, regularise freq (on_values g s) = bind (regularise freq s) (fun r => Ok (on_values g r)).
  Proof.
    intros freq s. unfold regularise. destruct (minutes 10 <=? freq)%Z.
    - unfold g. rewrite interpolate_u by exact Hk. destruct (interpolate _ _ _ _ _); reflexivity.
    - cbn [bind]. f_equal. rewrite resample_agg_values, (resample_agg_ext _ _ (fun l => g (fmedian l))).
      + apply resample_agg_map.
      + intros l. apply fmedian_fscale, Hk.
  Qed.

  Lemma drop_low_scale : forall s, drop_low (on_values g s) = on_values g (drop_low s).
  Proof.
    intros s. unfold drop_low. rewrite resample_agg_values, (resample_agg_ext _ _ (fun l => g (fmul (ff 1 10) (fmaximum l)))).
    - rewrite resample_agg_map. unfold on_values. rewrite !map_map. apply map_ext. intros r. cbn [fst snd].
      change NaN with (g NaN) at 1. rewrite last_at_map. unfold g at 1 2. rewrite flt_fscale by exact Hk. destruct (flt _ _); reflexivity.
    - intros l. rewrite fmaximum_scale. rewrite (fmul_comm (ff 1 10) (g _)), (fmul_comm (ff 1 10) (fmaximum l)). apply fmul_fscale_l, Hk.
  Qed.

  Lemma window_range_scale : forall n l, window_range n (map g l) = window_range n l.
  Proof.
    intros n l. unfold window_range. rewrite firstn_map.
    assert (map noninf (map g (firstn n l)) = map g (map noninf (firstn n l))) as ->.
    { rewrite !map_map. apply map_ext. intros x. destruct x; unfold g; rewrite ?fscale_PInf, ?fscale_NInf, ?fscale_Fin, ?fscale_NaN by exact Hk; reflexivity. }
    set (w := map noninf (firstn n l)). rewrite map_length.
    assert (forallb notnan (map g w) = forallb notnan w) as ->.
    { induction w as [| x w IH]; [reflexivity |]. cbn [map forallb]. rewrite IH. unfold notnan, g. rewrite isnan_fscale by exact Hk. reflexivity. }
    destruct (_ && _); [| reflexivity]. rewrite fmaximum_scale, fminimum_scale. unfold g.
    rewrite fsub_fscale, fadd_fscale by exact Hk. unfold fz. rewrite fdiv_fscale_l by (try exact Hk; discriminate). rewrite fdiv_fscale by exact Hk. reflexivity.
  Qed.

  Lemma tails_map : forall A B (h : A -> B) l, tails (map h l) = map (map h) (tails l).
  Proof. intros A B h l. induction l as [| x l IH]; [reflexivity |]. cbn [map tails]. rewrite IH. reflexivity. Qed.

  Lemma clipping_rows_scale : forall n cutoff s, clipping_rows n cutoff (on_values g s) = clipping_rows n cutoff s.
  Proof.
    intros n cutoff s. unfold clipping_rows.
    assert (flat_rows n cutoff (on_values g s) = flat_rows n cutoff s) as ->.
    { unfold flat_rows, max_rolling_range. rewrite vals_scaled, tails_map, !map_map. apply map_ext. intros l. rewrite window_range_scale. reflexivity. }
    assert (length (on_values g s) = length s) as -> by (unfold on_values; apply map_length).
    generalize (flat_rows n cutoff s) as fr. intros fr. generalize 0%nat. induction s as [| r s IH]; intros i; [reflexivity |].
    cbn [length seq on_values map combine fst snd]. f_equal. apply IH.
  Qed.

  Lemma detect_scale : forall s m cutoff roll, detect (on_values g s) m cutoff roll = detect s m cutoff roll.
  Proof.
    intros s m cutoff roll. unfold detect. rewrite times_scaled, clean_scale, regularise_scale.
    destruct (regularise _ (clean s)) as [r |]; [| reflexivity]. cbn [bind]. rewrite drop_low_scale, clipping_rows_scale. reflexivity.
  Qed.

  Lemma in_levels_scale : forall lo hi x, in_levels (g lo) (g hi) (g x) = in_levels lo hi x.
  Proof.
    intros lo hi x. unfold in_levels, fge, g. rewrite fsub_fscale, fdiv_fscale, !fmul_fscale_l, !fle_fscale by exact Hk. reflexivity.
  Qed.

  Lemma level_mask_scale : forall freq D s, level_mask freq D (on_values g s) = level_mask freq D s.
  Proof.
    intros freq D s. unfold level_mask. cbv zeta.
    assert (detected_power D (on_values g s) = on_values g (detected_power D s)) as ->.
    { unfold detected_power, on_values. rewrite !map_map. apply map_ext. intros r. cbn [fst snd]. destruct (last_at _ _ _); reflexivity. }
    unfold day_levels. rewrite resample_agg_values.
    rewrite (resample_agg_ext _ _ (fun l => let p := if (minutes 10 <=? freq)%Z then (fminimum l, fmaximum l)
                         else (robust_quantile (qf 75 1000) l, robust_quantile q99 l) in (g (fst p), g (snd p)))).
    - rewrite (resample_agg_map _ _ (fun l => if (minutes 10 <=? freq)%Z then (fminimum l, fmaximum l)
                         else (robust_quantile (qf 75 1000) l, robust_quantile q99 l)) (fun p => (g (fst p), g (snd p)))).
      unfold on_values. rewrite map_map. apply map_ext. intros r. cbn [fst snd].
      change (NaN, NaN) with ((fun p : fl * fl => (g (fst p), g (snd p))) (NaN, NaN)) at 1 2. rewrite last_at_map. cbn [fst snd]. rewrite in_levels_scale. reflexivity.
    - intros l. destruct (minutes 10 <=? freq)%Z; cbn [fst snd].
      + rewrite fminimum_scale, fmaximum_scale. reflexivity.
      + unfold g. rewrite !robust_quantile_fscale by exact Hk. reflexivity.
  Qed.

  Lemma overall_rule_scale : forall a b, overall_rule (map g a) (map g b) = overall_rule a b.
  Proof.
    intros a b. unfold overall_rule, g. rewrite !map_length, !robust_quantile_fscale by exact Hk.
    rewrite fsub_fscale, fadd_fscale by exact Hk. unfold fz. rewrite fdiv_fscale_l by (try exact Hk; discriminate). rewrite fdiv_fscale by exact Hk. reflexivity.
  Qed.

  Theorem logic_clip_scale : forall s m cutoff roll, logic_clip_filter (on_values g s) m cutoff roll = logic_clip_filter s m cutoff roll.
  Proof.
    intros s m cutoff roll. unfold logic_clip_filter.
    assert (format_clipping (on_values g s) m = format_clipping s m) as ->.
    { unfold format_clipping. rewrite times_scaled. unfold on_values. rewrite map_length. reflexivity. }
    destruct (format_clipping s m); [cbn [bind] | reflexivity]. rewrite detect_scale.
    destruct (detect s m cutoff roll) as [D |]; [cbn [bind] | reflexivity]. cbv zeta. rewrite times_scaled, level_mask_scale, clean_scale, vals_scaled.
    set (fm := level_mask _ D s).
    assert (map (fun p => snd (fst p)) (filter (fun p : Z * fl * (Z * bool) => snd (snd p)) (combine (on_values g s) fm)) =
            map g (map (fun p => snd (fst p)) (filter (fun p : Z * fl * (Z * bool) => snd (snd p)) (combine s fm)))) as ->.
    { generalize fm as fm0. clear. induction s as [| r s IH]; intros [| b fm]; try reflexivity. cbn [on_values map combine filter snd fst].
      destruct (snd b); cbn [map fst snd]; [f_equal |]; apply IH. }
    rewrite overall_rule_scale. set (o := overall_rule _ _). f_equal.
    assert (robust_quantile q99 (map g (vals (clean s))) = g (robust_quantile q99 (vals (clean s)))) as -> by (apply robust_quantile_fscale, Hk).
    set (q := robust_quantile q99 _). clearbody o q. generalize (vals (clean s)) as l. generalize fm as fm0. clear fm.
    induction fm0 as [| b fm IH]; intros [| x l]; try reflexivity. cbn [map combine fst snd]. f_equal; [| apply IH].
    unfold fge. unfold g. rewrite fle_fscale by exact Hk. reflexivity.
  Qed.
End Scale.
