(** Records at another time: normalization, daily values, filters, availability. *)

From Coq Require Import QArith Qcanon List ZArith Bool Arith Sorted Lia.
From Verif.Base Require Import QcExtra ISort Quantile Fl TimeSeries Calendar Rolling.
From Verif.Model Require Import Utilities Interpolation Energy Normalization Filters Clipping Availability.
From Verif.Spec Require Import Delay.
From Verif.Proofs Require Import DelayP.
Import ListNotations.
Open Scope Qc_scope.

Section Delay.
Variable d : Z.
Local Notation sh := (delayed d).
Local Notation al := (all_delayed d).
Local Notation td := (then_delayed d).

Lemma al_inj : forall a b, al a = al b -> a = b.
Proof.
  intros a. induction a as [|x a IH]; intros [|y b] H; try discriminate H; [reflexivity|]. cbn in H. injection H as H1 H2. f_equal; [lia|]. now apply IH.
Qed.
Lemma same_sh : forall a b, same_index (al a) (al b) = same_index a b.
Proof.
  intros a b. unfold same_index. destruct (list_eq_dec Z.eq_dec (al a) (al b)) as [E|E], (list_eq_dec Z.eq_dec a b) as [F|F]; try reflexivity.
  - apply al_inj in E. contradiction.
  - subst. contradiction.
Qed.
Lemma combine_sh2 : forall A B (a : list (Z * A)) (b : list (Z * B)), combine (sh a) (sh b) = map (fun p => ((fst (fst p) + d, snd (fst p)), (fst (snd p) + d, snd (snd p))))%Z (combine a b).
Proof. intros A B a. induction a as [|x a IH]; intros [|y b]; try reflexivity. cbn. f_equal. apply IH. Qed.
Lemma sh_align : forall a b, align (sh a) (sh b) = sh (align a b).
Proof.
  intros a b. unfold align. rewrite !sh_times, same_sh. destruct (same_index (times a) (times b)).
  - rewrite combine_sh2. unfold delayed. rewrite !map_map. reflexivity.
  - rewrite <- al_app, al_zset. apply sh_rows. intros t. now rewrite !sh_lookup.
Qed.
Lemma sh_zip_aligned : forall f a b, zip_aligned f (sh a) (sh b) = sh (zip_aligned f a b).
Proof. intros f a b. unfold zip_aligned. rewrite sh_align. now apply (sh_map d _ _ (fun r : Z * (fl * fl) => f (fst (snd r)) (snd (snd r)))). Qed.
Lemma sh_on_values : forall f s, on_values f (sh s) = sh (on_values f s).
Proof. intros f s. unfold on_values. now apply (sh_map d _ _ (fun r : Z * fl => f (snd r))). Qed.
Lemma sh_where : forall f s, where_ f (sh s) = sh (where_ f s).
Proof. intros f s. unfold where_. now apply (sh_map d _ _ (fun r : Z * fl => f (snd r))). Qed.
Lemma sh_zip_with : forall f a b, zip_with f (sh a) (sh b) = sh (zip_with f a b).
Proof. intros f a b. unfold zip_with. rewrite combine_sh2. unfold delayed. rewrite !map_map. reflexivity. Qed.

(** ** Normalization *)
Lemma sh_mean_step : forall freq s, mean_step freq (sh s) = mean_step freq s.
Proof. intros [w|] s; unfold mean_step; [unfold delayed; rewrite !map_map; reflexivity|now rewrite sh_times, diffs_sh]. Qed.
Theorem pvwatts_delay : forall poa rated cell ref tref gamma,
  pvwatts_dc_power (sh poa) rated (option_map sh cell) ref tref gamma = sh (pvwatts_dc_power poa rated cell ref tref gamma).
Proof.
  intros poa rated [cell|] ref tref [gamma|]; unfold pvwatts_dc_power; cbn [option_map]; rewrite ?sh_on_values; try reflexivity. apply sh_zip_aligned.
Qed.
Theorem normalize_delay : forall infer pv_freq model_freq pv expected poa kind, (forall l, infer (al l) = infer l) ->
  normalize_with_expected_power infer pv_freq model_freq (sh pv) (sh expected) (sh poa) kind =
  both_delayed d (normalize_with_expected_power infer pv_freq model_freq pv expected poa kind).
Proof.
  intros infer pv_freq model_freq pv expected poa kind Hi. unfold normalize_with_expected_power.
  assert (C : check_series_frequency infer pv_freq (sh pv) = check_series_frequency infer pv_freq pv).
  { unfold check_series_frequency. destruct pv_freq; [reflexivity|]. now rewrite sh_times, Hi. }
  rewrite C. destruct (check_series_frequency infer pv_freq pv) as [freq|e]; [|reflexivity]. cbn [bind].
  set (x := match kind with PvPower => _ | PvEnergy => _ | PvOther => _ end).
  set (y := match kind with PvPower => _ | PvEnergy => _ | PvOther => _ end).
  assert (X : x = match y with Ok p => Ok (sh (fst p), snd p) | Raise e => Raise e end).
  { unfold x, y. destruct kind; try reflexivity. rewrite energy_delay. destruct (energy_from_power pv_freq pv (Some freq) None RightLabeled); reflexivity. }
  rewrite X. clearbody y. clear X x. destruct y as [[energy ef]|e]; [|reflexivity]. cbn [bind fst snd].
  rewrite !sh_mean_step, sh_times. set (slower := fgt (mean_step model_freq expected) (mean_step ef energy)).
  assert (P : forall s : series, (if slower then interpolate true true (sh s) (TIndex (al (times pv))) None else Ok (sh s)) =
    td (if slower then interpolate true true s (TIndex (times pv)) None else Ok s)).
  { intros s. destruct slower; [|reflexivity]. exact (interpolate_delay d true true s (TIndex (times pv)) None). }
  match goal with |- bind ?a _ = both_delayed d (bind ?b _) => assert (Q : a = td b) by apply P; rewrite Q; clear Q; destruct b as [power|e] end; [|reflexivity]. cbn [then_delayed bind].
  match goal with |- bind ?a _ = both_delayed d (bind ?b _) => assert (Q : a = td b) by apply P; rewrite Q; clear Q; destruct b as [light|e] end; [|reflexivity]. cbn [then_delayed bind].
  rewrite !energy_delay. destruct (energy_from_power None power (Some freq) None RightLabeled) as [ee|e]; [|reflexivity]. cbn [then_delayed bind].
  destruct (energy_from_power None light (Some freq) None RightLabeled) as [ins|e]; [|reflexivity]. cbn [then_delayed bind both_delayed fst snd].
  rewrite sh_zip_aligned, !sh_times, <- al_app, al_zset, !sh_reindex. reflexivity.
Qed.

(** ** Values by day *)
Lemma start_day_sh : (ns_day | d)%Z -> forall t, start_day (t + d) = (start_day t + d)%Z.
Proof. intros [k ->] t. unfold start_day. rewrite Z.div_add by discriminate. lia. Qed.
Lemma bin_start_sh : forall o w t, bin_start (o + d) w (t + d) = (bin_start o w t + d)%Z.
Proof. intros. unfold bin_start. replace (t + d - (o + d))%Z with (t - o)%Z by lia. lia. Qed.
Lemma sh_day_sum : (ns_day | d)%Z -> forall s w, resample_day_sum (sh s) w = sh (resample_day_sum s w).
Proof.
  intros D [|[t0 v0] s] w; [reflexivity|]. unfold resample_day_sum. change (sh ((t0, v0) :: s)) with ((t0 + d, v0)%Z :: sh s). cbv iota.
  change ((t0 + d, v0)%Z :: sh s) with (sh ((t0, v0) :: s)). rewrite last_sh. set (l := fst (List.last ((t0, v0) :: s) (t0, NaN))).
  assert (B : bin_starts (t0 + d) w (l + d) = al (bin_starts t0 w l)).
  { unfold bin_starts. cbv zeta. rewrite start_day_sh, bin_start_sh by exact D. unfold all_delayed. rewrite map_map.
    replace (l + d - (bin_start (start_day t0) w t0 + d))%Z with (l - bin_start (start_day t0) w t0)%Z by lia. apply map_ext. intros k. lia. }
  rewrite B. apply sh_rows. intros b. rewrite start_day_sh by exact D.
  rewrite (sh_filter d _ _ (fun r => (bin_start (start_day t0) w (fst r) =? b)%Z)) by (intros t v; cbn; now rewrite bin_start_sh, eqb_sh). now rewrite sh_vals.
Qed.
Theorem aggregation_delay : (ns_day | d)%Z -> forall energy insolation w, aggregation_insol (sh energy) (sh insolation) w = sh (aggregation_insol energy insolation w).
Proof. intros D energy insolation w. unfold aggregation_insol. now rewrite sh_zip_aligned, !sh_day_sum, sh_zip_aligned by exact D. Qed.

(** ** Filters *)
Lemma numbered_sh : forall A (s : list (Z * A)) n, combine (seq n (length s)) (sh s) = map (fun r => (fst r, (fst (snd r) + d, snd (snd r))%Z)) (combine (seq n (length s)) s).
Proof. intros A s. induction s as [|x s IH]; intros n; [reflexivity|]. cbn. f_equal. apply IH. Qed.
Lemma window_sh : forall (f g : nat -> Z -> bool) s, (forall j u, f j (u + d)%Z = g j u) -> window_values f (sh s) = window_values g s.
Proof.
  intros f g s H. unfold window_values. rewrite sh_length, numbered_sh. induction (combine (seq 0 (length s)) s) as [|[j [u v]] l IH]; [reflexivity|].
  cbn [map filter fst snd]. rewrite H. destruct (g j u); cbn; now rewrite IH.
Qed.
Lemma rolling_sh : forall (inside : nat -> Z -> nat -> Z -> bool) m s, (forall i t j u, inside i (t + d)%Z j (u + d)%Z = inside i t j u) ->
  rolling_median inside m (sh s) = sh (rolling_median inside m s).
Proof.
  intros inside m s H. unfold rolling_median. rewrite sh_length, numbered_sh, map_map. match goal with |- _ = delayed d (map ?f ?l) => change (delayed d (map f l)) with (map (fun r => (fst r + d, snd r)%Z) (map f l)) end. rewrite map_map. apply map_ext. intros [i [t v]]. cbn [fst snd].
  rewrite (window_sh _ (inside i t) s) by (intros; apply H). reflexivity.
Qed.
Lemma back_sh : forall sp i t j u, in_back sp i (t + d) j (u + d) = in_back sp i t j u.
Proof. intros [w|n] i t j u; [|reflexivity]. cbn. replace (t + d - w)%Z with (t - w + d)%Z by lia. now rewrite !leb_sh. Qed.
Lemma fwd_sh : forall sp i t j u, in_fwd sp i (t + d) j (u + d) = in_fwd sp i t j u.
Proof. intros [w|n] i t j u; [|reflexivity]. cbn. replace (t + d + w)%Z with (t + w + d)%Z by lia. now rewrite !leb_sh. Qed.
Lemma center_sh : forall sp i t j u, in_center sp i (t + d) j (u + d) = in_center sp i t j u.
Proof. intros [w|n] i t j u; [|reflexivity]. unfold in_center. now replace (u + d - (t + d))%Z with (u - t)%Z by lia. Qed.
Theorem filters_delay : forall low high lo hi threshold quantile sp k t0 s s',
  normalized_filter low high (sh s) = sh (normalized_filter low high s) /\
  poa_filter lo hi (sh s) = sh (poa_filter lo hi s) /\
  tcell_filter lo hi (sh s) = sh (tcell_filter lo hi s) /\
  csi_filter threshold (sh s) (sh s') = sh (csi_filter threshold s s') /\
  quantile_clip_filter quantile (sh s) = sh (quantile_clip_filter quantile s) /\
  insolation_filter quantile (sh s) = sh (insolation_filter quantile s) /\
  two_way_window_filter sp threshold (sh s) = sh (two_way_window_filter sp threshold s) /\
  hampel_filter sp t0 (sh s) = sh (hampel_filter sp t0 s) /\
  directional_tukey_filter sp k (sh s) = sh (directional_tukey_filter sp k s).
Proof.
  intros low high lo hi threshold quantile sp k t0 s s'. repeat match goal with |- _ /\ _ => split end.
  - apply sh_where.
  - apply sh_where.
  - apply sh_where.
  - unfold csi_filter. rewrite sh_align.
    now apply (sh_map d _ _ (fun r : Z * (fl * fl) => let csi := fdiv (fst (snd r)) (snd (snd r)) in fge csi (fsub (Fin 1) threshold) && fle csi (fadd (Fin 1) threshold))).
  - unfold quantile_clip_filter. rewrite sh_vals. apply sh_where.
  - unfold insolation_filter. rewrite sh_vals. apply sh_where.
  - unfold two_way_window_filter. cbv zeta. rewrite sh_vals, sh_on_values, (rolling_sh _ _ _ (back_sh sp)), (rolling_sh _ _ _ (fwd_sh sp)), !sh_zip_with, !sh_on_values, sh_zip_with. apply sh_where.
  - unfold hampel_filter. cbv zeta. rewrite (rolling_sh _ _ _ (center_sh sp)), sh_zip_with, (rolling_sh _ _ _ (center_sh sp)), combine_sh2, map_map.
    match goal with |- _ = delayed d (map ?f ?l) => change (delayed d (map f l)) with (map (fun r => (fst r + d, snd r)%Z) (map f l)) end. rewrite map_map. reflexivity.
  - unfold directional_tukey_filter. cbv zeta. rewrite (rolling_sh _ _ _ (back_sh sp)), (rolling_sh _ _ _ (fwd_sh sp)), !sh_zip_with.
    assert (T : forall k x, tukey_fence k (sh x) = tukey_fence k x) by (intros; unfold tukey_fence; now rewrite sh_vals). rewrite !T.
    destruct (tukey_fence k (zip_with fsub s (rolling_median (in_back sp) 5 s))) as [bl bu].
    destruct (tukey_fence k (zip_with fsub s (rolling_median (in_fwd sp) 5 s))) as [fl' fu].
    rewrite combine_sh2, map_map. match goal with |- _ = delayed d (map ?f ?l) => change (delayed d (map f l)) with (map (fun r => (fst r + d, snd r)%Z) (map f l)) end. rewrite map_map. reflexivity.
Qed.

(** ** Availability *)
Lemma values_sh : forall idx s, values_on (al idx) (sh s) = values_on idx s.
Proof. intros idx s. unfold values_on, all_delayed. rewrite map_map. apply map_ext. intros t. apply sh_lookup. Qed.
Lemma slice_sh : forall A a b (s : list (Z * A)), slice a b (sh s) = sh (slice a b s).
Proof. intros. unfold slice, delayed. now rewrite skipn_map, firstn_map. Qed.
Lemma errors_delay : forall freq index loss system expected q,
  calc_error_distributions freq (al index) loss system expected q = calc_error_distributions freq index loss system expected q.
Proof.
  intros freq index loss system expected q. unfold calc_error_distributions. cbv zeta. rewrite !combine_sh, !energy_delay.
  destruct (energy_from_power freq (combine index (rescaled _ _ _)) None None RightLabeled) as [ee|e]; [|reflexivity]. cbn [then_delayed bind].
  destruct (energy_from_power freq (combine index system) None None RightLabeled) as [me|e]; [|reflexivity]. cbn [then_delayed bind]. now rewrite !values_sh.
Qed.
Lemma fill_delay : forall freq index expected o st, fill_outage freq (al index) expected o st = fill_outage freq index expected o st.
Proof.
  intros freq index expected o [lost corrected]. unfold fill_outage. cbv zeta. rewrite combine_sh, slice_sh, energy_delay.
  destruct (energy_from_power freq (slice (o_start o) (o_end o) (combine index expected)) None None RightLabeled) as [en|e]; [|reflexivity]. cbn [then_delayed bind].
  now rewrite !sh_vals, !sh_times, combine_sh, values_sh.
Qed.
Lemma fills_delay : forall freq index expected os st, fill_outages freq (al index) expected os st = fill_outages freq index expected os st.
Proof.
  intros freq index expected os. induction os as [|o os IH]; intros st; [reflexivity|]. cbn [fill_outages]. rewrite fill_delay.
  destruct (fill_outage freq index expected o st); [apply IH|reflexivity].
Qed.
Lemma rollup_delay : forall period period' f s, (forall t, period' (t + d)%Z = period t) -> rollup period' f (sh s) = rollup period f s.
Proof.
  intros period period' f s H. unfold rollup. rewrite sh_times.
  assert (R : period_range period' (al (times s)) = period_range period (times s)).
  { unfold period_range. destruct (times s) as [|t0 l]; [reflexivity|]. change (al (t0 :: l)) with ((t0 + d)%Z :: al l). cbv iota.
    change ((t0 + d)%Z :: al l) with (al (t0 :: l)). rewrite last_al, !H. reflexivity. }
  rewrite R. apply map_ext. intros p. f_equal. f_equal. unfold in_period.
  rewrite (sh_filter d _ _ (fun r => (period (fst r) =? p)%Z)) by (intros t v; cbn; now rewrite H). apply sh_vals.
Qed.
Theorem run_delay : forall freq index n system rows meter expected low sizes limits q period period', (forall t, period' (t + d)%Z = period t) ->
  run freq (al index) n system rows meter expected low sizes limits q period' = run freq index n system rows meter expected low sizes limits q period.
Proof.
  intros freq index n system rows meter expected low sizes limits q period period' H. unfold run.
  destruct (calc_loss_subsystem n low sizes limits system rows) as [masks loss]. rewrite errors_delay.
  destruct (calc_error_distributions freq index loss system expected q) as [e|]; [|reflexivity]. cbn [bind].
  assert (L : calc_loss_system freq (al index) masks e expected meter = calc_loss_system freq index masks e expected meter).
  { unfold calc_loss_system. cbv zeta. rewrite fills_delay. unfold all_delayed. now rewrite map_map. }
  rewrite L. destruct (calc_loss_system freq index masks e expected meter) as [r|]; [|reflexivity]. cbn [bind].
  assert (C : combine_losses freq period' (al index) (fst (snd r)) loss (snd (snd r)) = combine_losses freq period index (fst (snd r)) loss (snd (snd r))).
  { unfold combine_losses. cbv zeta. rewrite !combine_sh, energy_delay.
    destruct (energy_from_power freq (combine index (zip fadd (fst (snd r)) loss)) None None RightLabeled) as [le|e']; [|reflexivity]. cbn [then_delayed bind].
    now rewrite !(rollup_delay period period') by exact H. }
  now rewrite C.
Qed.
End Delay.
