(** The Kalman filter in another unit. *)

From Coq Require Import QArith Qcanon List ZArith Bool Arith Lia String.
From Verif.Base Require Import QcExtra ISort Quantile Fl TimeSeries Calendar Rolling.
From Verif.Spec Require Import KalmanUnits.
From Verif.Model Require Import Soiling CodsTools CodsKalman.
From Verif.Proofs Require Import FlP UnitP FiltersP2 NormP2 AvailP13.
Import ListNotations.
Open Scope list_scope.
Open Scope Qc_scope.

Section Units.
Variable k : Qc.
Hypothesis Hk : 0 < k.
Lemma kk_pos : 0 < k * k.
Proof. qnra. Qed.
Local Notation sc := (fscale k).
Local Notation sq := (fscale (k * k)).

Definition sv (v : vec) : vec := Vec (sc (v0 v)) (sc (v1 v)).
Definition sm (a : mat) : mat := Mat (sq (m00 a)) (sq (m01 a)) (sq (m10 a)) (sq (m11 a)).

Lemma fmul_r : forall c x y, 0 < c -> fmul x (fscale c y) = fscale c (fmul x y).
Proof. intros c x y Hc. rewrite fmul_comm, fmul_fscale_l by exact Hc. now rewrite fmul_comm. Qed.
Lemma zero_u : forall c, 0 < c -> fscale c (fz 0) = fz 0.
Proof. intros c Hc. unfold fz. rewrite fscale_Fin. f_equal. change (qz 0) with 0. ring. Qed.
Lemma feq_u : forall c x y, 0 < c -> feq (fscale c x) (fscale c y) = feq x y.
Proof.
  intros c x y Hc. assert (Nc : c <> 0) by (apply Qc_pos_neq, Hc).
  destruct x, y; rewrite ?(fscale_PInf c Hc), ?(fscale_NInf c Hc), ?fscale_Fin, ?fscale_NaN; try reflexivity.
  cbn. destruct (qeq q q0) eqn:E.
  - apply qeq_spec in E. subst. now apply qeq_spec.
  - apply qeq_false in E. apply qeq_false. intros H. apply E. transitivity ((c * q) / c); [field; exact Nc|]. rewrite H. field. exact Nc.
Qed.
Lemma feq0_u : forall c x, 0 < c -> feq (fscale c x) (fz 0) = feq x (fz 0).
Proof. intros c x Hc. rewrite <- (zero_u c Hc) at 1. now apply feq_u. Qed.
Lemma mul_both : forall x y, fmul (sc x) (sc y) = sq (fmul x y).
Proof. intros x y. rewrite fmul_fscale_l, fmul_r by exact Hk. apply fscale_mult; exact Hk. Qed.

Lemma vadd_u : forall a b, vadd (sv a) (sv b) = sv (vadd a b).
Proof. intros a b. unfold vadd, sv. cbn [v0 v1]. now rewrite !fadd_fscale. Qed.
Lemma vsub_u : forall a b, vsub (sv a) (sv b) = sv (vsub a b).
Proof. intros a b. unfold vsub, sv. cbn [v0 v1]. now rewrite !fsub_fscale. Qed.
Lemma madd_u : forall a b, madd (sm a) (sm b) = sm (madd a b).
Proof. intros a b. unfold madd, sm. cbn [m00 m01 m10 m11]. now rewrite !fadd_fscale by exact kk_pos. Qed.
Lemma msub_u : forall a b, msub (sm a) (sm b) = sm (msub a b).
Proof. intros a b. unfold msub, sm. cbn [m00 m01 m10 m11]. now rewrite !fsub_fscale by exact kk_pos. Qed.
Lemma mmul_l : forall a b, mmul (sm a) b = sm (mmul a b).
Proof. intros a b. unfold mmul, sm. cbn [m00 m01 m10 m11]. now rewrite !fmul_fscale_l, !fadd_fscale by exact kk_pos. Qed.
Lemma mmul_r : forall a b, mmul a (sm b) = sm (mmul a b).
Proof. intros a b. unfold mmul, sm. cbn [m00 m01 m10 m11]. now rewrite !fmul_r, !fadd_fscale by exact kk_pos. Qed.
Lemma mvec_u : forall a x, mvec a (sv x) = sv (mvec a x).
Proof. intros a x. unfold mvec, sv. cbn [v0 v1]. now rewrite !fmul_r, !fadd_fscale by exact Hk. Qed.
Lemma scale_u : forall c a, scale (sq c) a = sm (scale c a).
Proof. intros c a. unfold scale, sm. cbn [m00 m01 m10 m11]. now rewrite !fmul_fscale_l by exact kk_pos. Qed.

Lemma predict_u : forall f u s, kf_predict (noise_in k f) (option_map sc u) (state_in k s) = state_in k (kf_predict f u s).
Proof.
  intros f u s. unfold kf_predict.
  change (f_x (state_in k s)) with (sv (f_x s)). change (f_P (state_in k s)) with (sm (f_P s)). change (f_Q (noise_in k f)) with (sm (f_Q f)).
  rewrite mvec_u, mmul_r, mmul_l, madd_u.
  destruct u as [c|]; cbn [option_map].
  - assert (E : Vec (sc c) (fz 0) = sv (Vec c (fz 0))) by (unfold sv; cbn [v0 v1]; now rewrite zero_u).
    rewrite E, vadd_u. reflexivity.
  - reflexivity.
Qed.

Lemma update_u : forall f z s, kf_update (noise_in k f) (sc z) (state_in k s) = match kf_update f z s with Ok x => Ok (state_in k x) | Raise e => Raise e end.
Proof.
  intros f z s. unfold kf_update. cbv zeta.
  change (f_x (state_in k s)) with (sv (f_x s)). change (f_P (state_in k s)) with (sm (f_P s)). change (f_R (noise_in k f)) with (sq (f_R f)).
  change (m00 (sm (f_P s))) with (sq (m00 (f_P s))). change (m10 (sm (f_P s))) with (sq (m10 (f_P s))). change (v0 (sv (f_x s))) with (sc (v0 (f_x s))).
  rewrite fadd_fscale by exact kk_pos. rewrite feq0_u by exact kk_pos.
  rewrite !(fdiv_fscale (k * k) kk_pos), fsub_fscale, !(fmul_r k) by exact Hk.
  destruct (feq _ _); [reflexivity|].
  rewrite mmul_r, mmul_l, scale_u, madd_u.
  match goal with |- context [Vec (sc ?a) (sc ?b)] => change (Vec (sc a) (sc b)) with (sv (Vec a b)) end.
  rewrite vadd_u. reflexivity.
Qed.

Lemma inverse_u : forall a, inverse (sm a) = match inverse a with Ok i => Ok (Mat (fdiv (m00 i) (Fin (k * k))) (fdiv (m01 i) (Fin (k * k))) (fdiv (m10 i) (Fin (k * k))) (fdiv (m11 i) (Fin (k * k)))) | Raise e => Raise e end.
Proof.
  intros [a b c d]. unfold inverse, sm. cbn [m00 m01 m10 m11]. cbv zeta.
  assert (D : fsub (fmul (sq a) (sq d)) (fmul (sq b) (sq c)) = sq (sq (fsub (fmul a d) (fmul b c)))).
  { rewrite !fmul_fscale_l, !fmul_r, !fsub_fscale by exact kk_pos. reflexivity. }
  rewrite D. set (det := fsub (fmul a d) (fmul b c)). rewrite !fneg_fscale by exact kk_pos. rewrite !(fdiv_fscale (k * k) kk_pos).
  rewrite !(fdiv_den_scale (k * k)) by exact kk_pos. rewrite !(feq0_u (k * k)) by exact kk_pos.
  destruct (feq det (fz 0)); reflexivity.
Qed.
Lemma back_u : forall c x, 0 < c -> fdiv (fscale c x) (Fin c) = x.
Proof.
  intros c x Hc. assert (E : Fin c = fscale c (Fin 1)) by (rewrite fscale_Fin; f_equal; ring).
  rewrite E. rewrite (fdiv_fscale c Hc). destruct x; try reflexivity. cbn. f_equal. field. discriminate.
Qed.
Lemma mul_div : forall c x y, 0 < c -> fmul (fscale c x) (fdiv y (Fin c)) = fmul x y.
Proof. intros c x y Hc. rewrite fmul_fscale_l by exact Hc. rewrite <- fmul_r by exact Hc. rewrite <- fdiv_any by exact Hc. now rewrite back_u. Qed.
Lemma mmul_div : forall a b, mmul (sm a) (Mat (fdiv (m00 b) (Fin (k * k))) (fdiv (m01 b) (Fin (k * k))) (fdiv (m10 b) (Fin (k * k))) (fdiv (m11 b) (Fin (k * k)))) = mmul a b.
Proof. intros a b. unfold mmul, sm. cbn [m00 m01 m10 m11]. now rewrite !(mul_div (k * k)) by exact kk_pos. Qed.

Lemma rts_u : forall f l, rts (noise_in k f) (map (state_in k) l) = match rts f l with Ok x => Ok (map (state_in k) x) | Raise e => Raise e end.
Proof.
  intros f. induction l as [|s l IH]; [reflexivity|]. cbn [rts map]. rewrite IH. destruct (rts f l) as [rest|e]; [|reflexivity].
  cbn [bind]. destruct rest as [|n rest]; [reflexivity|]. cbn [map].
  change (f_P (state_in k s)) with (sm (f_P s)). change (f_Q (noise_in k f)) with (sm (f_Q f)).
  change (f_x (state_in k s)) with (sv (f_x s)). change (f_x (state_in k n)) with (sv (f_x n)). change (f_P (state_in k n)) with (sm (f_P n)).
  rewrite mmul_r, mmul_l, madd_u, inverse_u, mmul_l. cbv zeta.
  destruct (inverse _) as [i|e]; [|reflexivity]. cbn [bind].
  rewrite mmul_div, mvec_u, vsub_u, mvec_u, vadd_u, msub_u, mmul_r, mmul_l, madd_u. reflexivity.
Qed.

(** Cleaning events. *)
Lemma at_u : forall c l i, at_row (map (fscale c) l) i = fscale c (at_row l i).
Proof. intros c l i. unfold at_row. apply nth_fscale. Qed.
Lemma argmax_from_u : forall l best b i, argmax_from (sc best) b i (map sc l) = argmax_from best b i l.
Proof.
  induction l as [|x l IH]; intros best b i; [reflexivity|]. cbn [argmax_from map].
  rewrite !isnan_fscale, flt_fscale by exact Hk. rewrite !IH. reflexivity.
Qed.
Lemma argmax_u : forall l, argmax (map sc l) = argmax l.
Proof. intros [|x l]; [reflexivity|]. cbn [argmax map]. apply argmax_from_u. Qed.
Lemma steps_u : forall l, local_steps (map sc l) = map sc (local_steps l).
Proof. intros l. unfold local_steps. rewrite map_map. apply map_ext. intros d. now rewrite !at_u, fsub_fscale by exact Hk. Qed.
Lemma medians_u : forall l i, local_medians (map sc l) i = map sc (local_medians l i).
Proof. intros l i. unfold local_medians. rewrite map_map. apply map_ext. intros d. apply at_u. Qed.
Lemma le0_u : forall c x, 0 < c -> fle (fz 0) (fscale c x) = fle (fz 0) x.
Proof. intros c x Hc. rewrite <- (zero_u c Hc) at 1. now apply fle_fscale. Qed.
Lemma gt0_u : forall c x, 0 < c -> fgt (fscale c x) (fz 0) = fgt x (fz 0).
Proof. intros c x Hc. unfold fgt. rewrite <- (zero_u c Hc) at 1. now apply flt_fscale. Qed.

Lemma control_u : forall f s local i ce, control_input (noise_in k f) (state_in k s) (map sc local) i ce =
  (sc (fst (control_input f s local i ce)), snd (control_input f s local i ce)).
Proof.
  intros f s local i ce. unfold control_input. cbv zeta.
  change (f_x (state_in k s)) with (sv (f_x s)). change (f_R (noise_in k f)) with (sq (f_R f)).
  rewrite steps_u, argmax_u, mvec_u, !at_u. change (v0 (sv (mvec trans_F (f_x s)))) with (sc (v0 (mvec trans_F (f_x s)))).
  rewrite fsub_fscale by exact Hk. rewrite mul_both, (fmul_r (k * k)), le0_u by exact kk_pos.
  unfold fgt at 1 3. rewrite (flt_fscale (k * k) kk_pos). rewrite gt0_u by exact Hk.
  destruct (_ || _).
  - destruct (_ && _); [reflexivity|]. cbn [fst snd]. now rewrite zero_u.
  - cbn [fst snd]. now rewrite zero_u.
Qed.

Lemma forward_u : forall f n rm7 soiling zs i s ce,
  forward_from (noise_in k f) n (map sc rm7) soiling i (map sc zs) (state_in k s) ce =
  match forward_from f n rm7 soiling i zs s ce with Ok r => Ok (map (state_in k) (fst r), snd r) | Raise e => Raise e end.
Proof.
  intros f n rm7 soiling. induction zs as [|z zs IH]; intros i s ce; [reflexivity|]. cbn [forward_from map].
  set (here := (7 <? i)%nat && (i + 7 <? n)%nat && (member i ce || member i soiling)).
  assert (S1 : (if here then let '(u, ce1) := control_input (noise_in k f) (state_in k s) (local_medians (map sc rm7) i) i ce in (kf_predict (noise_in k f) (Some u) (state_in k s), ce1) else (kf_predict (noise_in k f) None (state_in k s), ce)) =
    let p := (if here then let '(u, ce1) := control_input f s (local_medians rm7 i) i ce in (kf_predict f (Some u) s, ce1) else (kf_predict f None s, ce)) in (state_in k (fst p), snd p)).
  { destruct here.
    - rewrite medians_u, control_u. destruct (control_input _ _ _ _ _) as [u ce1]. cbn [fst snd].
      change (Some (sc u)) with (option_map sc (Some u)). now rewrite predict_u.
    - cbn [fst snd]. change (@None fl) with (option_map sc None) at 1. now rewrite predict_u. }
  rewrite S1. clear S1. destruct (if here then _ else _) as [s1 ce1]. cbn [fst snd].
  rewrite isnan_fscale by exact Hk.
  assert (S2 : (if isnan z then Ok (state_in k s1) else kf_update (noise_in k f) (sc z) (state_in k s1)) = match (if isnan z then Ok s1 else kf_update f z s1) with Ok x => Ok (state_in k x) | Raise e => Raise e end).
  { destruct (isnan z); [reflexivity|]. apply update_u. }
  rewrite S2. clear S2. destruct (if isnan z then Ok s1 else kf_update f z s1) as [s2|e]; [|reflexivity]. cbn [bind].
  rewrite IH. destruct (forward_from _ _ _ _ _ _ _ _) as [[states ce']|e]; reflexivity.
Qed.

Lemma smooth_u : forall f ends a states, smooth_from (noise_in k f) a ends (map (state_in k) states) =
  match smooth_from f a ends states with Ok r => Ok (map (state_in k) r) | Raise e => Raise e end.
Proof.
  intros f. induction ends as [|e ends IH]; intros a states; [reflexivity|]. cbn [smooth_from].
  rewrite firstn_map, skipn_map, rts_u. destruct (rts _ _) as [now_|x]; [|reflexivity]. cbn [bind].
  rewrite IH. destruct (smooth_from _ _ _ _) as [l|x]; [|reflexivity]. cbn [bind]. now rewrite map_app.
Qed.

Lemma white_u : forall v, white_noise (sq v) = sm (white_noise v).
Proof. intros v. unfold white_noise, sm. cbn [m00 m01 m10 m11]. now rewrite !(fmul_r (k * k)) by exact kk_pos. Qed.
Lemma noise_u : forall p m, initial_noise (sc p) (sq m) = noise_in k (initial_noise p m).
Proof. intros p m. unfold initial_noise. rewrite mul_both, white_u. reflexivity. Qed.
Lemma start_u : forall a b r z, initial_state (sc a) (sc b) (sc r) (sc z) = state_in k (initial_state a b r z).
Proof.
  intros a b r z. unfold initial_state. rewrite !mul_both. unfold state_in. cbn [f_x f_P v0 v1 m00 m01 m10 m11].
  change (amount (k * k) (fz 0)) with (sq (fz 0)). rewrite zero_u by exact kk_pos. reflexivity.
Qed.

Theorem run_filter_u : forall s rate_std zs_std ce,
  run_filter (setup_in k s) (amount k rate_std) (amount k zs_std) ce =
  match run_filter s rate_std zs_std ce with Ok r => Ok (run_in k r) | Raise e => Raise e end.
Proof.
  intros s rate_std zs_std ce. unfold run_filter, forward_pass. cbn [ks_noise ks_rm7 ks_soiling ks_zs ks_slope ks_intercept setup_in].
  change (amounts k (ks_zs s)) with (map sc (ks_zs s)). change (amounts k (ks_rm7 s)) with (map sc (ks_rm7 s)).
  change (initial_state (amount k (ks_slope s)) (amount k (ks_intercept s)) (amount k rate_std) (amount k zs_std)) with (initial_state (sc (ks_slope s)) (sc (ks_intercept s)) (sc rate_std) (sc zs_std)).
  rewrite start_u, map_length, forward_u. destruct (forward_from _ _ _ _ _ _ _ _) as [[states ce']|e]; [|reflexivity]. cbn [bind fst snd].
  unfold smooth_results. rewrite map_length, smooth_u. destruct (smooth_from _ _ _ _) as [smooth|e]; [|reflexivity]. cbn [bind].
  rewrite <- map_rev. destruct (rev states) as [|last rest]; reflexivity.
Qed.

(** Detection of events. *)
Lemma fill_from_u : forall n l last age, ffill_from n (sc last) age (map sc l) = map sc (ffill_from n last age l).
Proof.
  intros n. induction l as [|x l IH]; intros last age; [reflexivity|]. cbn [ffill_from map]. rewrite isnan_fscale by exact Hk.
  destruct (isnan x); cbn [map]; rewrite IH; [|reflexivity]. f_equal. destruct (_ <? _)%nat; reflexivity.
Qed.
Lemma ffill_u : forall l, fill_forward (map sc l) = map sc (fill_forward l).
Proof. intros l. unfold fill_forward, ffill_limit. rewrite map_length. change NaN with (sc NaN) at 1. apply fill_from_u. Qed.
Lemma bfill_u : forall l, fill_backward (map sc l) = map sc (fill_backward l).
Proof.
  intros l. unfold fill_backward, bfill_limit, ffill_limit. rewrite map_length, <- map_rev. change NaN with (sc NaN) at 1.
  rewrite fill_from_u. now rewrite map_rev.
Qed.
Lemma fill_u : forall b l, fill b (map sc l) = map sc (fill b l).
Proof. intros [] l; [apply ffill_u|apply bfill_u]. Qed.
Lemma noninf_u : forall x, noninf (sc x) = sc (noninf x).
Proof. intros []; rewrite ?(fscale_PInf k Hk), ?(fscale_NInf k Hk), ?fscale_Fin; reflexivity. Qed.
Lemma numbered_u : forall l, numbered (map sc l) = on_values sc (numbered l).
Proof.
  intros l. unfold numbered. rewrite map_length. unfold on_values. generalize (map Z.of_nat (seq 0 (List.length l))) as a.
  induction l as [|x l IH]; intros [|t a]; cbn [combine map]; try reflexivity. now rewrite IH.
Qed.
Lemma combine_seq_u : forall (a : list nat) (s : series), combine a (on_values sc s) = map (fun r => (fst r, (fst (snd r), sc (snd (snd r))))) (combine a s).
Proof. induction a as [|i a IH]; intros [|[t x] s]; cbn [combine on_values map]; try reflexivity. f_equal. apply IH. Qed.
Lemma on_len : forall s, List.length (on_values sc s) = List.length s.
Proof. intros s. unfold on_values. apply map_length. Qed.
Lemma window_u : forall inside s, window_values inside (on_values sc s) = map sc (window_values inside s).
Proof.
  intros inside s. unfold window_values. rewrite on_len, combine_seq_u, filter_map_comm, !map_map. cbn [fst snd].
  apply map_ext. intros r. apply noninf_u.
Qed.
Lemma rolling_u : forall inside mp s, rolling_median inside mp (on_values sc s) = on_values sc (rolling_median inside mp s).
Proof.
  intros inside mp s. unfold rolling_median. rewrite on_len, combine_seq_u.
  transitivity (map (fun r => (fst (snd r), sc (if (mp <=? fcount (window_values (inside (fst r) (fst (snd r))) s))%nat then fmedian (window_values (inside (fst r) (fst (snd r))) s) else NaN))) (combine (seq 0 (List.length s)) s)); [|unfold on_values; now rewrite map_map].
  rewrite !map_map. apply map_ext. intros [i [t x]]. cbn [fst snd].
  rewrite window_u, fcount_fscale, fmedian_fscale by exact Hk. f_equal. destruct (_ <=? _)%nat; reflexivity.
Qed.
Lemma centered_u : forall w l, centered_medians w (map sc l) = map sc (centered_medians w l).
Proof. intros w l. unfold centered_medians. rewrite numbered_u, rolling_u, vals_u. reflexivity. Qed.
Lemma diffs_u : forall l, diffs (map sc l) = map sc (diffs l).
Proof.
  intros l. unfold diffs. rewrite map_length, map_map. apply map_ext. intros [|j]; [reflexivity|]. now rewrite !at_u, fsub_fscale by exact Hk.
Qed.
Lemma abs_u : forall x, fabs (sc x) = sc (fabs x).
Proof.
  intros []; rewrite ?(fscale_PInf k Hk), ?(fscale_NInf k Hk), ?fscale_Fin; cbn [fabs]; rewrite ?(fscale_PInf k Hk), ?(fscale_NInf k Hk), ?fscale_Fin; try reflexivity.
  f_equal. unfold qabs. destruct (qle 0 q) eqn:A, (qle 0 (k * q)) eqn:B; qb; try reflexivity; qnra.
Qed.
Lemma map_abs_u : forall l, map fabs (map sc l) = map sc (map fabs l).
Proof. intros l. rewrite !map_map. apply map_ext. apply abs_u. Qed.
Lemma ce_u : forall b w tuner y, ce_detection b w tuner (map sc y) = (fst (ce_detection b w tuner y), map sc (snd (ce_detection b w tuner y))).
Proof.
  intros b w tuner y. unfold ce_detection. cbv zeta. rewrite fill_u, centered_u, diffs_u, map_abs_u, !fquantile_fscale by exact Hk.
  rewrite fsub_fscale, fmul_r, fadd_fscale by exact Hk. cbn [fst snd]. f_equal. rewrite map_map. apply map_ext. intros x. unfold fgt. now apply flt_fscale.
Qed.
Lemma soiling_u : forall b tuner y, soiling_detection b tuner (map sc y) = soiling_detection b tuner y.
Proof.
  intros b tuner y. unfold soiling_detection. cbv zeta. rewrite fill_u, centered_u, diffs_u, map_abs_u, !fquantile_fscale by exact Hk.
  rewrite fsub_fscale, fmul_r, fsub_fscale by exact Hk. rewrite map_map. apply map_ext. intros x. now apply flt_fscale.
Qed.
Lemma better_u : forall m best i, better (map sc m) best i = better m best i.
Proof.
  intros m best i. unfold better. rewrite at_u, isnan_fscale by exact Hk. destruct (isnan _); [reflexivity|]. destruct best as [b|]; [|reflexivity].
  now rewrite at_u, flt_fscale by exact Hk.
Qed.
Lemma peak_u : forall m lo hi, peak_day (map sc m) lo hi = peak_day m lo hi.
Proof.
  intros m lo hi. unfold peak_day. generalize (@None nat) as best. generalize (seq lo (S hi - lo)) as l.
  induction l as [|i l IH]; intros best; [reflexivity|]. cbn [fold_left]. rewrite better_u. apply IH.
Qed.
Lemma collapse_loop_u : forall fuel f hi m start dummy out, collapse_loop fuel f hi (map sc m) start dummy out = collapse_loop fuel f hi m start dummy out.
Proof.
  induction fuel as [|fuel IH]; intros; [reflexivity|]. cbn [collapse_loop]. cbv zeta. rewrite peak_u.
  destruct (_ =? _)%nat; [reflexivity|]. destruct (_ <? _)%nat; [|reflexivity]. destruct (peak_day _ _ _) as [d|e]; [|reflexivity]. cbn [bind].
  destruct (first_true _ _ _) as [n|e]; [|reflexivity]. cbn [bind]. apply IH.
Qed.
Lemma collapse_u : forall f ev m, collapse_cleaning_events f ev (map sc m) = collapse_cleaning_events f ev m.
Proof.
  intros f ev m. unfold collapse_cleaning_events. cbv zeta. rewrite map_length. destruct (negb _); [reflexivity|].
  destruct (first_true _ _ _) as [n|e]; [|reflexivity]. cbn [bind]. apply collapse_loop_u.
Qed.
Lemma first_u : forall zs p, first_events (map sc zs) p = first_events zs p.
Proof.
  intros zs p. unfold first_events. rewrite ce_u, map_length. destruct (ce_detection true 9 (ff 1 2) zs) as [ce rm]. cbn [fst snd].
  now rewrite diffs_u, collapse_u.
Qed.
Lemma outliers_u : forall m w x, find_numeric_outliers m w (map sc x) = find_numeric_outliers m w x.
Proof.
  intros m w [|x0 x1]; [reflexivity|]. unfold find_numeric_outliers. set (x := x0 :: x1). change (map sc (x0 :: x1)) with (map sc x).
  assert (Q : forall q, np_quantile q (map sc x) = sc (np_quantile q x)).
  { intros q. unfold np_quantile. rewrite fquantile_fscale by exact Hk.
    assert (E : existsb isnan (map sc x) = existsb isnan x).
    { clearbody x. clear x0 x1. induction x as [|y x IH]; [reflexivity|]. cbn [existsb map]. now rewrite isnan_fscale, IH by exact Hk. }
    rewrite E. clear E. destruct (existsb isnan x); reflexivity. }
  change (map sc x) with (sc x0 :: map sc x1) at 1. cbv beta iota. cbv zeta.
  rewrite !Q, fsub_fscale, fmul_r, fadd_fscale, fsub_fscale by exact Hk.
  assert (A : map (fun v => fgt v (sc (fadd (np_quantile (qf 3 4) x) (fmul m (fsub (np_quantile (qf 3 4) x) (np_quantile (qf 1 4) x)))))) (map sc x) = map (fun v => fgt v (fadd (np_quantile (qf 3 4) x) (fmul m (fsub (np_quantile (qf 3 4) x) (np_quantile (qf 1 4) x))))) x).
  { rewrite map_map. apply map_ext. intros y. unfold fgt. now apply flt_fscale. }
  assert (B : map (fun v => flt v (sc (fsub (np_quantile (qf 1 4) x) (fmul m (fsub (np_quantile (qf 3 4) x) (np_quantile (qf 1 4) x)))))) (map sc x) = map (fun v => flt v (fsub (np_quantile (qf 1 4) x) (fmul m (fsub (np_quantile (qf 3 4) x) (np_quantile (qf 1 4) x))))) x).
  { rewrite map_map. apply map_ext. intros y. now apply flt_fscale. }
  rewrite A, B. reflexivity.
Qed.
Lemma week_u : forall l i, week_after (map sc l) i = sc (week_after l i).
Proof.
  intros l i. unfold week_after. cbv zeta.
  assert (E : map (fun d => noninf (at_row (map sc l) (i + d))) (seq 0 7) = map sc (map (fun d => noninf (at_row l (i + d))) (seq 0 7))).
  { rewrite map_map. apply map_ext. intros d. now rewrite at_u, noninf_u. }
  rewrite E. generalize (map (fun d => noninf (at_row l (i + d))) (seq 0 7)) as w. intros w.
  assert (X : existsb isnan (map sc w) = existsb isnan w).
  { induction w as [|y w IH]; [reflexivity|]. cbn [existsb map]. rewrite isnan_fscale by exact Hk. f_equal. apply IH. }
  rewrite X, fmedian_fscale by exact Hk. clear X. destruct (existsb isnan w); reflexivity.
Qed.
Lemma level_u : forall r, level (run_in k r) = map sc (level r).
Proof. intros r. unfold level. cbn [run_in kr_states]. rewrite !map_map. reflexivity. Qed.
Lemma rate_u : forall r, rate (run_in k r) = map sc (rate r).
Proof. intros r. unfold rate. cbn [run_in kr_states]. rewrite !map_map. reflexivity. Qed.
Lemma keep_u : forall s r, keep_events (setup_in k s) (run_in k r) = keep_events s r.
Proof.
  intros s r. unfold keep_events. cbv zeta. rewrite level_u, rate_u. change (kr_events (run_in k r)) with (kr_events r).
  change (ks_prune (setup_in k s)) with (ks_prune s). change (ks_max_rate (setup_in k s)) with (sc (ks_max_rate s)).
  assert (W : map (week_after (map sc (level r))) (kr_events r) = map sc (map (week_after (level r)) (kr_events r))).
  { rewrite map_map. apply map_ext. intros i. apply week_u. }
  rewrite W, outliers_u.
  assert (H : map (fun x => fgt x (sc (ks_max_rate s))) (map sc (rate r)) = map (fun x => fgt x (ks_max_rate s)) (rate r)).
  { rewrite map_map. apply map_ext. intros x. unfold fgt. now apply flt_fscale. }
  rewrite H, collapse_u. reflexivity.
Qed.

(** The ratio. *)
Lemma div_by : forall x y, fdiv x (sc y) = fdiv (fdiv x y) (Fin k).
Proof. intros x y. now apply fdiv_den_scale. Qed.
Lemma div_out : forall x, fdiv x (Fin k) = fscale (/ k) x.
Proof.
  intros x. assert (P : 0 < / k) by (apply Qc_inv_pos, Hk). rewrite <- (back_u k (fscale (/ k) x) Hk). f_equal.
  rewrite fscale_mult by assumption. assert (E : k * / k = 1) by (field; apply Qc_pos_neq, Hk). rewrite E.
  destruct x; rewrite ?(fscale_PInf 1), ?(fscale_NInf 1), ?fscale_NaN, ?fscale_Fin by reflexivity; try reflexivity. f_equal. ring.
Qed.
Lemma inv_pos : 0 < / k.
Proof. apply Qc_inv_pos, Hk. Qed.
Lemma cancel_r : forall x y, fmul (fdiv x (Fin k)) (sc y) = fmul x y.
Proof. intros x y. rewrite fmul_comm, mul_div by exact Hk. apply fmul_comm. Qed.
Lemma after_u : forall ce pi, after_cleaning ce (map sc pi) = map sc (after_cleaning ce pi).
Proof.
  intros ce pi. unfold after_cleaning. rewrite map_length, <- ffill_u. f_equal. rewrite map_map. apply map_ext. intros i.
  rewrite at_u. destruct (member i ce); reflexivity.
Qed.
Lemma clean_u : forall ce pi, clean_ratio ce (map sc pi) = clean_ratio ce pi.
Proof.
  intros [|first ce] pi; [cbn [clean_ratio]; now rewrite map_map|]. unfold clean_ratio. cbv zeta. set (all := first :: ce).
  rewrite after_u, map_length, (combine_maps _ _ _ _ sc sc), map_map. cbn [fst snd].
  assert (R : map (fun p => fmul (fdiv (fz 1) (sc (fst p))) (sc (snd p))) (combine (after_cleaning all pi) pi) = map (fun p => fmul (fdiv (fz 1) (fst p)) (snd p)) (combine (after_cleaning all pi) pi)).
  { apply map_ext. intros [a b]. cbn [fst snd]. now rewrite div_by, cancel_r. }
  rewrite R. clear R. set (ratio := map (fun p => fmul (fdiv (fz 1) (fst p)) (snd p)) (combine (after_cleaning all pi) pi)).
  assert (M : fmean (map (fun p => fdiv (fst p) (snd p)) (combine ratio (map sc pi))) = fdiv (fmean (map (fun p => fdiv (fst p) (snd p)) (combine ratio pi))) (Fin k)).
  { rewrite div_out, <- (fmean_fscale (/ k) inv_pos). f_equal. rewrite map_map.
    assert (C : combine ratio (map sc pi) = map (fun p => (fst p, sc (snd p))) (combine ratio pi)).
    { rewrite <- (map_id ratio) at 1. apply (combine_maps _ _ _ _ (fun x => x) sc). }
    rewrite C, map_map. apply map_ext. intros [a b]. cbn [fst snd]. now rewrite div_by, div_out. }
  rewrite M. apply map_ext. intros i. destruct (i <=? first)%nat; [|reflexivity]. rewrite at_u, fmul_comm, cancel_r. apply fmul_comm.
Qed.
Lemma renorm_u : forall q ce l, renormalized (Some q) ce (map sc l) = renormalized (Some q) ce l.
Proof.
  intros q ce l. unfold renormalized. cbv zeta.
  assert (E : map (at_row (map sc l)) ce = map sc (map (at_row l) ce)) by (rewrite map_map; apply map_ext; intros i; apply at_u).
  rewrite E, fquantile_fscale, map_map by exact Hk. apply map_ext. intros x. now apply fdiv_fscale.
Qed.
Lemma rates_u : forall d l, map (fun p => if feq (fst p) (fz 0) then fz 0 else snd p) (combine d (map sc l)) = map sc (map (fun p => if feq (fst p) (fz 0) then fz 0 else snd p) (combine d l)).
Proof.
  intros d l. rewrite <- (map_id d) at 1. rewrite (combine_maps _ _ _ _ (fun x => x) sc), !map_map. apply map_ext. intros [a b]. cbn [fst snd].
  destruct (feq a (fz 0)); [now rewrite zero_u|reflexivity].
Qed.
Lemma anchored_u : forall s r before, ks_perfect s = true \/ ks_renorm s <> None ->
  ratio_and_rates (setup_in k s) (run_in k r) (option_map (map sc) before) =
  (fst (ratio_and_rates s r before), option_map (map sc) (snd (ratio_and_rates s r before))).
Proof.
  intros s r before H. unfold ratio_and_rates. cbv zeta. rewrite level_u, rate_u.
  cbn [setup_in ks_perfect ks_renorm ks_clip run_in kr_events].
  assert (E : renormalized (ks_renorm s) (kr_events r) (if ks_perfect s then clean_ratio (kr_events r) (map sc (level r)) else map sc (level r)) =
              renormalized (ks_renorm s) (kr_events r) (if ks_perfect s then clean_ratio (kr_events r) (level r) else level r)).
  { destruct (ks_perfect s); [now rewrite clean_u|]. destruct H as [H|H]; [discriminate H|]. destruct (ks_renorm s) as [q|]; [apply renorm_u|now elim H]. }
  rewrite E. destruct (ks_clip s); [|reflexivity]. cbn [fst snd option_map]. f_equal. f_equal. apply rates_u.
Qed.
Lemma plain_u : forall s r before, ks_perfect s = false -> ks_renorm s = None -> ks_clip s = false ->
  ratio_and_rates (setup_in k s) (run_in k r) (option_map (map sc) before) =
  (map sc (fst (ratio_and_rates s r before)), option_map (map sc) (snd (ratio_and_rates s r before))).
Proof.
  intros s r before P N C. unfold ratio_and_rates. cbv zeta. rewrite level_u.
  cbn [setup_in ks_perfect ks_renorm ks_clip run_in kr_events]. rewrite P, N, C. reflexivity.
Qed.

(** Settings. *)
Lemma fvar_u : forall l, fvar (map sc l) = sq (fvar l).
Proof.
  intros l. unfold fvar. cbv zeta. rewrite fcount_fscale, fmean_fscale by exact Hk. destruct (_ <? _)%nat; [reflexivity|].
  rewrite map_map. rewrite <- (fdiv_any (k * k) kk_pos). f_equal. rewrite <- (fsum_fscale (k * k) kk_pos). f_equal. rewrite map_map.
  apply map_ext. intros x. now rewrite fsub_fscale, mul_both by exact Hk.
Qed.
Definition point (p : Z * Qc) : Z * Qc := (fst p, k * snd p).
Lemma slopes_u : forall l, pair_slopes (map point l) = map (Qcmult k) (pair_slopes l).
Proof.
  intros l. unfold pair_slopes. rewrite flat_map_concat_map, map_map, <- flat_map_concat_map.
  assert (O : forall (f : Z * Qc -> list Qc) (m : list (Z * Qc)), flat_map (fun p => map (Qcmult k) (f p)) m = map (Qcmult k) (flat_map f m)).
  { intros f m. induction m as [|x m IH]; [reflexivity|]. cbn [flat_map]. now rewrite IH, map_app. }
  rewrite <- O. apply flat_map_ext. intros p. rewrite <- O. rewrite flat_map_concat_map, map_map, <- flat_map_concat_map. apply flat_map_ext. intros r.
  cbn [point fst snd]. destruct (_ <? _)%Z; [|reflexivity]. cbn [map]. f_equal. unfold Qcdiv. ring.
Qed.
Lemma theil_u : forall m l, fst (fst (theilslopes m (map point l))) = (sc (fst (fst (fst (theilslopes m l)))), sc (snd (fst (fst (theilslopes m l))))).
Proof.
  intros m l. unfold theilslopes. rewrite slopes_u. destruct (pair_slopes l) as [|a b] eqn:E; [reflexivity|].
  change (map (Qcmult k) (a :: b)) with (k * a :: map (Qcmult k) b). cbv beta iota zeta. change (k * a :: map (Qcmult k) b) with (map (Qcmult k) (a :: b)).
  cbn [fst snd]. assert (P : 0 <= k) by (apply Qclt_le_weak, Hk). rewrite qmedian_scale by (discriminate || exact P). rewrite !fscale_Fin. f_equal. f_equal.
  rewrite !map_map. cbn [point fst snd].
  assert (Y : map (fun x => k * snd x) l = map (Qcmult k) (map snd l)) by now rewrite map_map.
  rewrite Y, qmedian_scale; [ring| |exact P]. intros N. destruct l; [discriminate E|discriminate N].
Qed.
Lemma theil_fit_u : forall m ts l, fst (fst (theil_fit m (combine ts (map sc l)))) =
  (sc (fst (fst (fst (theil_fit m (combine ts l))))), sc (snd (fst (fst (theil_fit m (combine ts l)))))).
Proof.
  intros m ts l. unfold theil_fit.
  assert (C : combine ts (map sc l) = map (fun p => (fst p, sc (snd p))) (combine ts l)).
  { rewrite <- (map_id ts) at 1. apply (combine_maps _ _ _ _ (fun x => x) sc). }
  rewrite C. generalize (combine ts l) as pts. intros pts.
  assert (F : forallb (fun p => isfin (snd p)) (map (fun p : Z * fl => (fst p, sc (snd p))) pts) = forallb (fun p => isfin (snd p)) pts).
  { induction pts as [|[t x] pts IH]; [reflexivity|]. cbn [map forallb fst snd]. rewrite IH. f_equal. destruct x; rewrite ?(fscale_PInf k Hk), ?(fscale_NInf k Hk), ?fscale_Fin; reflexivity. }
  rewrite F. destruct (forallb _ pts); [|reflexivity].
  assert (M : flat_map (fun p => match snd p with Fin q => [(fst p, q)] | _ => [] end) (map (fun p : Z * fl => (fst p, sc (snd p))) pts) = map point (flat_map (fun p => match snd p with Fin q => [(fst p, q)] | _ => [] end) pts)).
  { clear F. induction pts as [|[t x] pts IH]; [reflexivity|]. cbn [map flat_map fst snd]. rewrite IH, map_app. f_equal. destruct x; rewrite ?(fscale_PInf k Hk), ?(fscale_NInf k Hk), ?fscale_Fin; reflexivity. }
  rewrite M. apply theil_u.
Qed.
Lemma setup_u : forall zs ffill pn prune mr renorm perfect clip,
  kalman_setup_of (map sc zs) ffill (sc pn) prune (sc mr) renorm perfect clip = setup_in k (kalman_setup_of zs ffill pn prune mr renorm perfect clip).
Proof.
  intros. unfold kalman_setup_of. cbv zeta. rewrite fill_u, !centered_u, !ffill_u, !bfill_u, soiling_u, firstn_map.
  rewrite (combine_maps _ _ _ _ sc sc), map_map. cbn [fst snd].
  set (pts := combine (map Z.of_nat (seq 0 14)) (firstn 14 (fill_backward zs))).
  pose proof (theil_fit_u (fun _ => 0) (map Z.of_nat (seq 0 14)) (firstn 14 (fill_backward zs))) as T. fold pts in T.
  destruct (theil_fit (fun _ => 0) (combine (map Z.of_nat (seq 0 14)) (map sc (firstn 14 (fill_backward zs))))) as [[[a b] c] d].
  destruct (theil_fit (fun _ => 0) pts) as [[[a' b'] c'] d']. cbn [fst snd] in T. injection T as -> ->.
  unfold setup_in. cbn [ks_zs ks_noise ks_slope ks_intercept ks_rm7 ks_soiling ks_prune ks_max_rate ks_perfect ks_renorm ks_clip].
  rewrite <- noise_u, <- fvar_u, map_map.
  assert (D : map (fun p => fsub (sc (fst p)) (sc (snd p))) (combine (fill_backward (fill_forward (centered_medians 13 (fill ffill zs)))) zs) = map (fun p => sc (fsub (fst p) (snd p))) (combine (fill_backward (fill_forward (centered_medians 13 (fill ffill zs)))) zs)).
  { apply map_ext. intros p. now rewrite fsub_fscale by exact Hk. }
  rewrite D. reflexivity.
Qed.
End Units.

(** One whole call.  A first round that leaves the events alone ends the pruning. *)
Section Whole.
Variable k : Qc.
Hypothesis Hk : 0 < k.
Local Notation sc := (fscale k).

Definition settled (s : kalman_setup) (r : kalman_run) : Prop := keep_events s r = Ok (kr_events r).

Lemma same_refl : forall l, same_events l l = true.
Proof. intros l. unfold same_events. destruct (list_eq_dec _ _ _); [reflexivity|now elim n]. Qed.
Lemma same_eq : forall a b, same_events a b = true -> a = b.
Proof. intros a b. unfold same_events. destruct (list_eq_dec _ _ _); [auto|discriminate]. Qed.

(** Two or more rounds allowed, one is enough: nothing was changed. *)
Lemma settled_one : forall s r iterations ratio rates x, (1 < iterations <= 100)%nat -> prune_loop 1 s iterations 0 r ratio rates = Some (Ok x) ->
  settled s r /\ x = (r, fst (ratio_and_rates s r rates), snd (ratio_and_rates s r rates)).
Proof.
  intros s r iterations ratio rates x H E. cbn [prune_loop] in E. unfold settled.
  assert (A : (0 <? iterations)%nat = true) by (apply Nat.ltb_lt; lia). rewrite A in E.
  destruct (keep_events s r) as [ce|e]; [|discriminate E]. destruct (same_events (kr_events r) ce) eqn:S.
  - apply same_eq in S. subst ce. split; [reflexivity|]. destruct (ratio_and_rates s r rates) as [a b].
    assert (B : (100 <? iterations)%nat = false) by (apply Nat.ltb_ge; lia). rewrite B in E. cbn [fst snd]. congruence.
  - destruct (run_filter _ _ _ _) as [r'|e]; [|discriminate E]. destruct (ratio_and_rates _ _ _) as [a b].
    assert (B : (1 <? iterations)%nat = true) by (apply Nat.ltb_lt; lia). rewrite B in E. discriminate E.
Qed.
Lemma settled_any : forall s r fuel iterations ratio rates, settled s r -> (0 < iterations <= 100)%nat -> (0 < fuel)%nat ->
  prune_loop fuel s iterations 0 r ratio rates = Some (Ok (r, fst (ratio_and_rates s r rates), snd (ratio_and_rates s r rates))).
Proof.
  intros s r fuel iterations ratio rates S H F. destruct fuel as [|fuel]; [lia|]. cbn [prune_loop].
  assert (A : (0 <? iterations)%nat = true) by (apply Nat.ltb_lt; lia). rewrite A, S, same_refl.
  destruct (ratio_and_rates s r rates) as [a b]. cbn [fst snd].
  assert (B : (100 <? iterations)%nat = false) by (apply Nat.ltb_ge; lia). destruct fuel; cbn [prune_loop]; rewrite B; reflexivity.
Qed.

Lemma missing_u : forall zs, map (fun _ => NaN) (map sc zs) = map sc (map (fun _ : fl => NaN) zs).
Proof. intros zs. rewrite !map_map. reflexivity. Qed.

Section Call.
Variables (zs : list fl) (pn zstd rstd mr prune : fl) (renorm : option Qc) (perfect clip ffill : bool) (p : option (list bool)).
Local Notation call fuel iterations := (kalman_filter_for_SR fuel zs pn zstd rstd mr iterations prune renorm perfect p clip ffill).
Local Notation turned_call fuel iterations := (kalman_filter_for_SR fuel (amounts k zs) (amount k pn) (amount k zstd) (amount k rstd) (amount k mr) iterations prune renorm perfect p clip ffill).

Lemma call_parts : forall fr, call 1%nat 2%nat = Some (Ok fr) -> exists ce r,
  first_events zs p = Ok ce /\
  let s := kalman_setup_of zs ffill pn prune mr renorm perfect clip in
  run_filter s rstd zstd ce = Ok r /\ settled s r /\
  fr = Frame (level r) (rate r) (fst (ratio_and_rates s r None)) (match snd (ratio_and_rates s r None) with Some x => x | None => map (fun _ => NaN) zs end)
         (map (fun i => member i (kr_events r)) (seq 0 (List.length zs))) (days_since (List.length zs) (kr_events r)).
Proof.
  intros fr E. unfold kalman_filter_for_SR in E. destruct (first_events zs p) as [ce|e]; [|discriminate E]. exists ce. cbv zeta in E |- *.
  destruct (run_filter _ _ _ _) as [r|e] eqn:R; [|discriminate E]. exists r. split; [reflexivity|]. split; [reflexivity|].
  destruct (prune_loop _ _ _ _ _ _ _) as [[x|e]|] eqn:P; try discriminate E.
  destruct (settled_one _ _ 2 _ _ _ ltac:(lia) P) as [S ->]. split; [exact S|]. injection E as <-. reflexivity.
Qed.
Lemma call_any : forall fuel iterations ce r, (0 < iterations <= 100)%nat -> (0 < fuel)%nat ->
  first_events zs p = Ok ce -> let s := kalman_setup_of zs ffill pn prune mr renorm perfect clip in
  run_filter s rstd zstd ce = Ok r -> settled s r ->
  call fuel iterations = Some (Ok (Frame (level r) (rate r) (fst (ratio_and_rates s r None)) (match snd (ratio_and_rates s r None) with Some x => x | None => map (fun _ => NaN) zs end)
         (map (fun i => member i (kr_events r)) (seq 0 (List.length zs))) (days_since (List.length zs) (kr_events r)))).
Proof.
  intros fuel iterations ce r I F E s R S. unfold kalman_filter_for_SR. rewrite E. cbv zeta. fold s. rewrite R, (settled_any s r fuel iterations) by assumption. reflexivity.
Qed.
End Call.

Theorem call_u : forall zs pn zstd rstd mr prune renorm perfect clip ffill p fr,
  kalman_filter_for_SR 1 zs pn zstd rstd mr 2 prune renorm perfect p clip ffill = Some (Ok fr) ->
  forall fuel iterations, (0 < fuel)%nat -> (0 < iterations <= 100)%nat ->
  (perfect = true \/ renorm <> None ->
   kalman_filter_for_SR fuel (amounts k zs) (amount k pn) (amount k zstd) (amount k rstd) (amount k mr) iterations prune renorm perfect p clip ffill = Some (Ok (frame_in k fr))) /\
  (perfect = false -> renorm = None -> clip = false ->
   kalman_filter_for_SR fuel (amounts k zs) (amount k pn) (amount k zstd) (amount k rstd) (amount k mr) iterations prune renorm perfect p clip ffill = Some (Ok (plain_frame_in k fr))).
Proof.
  intros zs pn zstd rstd mr prune renorm perfect clip ffill p fr E fuel iterations F I.
  destruct (call_parts _ _ _ _ _ _ _ _ _ _ _ fr E) as [ce [r [Ev [R [S ->]]]]]. cbv zeta in R, S. cbv zeta.
  set (s := kalman_setup_of zs ffill pn prune mr renorm perfect clip) in *.
  assert (K : ks_perfect s = perfect /\ ks_renorm s = renorm /\ ks_clip s = clip).
  { unfold s, kalman_setup_of. destruct (theil_fit _ _) as [[[a b] c] d]. cbv zeta. cbn [ks_perfect ks_renorm ks_clip]. auto. }
  destruct K as [K1 [K2 K3]].
  assert (Ev' : first_events (amounts k zs) p = Ok ce) by (rewrite <- Ev; now apply first_u).
  assert (Es : kalman_setup_of (amounts k zs) ffill (amount k pn) prune (amount k mr) renorm perfect clip = setup_in k s) by now apply setup_u.
  assert (R' : run_filter (setup_in k s) (amount k rstd) (amount k zstd) ce = Ok (run_in k r)) by (rewrite run_filter_u, R by exact Hk; reflexivity).
  assert (S' : settled (setup_in k s) (run_in k r)) by (unfold settled; rewrite keep_u by exact Hk; exact S).
  pose proof (call_any (amounts k zs) (amount k pn) (amount k zstd) (amount k rstd) (amount k mr) prune renorm perfect clip ffill p fuel iterations ce (run_in k r) I F Ev') as C.
  cbv zeta in C. rewrite Es in C. specialize (C R' S'). rewrite C. clear C.
  assert (L : List.length (amounts k zs) = List.length zs) by apply map_length. rewrite L.
  rewrite (level_u k), (rate_u k). change (map (fun _ => NaN) (amounts k zs)) with (map (fun _ : fl => NaN) (map sc zs)). rewrite missing_u.
  split.
  - intros A. rewrite <- K1, <- K2 in A. pose proof (anchored_u k Hk s r None A) as Q. cbn [option_map] in Q. rewrite Q. cbn [fst snd]. unfold frame_in. cbn [k_level k_rate k_ratio k_rates k_events k_days].
    destruct (snd (ratio_and_rates s r None)); reflexivity.
  - intros A B D. rewrite <- K1 in A. rewrite <- K2 in B. rewrite <- K3 in D. pose proof (plain_u k s r None A B D) as Q. cbn [option_map] in Q. rewrite Q. cbn [fst snd]. unfold plain_frame_in. cbn [k_level k_rate k_ratio k_rates k_events k_days].
    destruct (snd (ratio_and_rates s r None)); reflexivity.
Qed.
End Whole.
