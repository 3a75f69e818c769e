(** The availability analysis in another unit of power and energy. *)

From Coq Require Import QArith Qcanon List ZArith Bool Arith Lia.
From Verif.Base Require Import QcExtra ISort Quantile Fl TimeSeries Calendar Rolling.
From Verif.Model Require Import Utilities Interpolation Energy Clipping Availability.
From Verif.Spec Require Import Energy AvailabilityUnits.
From Verif.Proofs Require Import FlP FiltersP2 UnitP AvailP11.
Import ListNotations.
Open Scope list_scope.
Open Scope Qc_scope.

Lemma zip_maps : forall A A' B B' C C' (f : A -> B -> C) (f' : A' -> B' -> C') (u : A -> A') (v : B -> B') (w : C -> C') a b,
  (forall x y, f' (u x) (v y) = w (f x y)) -> zip f' (map u a) (map v b) = map w (zip f a b).
Proof.
  intros A A' B B' C C' f f' u v w a b H. unfold zip. revert b. induction a as [|x a IH]; intros [|y b]; try reflexivity. cbn. rewrite H. f_equal. apply IH.
Qed.
Lemma zip_r : forall A B B' C C' (f : A -> B -> C) (f' : A -> B' -> C') (v : B -> B') (w : C -> C') a b,
  (forall x y, f' x (v y) = w (f x y)) -> zip f' a (map v b) = map w (zip f a b).
Proof. intros A B B' C C' f f' v w a b H. rewrite <- (map_id a) at 1. apply zip_maps. exact H. Qed.
Lemma zip_l : forall A A' B C C' (f : A -> B -> C) (f' : A' -> B -> C') (u : A -> A') (w : C -> C') a b,
  (forall x y, f' (u x) y = w (f x y)) -> zip f' (map u a) b = map w (zip f a b).
Proof. intros A A' B C C' f f' u w a b H. rewrite <- (map_id b) at 1. apply zip_maps. exact H. Qed.
Lemma combine_maps : forall A A' B B' (u : A -> A') (v : B -> B') a b, combine (map u a) (map v b) = map (fun p => (u (fst p), v (snd p))) (combine a b).
Proof. intros A A' B B' u v a. induction a as [|x a IH]; intros [|y b]; try reflexivity. cbn [map combine fst snd]. now rewrite IH. Qed.

Section Turn.
Variable k : Qc.
Hypothesis Hk : 0 < k.
Local Notation sc := (fscale k).

Lemma zero_turn : sc (fz 0) = fz 0.
Proof. unfold fz. rewrite fscale_Fin. f_equal. change (qz 0) with 0. ring. Qed.
Lemma fillna_turn : forall x, fillna (fz 0) (sc x) = sc (fillna (fz 0) x).
Proof. intros x. unfold fillna. rewrite (isnan_fscale k Hk). destruct (isnan x); [now rewrite zero_turn|reflexivity]. Qed.
Lemma lower_turn : forall x, clip_lower (fz 0) (sc x) = sc (clip_lower (fz 0) x).
Proof. intros x. unfold clip_lower. rewrite <- zero_turn at 1. rewrite (flt_fscale k Hk). destruct (flt x (fz 0)); [now rewrite zero_turn|reflexivity]. Qed.
Lemma positive_turn : forall x, fgt (sc x) (fz 0) = fgt x (fz 0).
Proof. intros x. unfold fgt. rewrite <- zero_turn at 1. apply (flt_fscale k Hk). Qed.
Lemma feq_turn : forall x, feq (sc x) (fz 0) = feq x (fz 0).
Proof.
  intros [| |q|]; rewrite ?fscale_NaN, ?(fscale_NInf k Hk), ?(fscale_PInf k Hk), ?fscale_Fin; try reflexivity. cbn. change (qz 0) with 0.
  destruct (qeq q 0) eqn:E.
  - apply qeq_spec in E. subst q. apply qeq_spec. ring.
  - apply qeq_false in E. apply qeq_false. intros C. apply Qcmult_integral in C. destruct C as [C|C]; [|contradiction]. subst k. exact (Qclt_irrefl _ Hk).
Qed.
Lemma mul_r : forall x y, fmul x (sc y) = sc (fmul x y).
Proof. intros x y. rewrite (fmul_comm x (sc y)), (fmul_comm x y). now apply fmul_fscale_l. Qed.
Lemma nan_turn : sc NaN = NaN.
Proof. reflexivity. Qed.

Lemma column_turn : forall j rows, column j (map (map sc) rows) = map sc (column j rows).
Proof. intros j rows. unfold column. rewrite !map_map. apply map_ext. intros r. apply nth_fscale. Qed.
Lemma columns_turn : forall n rows, columns n (map (map sc) rows) = map (map sc) (columns n rows).
Proof. intros n rows. unfold columns. rewrite map_map. apply map_ext. intros j. apply column_turn. Qed.
Definition given_turn (o : option (list fl)) : option (list fl) := option_map (map sc) o.
Lemma thresholds_turn : forall n given rows, thresholds n (given_turn given) (map (map sc) rows) = map sc (thresholds n given rows).
Proof.
  intros n given rows. unfold thresholds. destruct given as [l|]; [reflexivity|]. cbn [given_turn option_map]. rewrite columns_turn, !map_map. apply map_ext. intros c.
  rewrite (fquantile_fscale k Hk). now apply fdiv_any.
Qed.
Lemma online_turn : forall thr row, looks_online (map sc thr) (map sc row) = looks_online thr row.
Proof. intros thr row. unfold looks_online. rewrite (zip_maps _ _ _ _ _ _ fgt fgt sc sc (fun b => b)); [apply map_id|]. intros x y. unfold fgt. now apply flt_fscale. Qed.
Lemma reporting_turn : forall thr row, reporting (map sc thr) (map sc row) = map sc (reporting thr row).
Proof. intros thr row. unfold reporting. rewrite online_turn. apply zip_r. intros b x. destruct b; reflexivity. Qed.
Lemma sizes_turn : forall n given thr rows, sizes_of n given (map sc thr) (map (map sc) rows) = sizes_of n given thr rows.
Proof.
  intros n given thr rows. unfold sizes_of. destruct given as [l|]; [reflexivity|]. f_equal. f_equal. rewrite map_map. apply map_ext. intros row. cbv zeta.
  rewrite reporting_turn, map_map. apply map_ext. intros x. rewrite (fmean_fscale k Hk). now apply fdiv_fscale.
Qed.
Lemma row_turn : forall n thr sizes limit power row,
  row_loss n (map sc thr) sizes (option_map sc limit) (sc power) (map sc row) = sc (row_loss n thr sizes limit power row).
Proof.
  intros n thr sizes limit power row. unfold row_loss. cbv zeta. rewrite reporting_turn.
  assert (E : zip fdiv (map sc (reporting thr row)) sizes = map sc (zip fdiv (reporting thr row) sizes)) by (apply zip_l; intros x y; now apply fdiv_any).
  rewrite E, (fmean_fscale k Hk), (fmul_fscale_l k Hk), (fdiv_fscale k Hk). set (full := fmul (fmean (zip fdiv (reporting thr row) sizes)) (fz (Z.of_nat n))).
  assert (L : zip fle (map sc row) (map sc thr) = zip fle row thr) by (rewrite (zip_maps _ _ _ _ _ _ fle fle sc sc (fun b => b)); [apply map_id|intros; now apply fle_fscale]).
  rewrite L, online_turn, mul_r.
  set (down := _ && _). set (f := clip_upper (fz 1) _). clearbody down f.
  assert (LS : (if down then sc (fmul (fdiv (fsub (fz 1) f) f) power) else fz 0) = sc (if down then fmul (fdiv (fsub (fz 1) f) f) power else fz 0)) by (destruct down; [reflexivity|now rewrite zero_turn]).
  rewrite LS. set (loss := if down then _ else _). rewrite <- fillna_turn. f_equal. destruct limit as [m|]; [|reflexivity]. cbn [option_map].
  rewrite (fadd_fscale k Hk). unfold fgt. rewrite (flt_fscale k Hk). destruct (flt m (fadd loss power)); [|reflexivity]. rewrite (fsub_fscale k Hk). apply lower_turn.
Qed.
Lemma subsystem_turn : forall n low sizes limits power sub,
  calc_loss_subsystem n (given_turn low) sizes (given_turn limits) (map sc power) (map (map sc) sub) =
  (fst (calc_loss_subsystem n low sizes limits power sub), map sc (snd (calc_loss_subsystem n low sizes limits power sub))).
Proof.
  intros n low sizes limits power sub. unfold calc_loss_subsystem. cbv zeta. cbn [fst snd].
  assert (R : map (map (fillna (fz 0))) (map (map sc) sub) = map (map sc) (map (map (fillna (fz 0))) sub)).
  { rewrite !map_map. apply map_ext. intros row. rewrite !map_map. apply map_ext. intros x. apply fillna_turn. }
  assert (P : map (clip_lower (fz 0)) (map sc power) = map sc (map (clip_lower (fz 0)) power)) by (rewrite !map_map; apply map_ext; intros x; apply lower_turn).
  rewrite R, P, thresholds_turn, sizes_turn. set (rows := map (map (fillna (fz 0))) sub). set (pw := map (clip_lower (fz 0)) power). set (thr := thresholds n low rows). set (sz := sizes_of n sizes thr rows).
  f_equal.
  - rewrite map_map. apply map_ext. intros row. apply online_turn.
  - assert (L : match given_turn limits with None => map (fun _ => None) (map sc pw) | Some l => map (@Some fl) l end =
                map (option_map sc) match limits with None => map (fun _ => None) pw | Some l => map (@Some fl) l end).
    { destruct limits as [l|]; cbn [given_turn option_map]; rewrite !map_map; reflexivity. }
    rewrite L. set (lim := match limits with None => _ | Some l => _ end).
    rewrite combine_maps. apply zip_maps. intros [p l] row. cbn [fst snd]. apply row_turn.
Qed.

Lemma normal_turn : forall loss power expected, normal_rows (map sc loss) (map sc power) expected = normal_rows loss power expected.
Proof.
  intros loss power expected. unfold normal_rows.
  rewrite combine_maps, (zip_l _ _ _ _ _ (fun lp e => feq (fst lp) (fz 0) && fgt (snd lp) (fz 0) && fgt e (fz 0)) _ _ (fun b => b)); [apply map_id|].
  intros [a b] e. cbn [fst snd]. now rewrite feq_turn, positive_turn.
Qed.
Lemma pick_turn : forall b l, pick b (map sc l) = map sc (pick b l).
Proof. intros b l. unfold pick. revert l. induction b as [|x b IH]; intros [|y l]; try reflexivity. cbn [map combine filter fst]. destruct x; cbn [map snd]; rewrite IH; reflexivity. Qed.
Lemma rescale_turn : forall x E P, fdiv x (fdiv E (sc P)) = sc (fdiv x (fdiv E P)).
Proof.
  assert (NI : forall q, - (k * q) = k * - q) by (intros; ring).
  assert (SG : forall q, inf_sgn (k * q) = inf_sgn q) by (apply inf_sgn_scale; exact Hk).
  assert (DI : forall x z, fdiv x (inf_sgn z) = sc (fdiv x (inf_sgn z))).
  { intros x z. unfold inf_sgn. destruct (qlt 0 z); [|destruct (qlt z 0)]; destruct x; cbn [fdiv]; rewrite ?fscale_Fin, ?Qcmult_0_r; reflexivity. }
  assert (KN : k <> 0) by (intros ->; exact (Qclt_irrefl _ Hk)).
  assert (KZ : forall q, qeq (k * q) 0 = qeq q 0).
  { intros q. destruct (qeq q 0) eqn:E; [apply qeq_spec in E; subst; apply qeq_spec; ring|]. apply qeq_false in E. apply qeq_false. intros C. apply Qcmult_integral in C. tauto. }
  assert (D0 : forall x, fdiv x (Fin 0) = sc (fdiv x (Fin 0))).
  { intros x. destruct x; cbn [fdiv]; change (qeq 0 0) with true; cbn match; rewrite ?(fscale_NInf k Hk), ?(fscale_PInf k Hk), ?(fscale_inf_sgn k Hk); reflexivity. }
  assert (DP : forall x, fdiv x PInf = sc (fdiv x PInf)) by (intros x; destruct x; cbn [fdiv]; rewrite ?fscale_Fin, ?Qcmult_0_r; reflexivity).
  assert (DN : forall x, fdiv x NInf = sc (fdiv x NInf)) by (intros x; destruct x; cbn [fdiv]; rewrite ?fscale_Fin, ?Qcmult_0_r; reflexivity).
  assert (DNa : forall x, fdiv x NaN = sc (fdiv x NaN)) by (intros x; destruct x; reflexivity).
  intros x E P. destruct P as [| |p|]; rewrite ?fscale_NaN, ?(fscale_NInf k Hk), ?(fscale_PInf k Hk), ?fscale_Fin.
  - destruct E; cbn [fdiv]; apply DNa.
  - destruct E; cbn [fdiv]; try apply DNa. apply D0.
  - destruct E as [| |e|]; cbn [fdiv]; rewrite ?KZ, ?NI, ?SG.
    + apply DNa.
    + destruct (qeq p 0); [apply DN|apply DI].
    + destruct (qeq p 0) eqn:EP; [apply DI|]. apply qeq_false in EP.
      destruct (qeq e 0) eqn:EE.
      * apply qeq_spec in EE. subst e. replace (0 / (k * p)) with 0 by (field; auto). replace (0 / p) with 0 by (field; auto). apply D0.
      * apply qeq_false in EE. replace (e / (k * p)) with (1 / k * (e / p)) by (field; auto).
        assert (IK : 0 < 1 / k) by (apply Qc_lt_div; [exact Hk|rewrite Qcmult_0_l; reflexivity]).
        assert (NE : e / p <> 0) by (intros C; apply EE; replace e with (e / p * p) by (field; exact EP); rewrite C; ring).
        assert (QZ : qeq (e / p) 0 = false) by now apply qeq_false.
        assert (QZ' : qeq (1 / k * (e / p)) 0 = false) by (apply qeq_false; apply Qc_mul_neq0; [intros C; rewrite C in IK; exact (Qclt_irrefl _ IK)|exact NE]).
        destruct x as [| |a|]; cbn [fdiv]; rewrite ?QZ, ?QZ'.
        -- reflexivity.
        -- replace (- (1 / k * (e / p))) with (1 / k * - (e / p)) by ring. rewrite (fscale_inf_sgn k Hk). apply inf_sgn_scale. exact IK.
        -- rewrite fscale_Fin. f_equal. field. auto.
        -- rewrite (fscale_inf_sgn k Hk). apply inf_sgn_scale. exact IK.
    + destruct (qeq p 0); [apply DP|apply DI].
  - destruct E; cbn [fdiv]; try apply DNa. apply D0.
Qed.
Lemma rescaled_turn : forall normal power expected, rescaled normal (map sc power) expected = map sc (rescaled normal power expected).
Proof. intros normal power expected. unfold rescaled. rewrite map_map, pick_turn, (fsum_fscale k Hk). apply map_ext. intros x. apply rescale_turn. Qed.

Lemma combine_turn : forall (index : list Z) l, combine index (map sc l) = on_values sc (combine index l).
Proof. unfold on_values. induction index as [|t index IH]; intros [|x l]; try reflexivity. cbn. f_equal. apply IH. Qed.
Lemma values_turn : forall index s, values_on index (on_values sc s) = map sc (values_on index s).
Proof. intros index s. unfold values_on. rewrite map_map. apply map_ext. intros t. now apply lookup_u. Qed.
Lemma noninf_turn : forall l, map noninf (map sc l) = map sc (map noninf l).
Proof. intros l. rewrite !map_map. apply map_ext. intros [| |q|]; rewrite ?fscale_NaN, ?(fscale_NInf k Hk), ?(fscale_PInf k Hk), ?fscale_Fin; cbn [noninf]; rewrite ?fscale_Fin; reflexivity. Qed.
Lemma window_turn : forall n l, window_sum n (map sc l) = sc (window_sum n l).
Proof.
  intros n l. unfold window_sum. cbv zeta. rewrite firstn_map, noninf_turn, map_length.
  assert (F : forallb notnan (map sc (map noninf (firstn n l))) = forallb notnan (map noninf (firstn n l))).
  { induction (map noninf (firstn n l)) as [|x w IH]; [reflexivity|]. cbn [map forallb]. rewrite IH. unfold notnan. now rewrite (isnan_fscale k Hk). }
  rewrite F. destruct (_ && _); [now apply fsum_fscale|reflexivity].
Qed.
Lemma tails_turn : forall l : list fl, tails (map sc l) = map (map sc) (tails l).
Proof. induction l as [|x l IH]; [reflexivity|]. cbn. f_equal. exact IH. Qed.
Lemma errors_turn : forall n a e, window_errors n (map sc a) (map sc e) = window_errors n a e.
Proof.
  intros n a e. unfold window_errors. rewrite !tails_turn.
  rewrite (zip_maps _ _ _ _ _ _ (fun a e => fsub (fdiv (window_sum n a) (window_sum n e)) (fz 1)) _ (map sc) (map sc) (fun x => x)); [apply map_id|].
  intros x y. rewrite !window_turn, (fdiv_fscale k Hk). reflexivity.
Qed.
Lemma has_turn : forall n a e, has_window n (map sc a) (map sc e) = has_window n a e.
Proof.
  intros n a e. unfold has_window. rewrite !tails_turn, <- map_app. induction (tails a ++ tails e) as [|l ls IH]; [reflexivity|]. cbn [map existsb]. rewrite IH, window_turn. unfold notnan. now rewrite (isnan_fscale k Hk).
Qed.
Lemma bound_turn : forall q a e, error_bound q (map sc a) (map sc e) = error_bound q a e.
Proof.
  intros q a e. unfold error_bound. rewrite map_length. erewrite filter_ext; [|intros n; apply has_turn]. apply map_ext. intros n. now rewrite errors_turn.
Qed.
Lemma distributions_turn : forall freq index loss power expected quantiles,
  calc_error_distributions freq index (map sc loss) (map sc power) expected quantiles =
  rmap (turn_expectation k) (calc_error_distributions freq index loss power expected quantiles).
Proof.
  intros freq index loss power expected quantiles. unfold calc_error_distributions. cbv zeta. rewrite normal_turn, rescaled_turn, !combine_turn, !(energy_u k Hk).
  set (normal := normal_rows loss power expected). set (scaled := rescaled normal power expected).
  destruct (energy_from_power freq (combine index scaled) None None RightLabeled) as [ee|]; [|reflexivity]. cbn [rmap bind].
  destruct (energy_from_power freq (combine index power) None None RightLabeled) as [me|]; [|reflexivity]. cbn [rmap bind].
  rewrite !values_turn, !pick_turn. set (actual := pick normal (values_on index me)). rewrite map_length.
  destruct actual as [|x l] eqn:EA; [reflexivity|]. rewrite <- EA. change (map sc actual) with (map sc actual). 
  assert (NE : match map sc actual with [] => @Raise expectation OverflowError | _ :: _ =>
      match window_lengths (length actual) with [] => Raise ValueError
      | _ :: _ => Ok (Expectation (map sc scaled) (map sc (values_on index ee)) (error_bound (fst quantiles) (map sc actual) (map sc (pick normal (values_on index ee))))
                                  (error_bound (snd quantiles) (map sc actual) (map sc (pick normal (values_on index ee))))) end end =
      match window_lengths (length actual) with [] => Raise ValueError
      | _ :: _ => Ok (Expectation (map sc scaled) (map sc (values_on index ee)) (error_bound (fst quantiles) (map sc actual) (map sc (pick normal (values_on index ee))))
                                  (error_bound (snd quantiles) (map sc actual) (map sc (pick normal (values_on index ee))))) end) by (rewrite EA; reflexivity).
  rewrite NE, !bound_turn. rewrite EA. destruct (window_lengths (length (x :: l))); reflexivity.
Qed.

Lemma slice_turn : forall a b l, slice a b (map sc l) = map sc (slice a b l).
Proof. intros a b l. unfold slice. now rewrite skipn_map, firstn_map. Qed.
Lemma info_turn : forall e cum run, outage_info (turn_expectation k e) (map sc cum) run = turn_outage k (outage_info e cum run).
Proof.
  intros e cum [a b]. unfold outage_info. cbn [turn_expectation e_power e_energy e_lower e_upper]. cbv zeta. unfold turn_list, turned. change (fmul (Fin k)) with sc.
  rewrite !slice_turn, map_length, !nth_fscale, (fsub_fscale k Hk), (fsum_fscale k Hk), !mul_r, (flt_fscale k Hk).
  assert (D : filter (fun x => fgt x (fz 0)) (map sc (slice a b (e_power e))) = map sc (filter (fun x => fgt x (fz 0)) (slice a b (e_power e)))).
  { rewrite filter_map_comm. f_equal. apply filter_ext. apply positive_turn. }
  rewrite D, map_length. set (day := Z.of_nat _). set (ex := fsum _). set (st := nth (match a with O => _ | S _ => _ end) cum NaN). set (sp := nth b cum NaN).
  assert (A : (if flt (fsub sp st) (fmul (ff (-5) 100) ex) then NaN else sc (fsub sp st)) = sc (if flt (fsub sp st) (fmul (ff (-5) 100) ex) then NaN else fsub sp st)) by (destruct (flt (fsub sp st) _); reflexivity).
  rewrite A. set (ac := if flt (fsub sp st) _ then NaN else _). rewrite (isnan_fscale k Hk), (flt_fscale k Hk), (fsub_fscale k Hk).
  unfold turn_outage. cbn [o_start o_end o_daylight o_expected o_energy_start o_energy_end o_actual o_ci_lower o_ci_upper o_type o_loss]. unfold turned. change (fmul (Fin k)) with sc. f_equal.
  destruct (isnan ac); [reflexivity|]. destruct (flt ac _); [reflexivity|]. symmetry. apply zero_turn.
Qed.
Lemma put_turn : forall a seg l, put a (map sc seg) (map sc l) = map sc (put a seg l).
Proof. intros a seg l. unfold put. now rewrite !map_app, firstn_map, skipn_map, map_length. Qed.
Lemma fill_turn : forall freq index expected o lost corrected,
  fill_outage freq index expected (turn_outage k o) (map sc lost, map sc corrected) =
  rmap (fun st => (map sc (fst st), map sc (snd st))) (fill_outage freq index expected o (lost, corrected)).
Proof.
  intros freq index expected o lost corrected. unfold fill_outage. cbn [turn_outage o_start o_end o_energy_start o_actual o_loss]. cbv zeta. unfold turned. change (fmul (Fin k)) with sc.
  set (subset := slice (o_start o) (o_end o) (combine index expected)). destruct (energy_from_power freq subset None None RightLabeled) as [en|]; [|reflexivity]. cbn [bind rmap fst snd].
  f_equal. f_equal.
  - rewrite slice_turn, <- put_turn. f_equal. symmetry. assert (E : map (fun x => fdiv (fmul x (sc (o_loss o))) (fsum (vals en))) (vals subset) = map sc (map (fun x => fdiv (fmul x (o_loss o)) (fsum (vals en))) (vals subset))).
    { rewrite map_map. apply map_ext. intros x. rewrite mul_r. now apply fdiv_any. }
    rewrite E. symmetry. apply zip_maps. intros. now apply fadd_fscale.
  - rewrite <- put_turn. f_equal. rewrite <- values_turn, <- combine_turn. f_equal. f_equal. rewrite map_map. apply map_ext. intros x. rewrite (fdiv_any k Hk), mul_r. now apply fadd_fscale.
Qed.
Lemma fills_turn : forall freq index expected os lost corrected,
  fill_outages freq index expected (map (turn_outage k) os) (map sc lost, map sc corrected) =
  rmap (fun st => (map sc (fst st), map sc (snd st))) (fill_outages freq index expected os (lost, corrected)).
Proof.
  intros freq index expected os. induction os as [|o os IH]; intros lost corrected; [reflexivity|]. cbn [map fill_outages]. rewrite fill_turn.
  destruct (fill_outage freq index expected o (lost, corrected)) as [[l c]|]; [|reflexivity]. cbn [rmap bind fst snd]. apply IH.
Qed.
Lemma system_turn : forall freq index masks e expected cum,
  calc_loss_system freq index masks (turn_expectation k e) expected (map sc cum) =
  rmap (fun r => (map (turn_outage k) (fst r), (map sc (fst (snd r)), map sc (snd (snd r))))) (calc_loss_system freq index masks e expected cum).
Proof.
  intros freq index masks e expected cum. unfold calc_loss_system. cbv zeta. change (e_lower (turn_expectation k e)) with (e_lower e).
  set (runs := outage_runs _). destruct (match runs, e_lower e with _ :: _, [] => true | _, _ => false end); [reflexivity|].
  assert (O : map (outage_info (turn_expectation k e) (map sc cum)) runs = map (turn_outage k) (map (outage_info e cum) runs)) by (rewrite map_map; apply map_ext; intros r; apply info_turn).
  assert (Z0 : map (fun _ : Z => fz 0) index = map sc (map (fun _ : Z => fz 0) index)) by (rewrite map_map; apply map_ext; intros _; symmetry; apply zero_turn).
  rewrite O. rewrite Z0 at 1. rewrite fills_turn. destruct (fill_outages freq index expected (map (outage_info e cum) runs) (map (fun _ : Z => fz 0) index, cum)) as [[l c]|]; reflexivity.
Qed.

Lemma in_period_turn : forall period p s, in_period period p (on_values sc s) = map sc (in_period period p s).
Proof. intros period p s. unfold in_period. rewrite (filter_u k (fun t => (period t =? p)%Z) s). apply (vals_u k). Qed.
Lemma rollup_turn : forall period f s, (forall l, f (map sc l) = sc (f l)) -> rollup period f (on_values sc s) = on_values sc (rollup period f s).
Proof.
  intros period f s H. unfold rollup. rewrite (times_u k). unfold on_values at 2. rewrite map_map. apply map_ext. intros p. cbn [fst snd]. now rewrite in_period_turn, H.
Qed.
Lemma ffirst_turn : forall l, ffirst (map sc l) = sc (ffirst l).
Proof. intros l. unfold ffirst. rewrite (dropna_fscale k Hk). destruct (dropna l); reflexivity. Qed.
Lemma flast_turn : forall l, flast (map sc l) = sc (flast l).
Proof. intros l. unfold flast. rewrite <- map_rev. apply ffirst_turn. Qed.
Lemma combine_losses_turn : forall freq period index sys sub corrected,
  combine_losses freq period index (map sc sys) (map sc sub) (map sc corrected) = rmap (map (turn_row k)) (combine_losses freq period index sys sub corrected).
Proof.
  intros freq period index sys sub corrected. unfold combine_losses. cbv zeta.
  assert (T : zip fadd (map sc sys) (map sc sub) = map sc (zip fadd sys sub)) by (apply zip_maps; intros; now apply fadd_fscale).
  rewrite T, !combine_turn, (energy_u k Hk). destruct (energy_from_power freq (combine index (zip fadd sys sub)) None None RightLabeled) as [en|]; [|reflexivity]. cbn [rmap bind].
  rewrite (rollup_turn period fsum en) by (intros; now apply fsum_fscale).
  rewrite (rollup_turn period (fun l => fsub (flast l) (ffirst l)) (combine index corrected)) by (intros l; rewrite flast_turn, ffirst_turn; now apply fsub_fscale).
  set (lost := rollup period fsum en). set (act := rollup period _ (combine index corrected)).
  change (map fst (on_values sc lost)) with (times (on_values sc lost)). change (map fst (on_values sc act)) with (times (on_values sc act)). rewrite !(times_u k).
  f_equal. rewrite map_map. apply map_ext. intros p. rewrite !(lookup_u k). cbn [turn_row]. unfold turned. change (fmul (Fin k)) with sc. f_equal. f_equal.
  unfold availability_of. now rewrite (fadd_fscale k Hk), (fdiv_fscale k Hk).
Qed.

Lemma run_turn : forall freq index n power sub cum expected low sizes limits quantiles period,
  run freq index n (turn_list k power) (map (turn_list k) sub) (turn_list k cum) expected (option_map (turn_list k) low) sizes (option_map (turn_list k) limits) quantiles period =
  rmap (turn_result k) (run freq index n power sub cum expected low sizes limits quantiles period).
Proof.
  intros freq index n power sub cum expected low sizes limits quantiles period. unfold run.
  change (turn_list k power) with (map sc power). change (map (turn_list k) sub) with (map (map sc) sub). change (turn_list k cum) with (map sc cum).
  change (option_map (turn_list k) low) with (given_turn low). change (option_map (turn_list k) limits) with (given_turn limits).
  rewrite subsystem_turn. destruct (calc_loss_subsystem n low sizes limits power sub) as [masks loss]. cbn [fst snd]. rewrite distributions_turn.
  destruct (calc_error_distributions freq index loss power expected quantiles) as [e|]; [|reflexivity]. cbn [rmap bind]. rewrite system_turn.
  destruct (calc_loss_system freq index masks e expected cum) as [[os [ls c]]|]; [|reflexivity]. cbn [rmap bind fst snd]. rewrite combine_losses_turn.
  destruct (combine_losses freq period index ls loss c) as [res|]; reflexivity.
Qed.

(** ** The expected power, for all values *)
Lemma expected_fill : forall freq index expected o st, fill_outage freq index (map (AvailP11.sc k) expected) o st = fill_outage freq index expected o st.
Proof.
  intros freq index expected o [lost corrected]. unfold fill_outage.
  assert (SC : forall l, map (AvailP11.sc k) l = map sc l) by (intros l; apply map_ext; intros x; symmetry; apply (AvailP11.sc_mul k Hk)).
  rewrite SC, combine_turn.
  assert (SL : forall a b s, slice a b (on_values sc s) = on_values sc (slice a b s)) by (intros; unfold slice, on_values; now rewrite skipn_map, firstn_map).
  rewrite SL, (energy_u k Hk). destruct (energy_from_power freq (slice (o_start o) (o_end o) (combine index expected)) None None RightLabeled) as [en|]; [|reflexivity]. cbn [rmap bind].
  rewrite !(vals_u k), !(times_u k), (fsum_fscale k Hk), !map_map. f_equal. f_equal.
  - f_equal. f_equal. apply map_ext. intros x. rewrite (fmul_fscale_l k Hk). now apply fdiv_fscale.
  - f_equal. f_equal. f_equal. unfold fcumsum. rewrite <- zero_turn at 1. rewrite <- !SC. rewrite <- (AvailP11.sc_mul k Hk (fz 0) : sc (fz 0) = AvailP11.sc k (fz 0)) || idtac.
    assert (E : sc (fz 0) = AvailP11.sc k (fz 0)) by apply (AvailP11.sc_mul k Hk). rewrite E. rewrite (AvailP11.sc_cumsum k), map_map.
    assert (E2 : sc (fsum (vals en)) = AvailP11.sc k (fsum (vals en))) by apply (AvailP11.sc_mul k Hk). rewrite E2.
    apply map_ext. intros x. rewrite (AvailP11.sc_produced k Hk). reflexivity.
Qed.
Lemma expected_turn : forall freq index n power sub cum expected low sizes limits quantiles period,
  run freq index n power sub cum (turn_list k expected) low sizes limits quantiles period = run freq index n power sub cum expected low sizes limits quantiles period.
Proof.
  intros freq index n ps sub cum expected low sizes limits quantiles period. change (turn_list k expected) with (map (fmul (Fin k)) expected). rewrite (map_ext _ (AvailP11.sc k) (AvailP11.sc_mul k Hk)). unfold run.
  destruct (calc_loss_subsystem n low sizes limits ps sub) as [masks loss]. rewrite (AvailP11.sc_errors k Hk).
  destruct (calc_error_distributions freq index loss ps expected quantiles) as [e |]; [| reflexivity]. cbn [bind].
  assert (calc_loss_system freq index masks e (map (AvailP11.sc k) expected) cum = calc_loss_system freq index masks e expected cum) as ->; [| reflexivity].
  unfold calc_loss_system. rewrite (AvailP11.sc_daylight k Hk). cbv zeta.
  assert (F : forall os st, fill_outages freq index (map (AvailP11.sc k) expected) os st = fill_outages freq index expected os st).
  { induction os as [|o os IH]; intros st; [reflexivity|]. cbn [fill_outages]. rewrite expected_fill. destruct (fill_outage freq index expected o st); [apply IH|reflexivity]. }
  now rewrite F.
Qed.
End Turn.

Lemma run_units : forall k ke, 0 < k -> 0 < ke -> forall freq index n power sub cum expected low sizes limits quantiles period,
  run freq index n (turn_list k power) (map (turn_list k) sub) (turn_list k cum) (turn_list ke expected) (option_map (turn_list k) low) sizes (option_map (turn_list k) limits) quantiles period =
  rmap (turn_result k) (run freq index n power sub cum expected low sizes limits quantiles period).
Proof. intros k ke Hk He freq index n power sub cum expected low sizes limits quantiles period. rewrite (expected_turn ke He). now apply run_turn. Qed.
