(** The figures of a soiling analysis. *)

From Coq Require Import QArith Qcanon List ZArith Bool Lia String.
From Verif.Base Require Import QcExtra Fl TimeSeries Calendar Rolling.
From Verif.Spec Require Import Stats Plots SoilingTable SoilingPlots.
From Verif.Model Require Import Utilities Clipping  Soiling Plots.
From Verif.Proofs Require Import FlP PlotsP SoilP4 SoilP SoilP3 SoilP9 SoilP10.
Import ListNotations.
Open Scope list_scope.
Open Scope Qc_scope.

Lemma points_spec : forall factor y, in_multiples factor y (renormalized y factor).
Proof. intros factor y. unfold in_multiples, renormalized, on_values. induction y as [| r y IH]; cbn [map]; constructor; [split; reflexivity | exact IH]. Qed.

Lemma take_first_spec : forall {A} n (l : list A), first_ones n l (take_first n l).
Proof.
  intros A n l. unfold take_first. destruct (Z.ltb_spec n 0) as [L | L].
  - exists (skipn (List.length l - Z.to_nat (- n)) l). split; [symmetry; apply firstn_skipn |]. split; [lia |]. intros _. rewrite skipn_length. lia.
  - exists (skipn (Z.to_nat n) l). split; [symmetry; apply firstn_skipn |]. split; [| lia]. intros _. rewrite firstn_length. lia.
Qed.

Lemma monte_carlo_spec : forall {A} factor (all : list A) y profiles,
  in_multiples factor y (fst (soiling_monte_carlo_plot factor all y profiles)) /\
  (profiles = None -> snd (soiling_monte_carlo_plot factor all y profiles) = all) /\
  (forall n, profiles = Some n -> first_ones n all (snd (soiling_monte_carlo_plot factor all y profiles))).
Proof.
  intros A factor all y profiles. split; [apply points_spec |]. split; [intros ->; reflexivity |]. intros n ->. apply take_first_spec.
Qed.
Lemma interval_plot_spec : forall factor perfect y, in_multiples factor y (fst (soiling_interval_plot factor perfect y)) /\ snd (soiling_interval_plot factor perfect y) = perfect.
Proof. intros. split; [apply points_spec | reflexivity]. Qed.

Definition percentages (l : list interval) : list fl := map (fun i => fmul (fz 100) (i_slope i)) (filter i_valid l).
Lemma percentages_spec : forall l r, valid_rates l r <-> percentages l = r.
Proof.
  assert (forall v, (forall q, v <> Fin q) -> fmul (fz 100) v = v) as K by (intros [| | q |] H; try reflexivity; exfalso; exact (H q eq_refl)).
  unfold percentages. intros l r. set (f := fun i => fmul (fz 100) (i_slope i)). split.
  - induction 1 as [| i q l r V S H IH | i l r V S H IH | i l r V H IH]; cbn [filter]; rewrite ?V; cbn [map]; [reflexivity | | | exact IH].
    + unfold f at 1. rewrite S, IH. reflexivity.
    + unfold f at 1. rewrite IH, (K _ S). reflexivity.
  - intros <-. induction l as [| i l IH]; [constructor |]. cbn [filter]. destruct (i_valid i) eqn:V; [| apply rates_invalid; assumption]. cbn [map].
    assert (f i = fmul (fz 100) (i_slope i)) as -> by reflexivity. destruct (i_slope i) as [| | q |] eqn:S.
    3: { apply rates_number; assumption. }
    all: match goal with |- context [fmul (fz 100) ?v] => rewrite (K v ltac:(discriminate)) end; rewrite <- S; apply rates_other; [exact V | intros q; rewrite S; discriminate | exact IH].
Qed.
Lemma rates_exist : forall l, exists r, valid_rates l r.
Proof. intros l. exists (percentages l). apply percentages_spec. reflexivity. Qed.

Lemma rate_histogram_spec : forall summary bins r, valid_rates summary r ->
  (forall bars, soiling_rate_histogram summary bins = Ok bars -> histogram_shows r (bars_asked bins) bars /\ exists qs, numbers r qs /\ total bars = List.length qs) /\
  ((exists bars, soiling_rate_histogram summary bins = Ok bars) <-> (1 <= bars_asked bins)%Z /\ (r = [] \/ exists q qs, numbers r (q :: qs))) /\
  (forall e, soiling_rate_histogram summary bins = Raise e -> e = ValueError).
Proof.
  intros summary bins r H. apply percentages_spec in H. subst r. change (soiling_rate_histogram summary bins) with (hist (bars_asked bins) (percentages summary)).
  split; [| split; [apply hist_drawn | intros e; apply hist_error]]. intros bars E. split; [apply hist_shows, E | apply (hist_total _ _ _ E)].
Qed.

(** ** After an analysis *)
Lemma valid_slope : forall limit step fits i, In i (map (flatten (rejected limit step)) fits) -> fgt (i_slope i) (fz 0) = false.
Proof.
  intros limit step fits i H. apply in_map_iff in H. destruct H as (j & <- & _). unfold flatten. destruct (rejected limit step j) eqn:R; [reflexivity |].
  unfold rejected in R. cbv zeta in R. apply orb_false_iff in R. destruct R as [R _]. apply orb_false_iff in R. apply R.
Qed.
Lemma map_fst_combine2 : forall {A B} (a : list A) (b : list B), List.length b = List.length a -> map fst (combine a b) = a.
Proof. intros A B. induction a as [| x a IH]; intros [| y b] H; try discriminate; [reflexivity | cbn; f_equal; apply IH; cbn in H; lia]. Qed.
Lemma recoveries_len : forall t, List.length (recoveries t) = List.length t.
Proof. induction t as [| i t IH]; [reflexivity | cbn; f_equal; exact IH]. Qed.

Lemma result_table : forall fit rows trim limit step minimum out, calc_result_df fit rows trim limit step minimum = Ok out ->
  exists table, map fst (s_table out) = table /\ filter i_valid table <> [] /\ s_daily out = flat_map (analyze_row table) rows /\ forall i, In i table -> fgt (i_slope i) (fz 0) = false.
Proof.
  intros fit rows trim limit step minimum out H. unfold calc_result_df in H. destruct (map_result _ _) as [fits |]; [| discriminate]. cbn [bind] in H. destruct fits as [| f0 fits]; [discriminate |].
  set (table := map (flatten (rejected limit step)) (f0 :: fits)) in *. exists table. cbv zeta in H. destruct (filter i_valid table) as [| v0 vs] eqn:V; [discriminate |].
  assert (out = SrrIntervals (combine table (recoveries table)) (flat_map (analyze_row table) rows)) as -> by congruence. cbn [s_table s_daily].
  split; [apply map_fst_combine2, recoveries_len |]. split; [discriminate |]. split; [reflexivity |]. intros i Hi. apply (valid_slope limit step (f0 :: fits)), Hi.
Qed.

Lemma not_above : forall v, fgt v (fz 0) = false -> forall q, v = Fin q -> q <= 0.
Proof. intros v H q ->. cbn in H. apply Qcnot_lt_le. intros L. apply (proj2 (qlt_spec 0 q)) in L. unfold fz in H. cbn in H. change (qz 0) with 0 in H. congruence. Qed.

(** The rates in the figure of an analysis. *)
Lemma run_rates : forall fit rows trim limit step minimum out r, calc_result_df fit rows trim limit step minimum = Ok out -> valid_rates (map fst (s_table out)) r ->
  r <> [] /\ (forall q, In (Fin q) r -> q <= 0) /\ ~ In PInf r /\
  forall bins, (exists bars, soiling_rate_histogram (map fst (s_table out)) bins = Ok bars) <-> (1 <= bars_asked bins)%Z /\ ~ In NInf r /\ exists q, In (Fin q) r.
Proof.
  intros fit rows trim limit step minimum out r H HR. destruct (result_table _ _ _ _ _ _ _ H) as (table & ET & NE & _ & NP). rewrite ET in HR |- *. pose proof HR as HP. apply percentages_spec in HP.
  assert (forall v, In v r -> exists i, In i table /\ v = fmul (fz 100) (i_slope i)) as FROM.
  { intros v Hv. rewrite <- HP in Hv. unfold percentages in Hv. apply in_map_iff in Hv. destruct Hv as (i & <- & Hi). apply filter_In in Hi. exists i. split; [apply Hi | reflexivity]. }
  assert (r <> []) as RN by (rewrite <- HP; unfold percentages; destruct (filter i_valid table); [congruence | discriminate]).
  assert (~ In PInf r) as NI. { intros C. destruct (FROM _ C) as (i & Hi & E). specialize (NP i Hi). destruct (i_slope i) as [| | q |]; try discriminate E. discriminate NP. }
  split; [exact RN |]. split.
  { intros q Hq. destruct (FROM _ Hq) as (i & Hi & E). specialize (NP i Hi). destruct (i_slope i) as [| | q' |] eqn:S; try discriminate E. cbn in E. injection E as ->. pose proof (not_above _ NP q' eq_refl).
    assert (0 < qz 100) by reflexivity. rewrite <- (Qcmult_0_r (qz 100)), (Qcmult_comm (qz 100) q'), (Qcmult_comm (qz 100) 0). apply Qcmult_le_compat_r; [assumption | apply Qclt_le_weak; assumption]. }
  split; [exact NI |]. intros bins. destruct (rate_histogram_spec table bins r HR) as (_ & -> & _). split.
  - intros [B [-> | (q & qs & N)]]; [congruence |]. split; [exact B |]. pose proof (numbers_noinf _ _ N) as [NN F]. split; [intros C; apply NN in C; destruct C; congruence |].
    exists q. clear - N. remember (q :: qs) as l eqn:E. revert q qs E. induction N as [| l ms N IH | q' l ms N IH]; intros q qs E; [discriminate | right; apply (IH q qs E) | injection E as -> ->; left; reflexivity].
  - intros (B & N & q & Hq). split; [exact B |]. right. assert (noinf r) as NN by (intros x Hx; split; intros ->; contradiction).
    pose proof (noinf_numbers _ NN) as K. destruct (finvals r) as [| x xs] eqn:F; [exfalso | exists x, xs; exact K].
    clear - Hq F. induction r as [| v r IH]; [exact Hq |]. destruct Hq as [-> | Hq]; [cbn in F; discriminate |]. apply IH; [exact Hq |]. destruct v; cbn in F; try discriminate; exact F.
Qed.

(** The ratio in the figure of the intervals is at most 1. *)
Lemma run_ratio : forall pm insolation precip day_scale thr recenter c pthr factor r rows fit trim limit step minimum out, sorted_index pm ->
  calc_daily_df pm insolation precip day_scale thr recenter c pthr factor = Ok (r, rows) -> calc_result_df fit rows trim limit step minimum = Ok out ->
  forall a, In a (s_daily out) -> a_loss_perfect a = NInf \/ exists q, a_loss_perfect a = Fin q /\ q <= 1.
Proof.
  intros pm insolation precip day_scale thr recenter c pthr factor r rows fit trim limit step minimum out SI H HO a Ha.
  destruct (result_formed _ _ _ _ _ _ _ _ _ _ _ _ _ _ _ _ _ SI H HO) as (WF & _ & _). destruct (result_table _ _ _ _ _ _ _ HO) as (table & ET & _ & ED & NP).
  destruct (wf_daily _ WF a Ha) as (x & Hx & Rx & Sx & _). pose proof (wf_runs _ WF) as ND. rewrite <- (map_map fst i_run), ET in ND.
  assert (In (fst x) table) as Hxt by (rewrite <- ET; apply in_map, Hx). rewrite ED in Ha. apply in_flat_map in Ha. destruct Ha as (d & _ & Ha). unfold analyze_row in Ha.
  destruct (filter (fun i => (i_run i =? d_run d)%Z) table) as [| i l] eqn:F; [destruct Ha |]. destruct Ha as [<- | []]. cbn [a_loss_perfect a_run a_date] in *.
  assert (In i (filter (fun i => (i_run i =? d_run d)%Z) table)) as Hi by (rewrite F; left; reflexivity). apply filter_In in Hi. destruct Hi as [Hi Ei]. apply Z.eqb_eq in Ei.
  assert (fst x = i) as Exi. { clear - ND Hi Hxt Rx Ei. revert ND Hi Hxt. generalize (fst x) Rx. intros y Ry. induction table as [| z t IH]; intros ND Hi Hy; [destruct Hi |]. cbn in ND. inversion ND as [| ? ? N1 N2]; subst.
    destruct Hi as [-> | Hi], Hy as [-> | Hy]; [reflexivity | | | apply IH; assumption]; exfalso; apply N1; apply in_map_iff; [exists y | exists i]; (split; [congruence | assumption]). }
  rewrite Exi in Sx. assert (0 <= (d_date d - i_start i) / ns_day)%Z as Hd by (apply Z.div_pos; [lia | reflexivity]). set (days := ((d_date d - i_start i) / ns_day)%Z) in *.
  specialize (NP i Hi). pose proof (not_above _ NP) as NA. destruct (i_slope i) as [| | q |]; [right | | right | discriminate NP].
  - exists 1. split; [reflexivity | apply Qcle_refl].
  - destruct (Z.eq_dec days 0) as [-> | D]; [right; exists 1; split; [reflexivity | apply Qcle_refl] |]. left. cbn. unfold fz. assert (0 < qz days) as P by (apply qz_pos; lia).
    replace (inf_sgn (- qz days)) with NInf; [reflexivity |]. unfold inf_sgn. destruct (qlt (- qz days) 0) eqn:L1.
    { destruct (qlt 0 (- qz days)) eqn:L2; [exfalso | reflexivity]. qb. qlra. }
    exfalso. qb. qlra.
  - specialize (NA q eq_refl). cbn. eexists. split; [reflexivity |]. change (qz 1) with 1.
    assert (0 <= qz days) as P by (apply qz_nonneg; exact Hd). assert (qz days * q <= 0) as M.
    { replace (qz days * q) with (- (qz days * (- q))) by ring. assert (0 <= qz days * - q) by (apply Qc_mul_nonneg; [exact P | qlra]). qlra. }
    qlra.
Qed.

Lemma run_figures : forall fit visit pm insolation precip ds day_scale thr trim method c pthr minimum exc conf recenter limit step factor res,
  sorted_index pm -> srr_run fit visit pm insolation precip ds day_scale thr trim method c pthr minimum exc conf recenter limit step factor = Ok res ->
  (forall t v, In (t, v) (sr_perfect res) -> v = NInf \/ exists q, v = Fin q /\ q <= 1) /\
  forall r, valid_rates (sr_intervals res) r -> r <> [] /\ (forall q, In (Fin q) r -> q <= 0) /\
    forall bins, (exists bars, soiling_rate_histogram (sr_intervals res) bins = Ok bars) <-> (1 <= bars_asked bins)%Z /\ ~ In NInf r /\ exists q, In (Fin q) r.
Proof.
  intros fit visit pm insolation precip ds day_scale thr trim method c pthr minimum exc conf recenter limit step factor res SI H. unfold srr_run in H.
  destruct (calc_daily_df pm insolation precip day_scale thr recenter c pthr factor) as [[r0 rows] |] eqn:E1; [| discriminate]. cbn [bind fst snd] in H.
  destruct (calc_result_df fit rows trim limit step minimum) as [out |] eqn:E2; [| discriminate]. cbn [bind] in H.
  destruct (calc_monte method visit out ds) as [runs |]; [| discriminate]. cbn [bind] in H. destruct (srr_percentiles _ conf exc) as [[[[m lo] hi] x] |]; [| discriminate]. cbn [bind] in H.
  assert (sr_perfect res = map (fun a => (a_date a, a_loss_perfect a)) (filter a_valid (s_daily out)) /\ sr_intervals res = map fst (s_table out)) as [-> ->]
    by (match type of H with Ok ?y = Ok ?z => assert (z = y) as -> by congruence end; split; reflexivity).
  split.
  - intros t v Hv. apply in_map_iff in Hv. destruct Hv as (a & E & Ha). apply filter_In in Ha. injection E as _ <-. apply (run_ratio _ _ _ _ _ _ _ _ _ _ _ _ _ _ _ _ _ SI E1 E2 a (proj1 Ha)).
  - intros r HR. destruct (run_rates _ _ _ _ _ _ _ _ E2 HR) as (A & B & _ & D). split; [exact A | split; [exact B | exact D]].
Qed.

(** With a fit of the analysis the figure of the rates always exists. *)
Lemma low_slope : forall fit limit step minimum rows r i q, bound_below fit -> fit_interval fit minimum rows r = Ok i -> i_slope_low (flatten (rejected limit step) i) = Fin q ->
  exists s, i_slope (flatten (rejected limit step) i) = Fin s.
Proof.
  intros fit limit step minimum rows r i q HB E HL. unfold flatten in *. destruct (rejected limit step i); [eexists; reflexivity |]. unfold fit_interval in E. destruct rows as [| first rows]; [discriminate |]. cbv zeta in E.
  destruct (_ && _).
  - destruct (fit _) as [[[slope intercept] low] high] eqn:EF. injection E as <-. cbn [i_slope_low i_slope] in *. subst low. destruct (HB _ _ _ _ _ EF) as (s & -> & _). exists s. reflexivity.
  - injection E as <-. eexists. reflexivity.
Qed.
Lemma finite_slopes : forall fit rows trim limit step minimum out, bound_below fit -> calc_result_df fit rows trim limit step minimum = Ok out ->
  (forall i rec, In (i, rec) (s_table out) -> exists q, i_slope_low i = Fin q) -> forall i, In i (map fst (s_table out)) -> exists s, i_slope i = Fin s.
Proof.
  intros fit rows trim limit step minimum out HB H HL i Hi. apply in_map_iff in Hi. destruct Hi as ([i' rec] & Ei & Hin). cbn in Ei. subst i'. destruct (HL _ _ Hin) as [q Hq].
  unfold calc_result_df in H. destruct (map_result _ _) as [fits |] eqn:EF; [| discriminate]. cbn [bind] in H. destruct fits as [| f0 fits]; [discriminate |].
  set (table := map (flatten (rejected limit step)) (f0 :: fits)) in *. cbv zeta in H. destruct (filter i_valid table) as [| v0 vs]; [discriminate |].
  assert (s_table out = combine table (recoveries table)) as E by (assert (out = SrrIntervals (combine table (recoveries table)) (flat_map (analyze_row table) rows)) as -> by congruence; reflexivity).
  rewrite E in Hin. apply in_combine_l in Hin. unfold table in Hin. apply in_map_iff in Hin. destruct Hin as (j & <- & Hj). apply map_result_F2 in EF. destruct (Forall2_in_right _ _ _ _ _ j EF Hj) as (r & _ & Er). apply (low_slope _ _ _ _ _ _ _ _ HB Er Hq).
Qed.
Lemma run_always : forall fit visit pm insolation precip ds day_scale thr trim method c pthr minimum exc conf recenter limit step factor res,
  sorted_index pm -> bound_below fit -> srr_run fit visit pm insolation precip ds day_scale thr trim method c pthr minimum exc conf recenter limit step factor = Ok res ->
  (forall t v, In (t, v) (sr_perfect res) -> exists q, v = Fin q /\ q <= 1) /\
  exists qs, qs <> [] /\ valid_rates (sr_intervals res) (map Fin qs) /\ (forall q, In q qs -> q <= 0) /\
    forall bins, (1 <= bars_asked bins)%Z -> exists bars, soiling_rate_histogram (sr_intervals res) bins = Ok bars /\ total bars = List.length qs.
Proof.
  intros fit visit pm insolation precip ds day_scale thr trim method c pthr minimum exc conf recenter limit step factor res SI HB H.
  pose proof (run_figures _ _ _ _ _ _ _ _ _ _ _ _ _ _ _ _ _ _ _ _ SI H) as [P1 P2]. unfold srr_run in H.
  destruct (calc_daily_df pm insolation precip day_scale thr recenter c pthr factor) as [[r0 rows] |] eqn:E1; [| discriminate]. cbn [bind fst snd] in H.
  destruct (calc_result_df fit rows trim limit step minimum) as [out |] eqn:E2; [| discriminate]. cbn [bind] in H.
  destruct (calc_monte method visit out ds) as [runs |] eqn:E3; [| discriminate]. cbn [bind] in H. destruct (srr_percentiles _ conf exc) as [[[[m lo] hi] x] |] eqn:E4; [| discriminate]. cbn [bind] in H.
  assert (sr_perfect res = map (fun a => (a_date a, a_loss_perfect a)) (filter a_valid (s_daily out)) /\ sr_intervals res = map fst (s_table out)) as [EP EI]
    by (match type of H with Ok ?y = Ok ?z => assert (z = y) as -> by congruence end; split; reflexivity).
  apply map_result_F2 in E3. assert (ds <> []) as ND by (intros ->; inversion E3; subst; apply (percentiles_empty _ _ _ E4)). destruct ds as [| d0 ds]; [contradiction |]. inversion E3 as [| a0 pr0 b0 runs0 R0 RR]; subst.
  destruct (bounded_dec out) as [(b & BD) | NB]; [| rewrite (realization_overflow visit out d0 method NB) in R0; discriminate].
  assert (forall i, In i (map fst (s_table out)) -> exists s, i_slope i = Fin s) as FS.
  { apply (finite_slopes _ _ _ _ _ _ _ HB E2). intros i rec Hin. apply In_nth_error in Hin. destruct Hin as [k Hk].
    assert (k < List.length (s_table out))%nat as Lk by (apply nth_error_Some; congruence). destruct (BD k Lk) as [El _]. unfold row_at in El. erewrite nth_error_nth in El by exact Hk. exists (fst (b k)). exact El. }
  rewrite EP, EI in *. split.
  - intros t v Hv. destruct (P1 t v Hv) as [-> | Q]; [exfalso | exact Q]. apply in_map_iff in Hv. destruct Hv as (a & E & Ha). apply filter_In in Ha. destruct Ha as [Ha _]. injection E as _ E.
    destruct (result_table _ _ _ _ _ _ _ E2) as (table & ET & _ & ED & _). rewrite ET in FS. rewrite ED in Ha. apply in_flat_map in Ha. destruct Ha as (dd & _ & Ha). unfold analyze_row in Ha.
    destruct (filter (fun i => (i_run i =? d_run dd)%Z) table) as [| i l] eqn:F; [destruct Ha |]. destruct Ha as [<- | []]. cbn [a_loss_perfect] in E.
    assert (In i table) as Hi. { assert (In i (filter (fun i => (i_run i =? d_run dd)%Z) table)) as K by (rewrite F; left; reflexivity). apply filter_In in K. apply K. }
    destruct (FS i Hi) as [s Es]. rewrite Es in E. discriminate E.
  - assert (forall l, (forall i, In i l -> exists s, i_slope i = Fin s) -> exists qs, valid_rates l (map Fin qs)) as VR.
    { clear. induction l as [| i l IH]; intros K; [exists []; constructor |]. destruct IH as [qs V]; [intros j Hj; apply K; right; exact Hj |]. destruct (K i (or_introl eq_refl)) as [s Es].
      destruct (i_valid i) eqn:Ev; [exists (qz 100 * s :: qs); apply rates_number; assumption | exists qs; apply rates_invalid; assumption]. }
    destruct (VR _ FS) as [qs V]. exists qs. destruct (P2 _ V) as (NE & NP & Dr).
    assert (qs <> []) as QN by (intros ->; apply NE; reflexivity). split; [exact QN |]. split; [exact V |]. split; [intros q Hq; apply NP, in_map, Hq |].
    intros bins B. destruct (proj2 (Dr bins)) as [bars Hb].
    + split; [exact B |]. split; [intros C; apply in_map_iff in C; destruct C as (q & C & _); discriminate |]. destruct qs as [| q qs]; [contradiction |]. exists q. left. reflexivity.
    + exists bars. split; [exact Hb |]. destruct (rate_histogram_spec _ bins _ V) as (K & _ & _). destruct (K bars Hb) as [_ (qs' & N & T)]. rewrite T. apply numbers_noinf in N. destruct N as [_ N]. rewrite finvals_map_Fin in N. rewrite N. reflexivity.
Qed.
