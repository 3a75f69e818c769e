(** The interval table is well formed; results of a run. *)

From Coq Require Import QArith Qcanon List ZArith Bool Arith Lia Sorted String.
From Verif.Base Require Import QcExtra ISort Quantile Fl TimeSeries Calendar Rolling Segments.
From Verif.Spec Require Import Stats Filters Soiling.
From Verif.Model Require Import Soiling.
From Verif.Spec Require Import SoilingTable.
From Verif.Proofs Require Import StatsP FiltersP2 SoilP SoilP2 SoilP3 SoilP4 SoilP5 SoilP6 SoilP7 SoilP8 SoilP9.
Import ListNotations.
Open Scope list_scope.
Open Scope Qc_scope.

Lemma daily_dates : forall pm insolation precip day_scale thr recenter c pthr factor r rows,
  calc_daily_df pm insolation precip day_scale thr recenter c pthr factor = Ok (r, rows) -> map d_date rows = times (valid_part pm).
Proof.
  intros pm insolation precip day_scale thr recenter c pthr factor r rows. unfold calc_daily_df. destruct (valid_part pm) as [| x0 p]; [discriminate |]. set (s := x0 :: p).
  destruct (day_scale =? 0)%nat; [discriminate |]. destruct (combine_events _ _ _) as [l |]; [| discriminate]. cbn [bind]. intros H.
  set (row := fun i => DayRow _ _ _ _ _ _ _) in H. assert (rows = map row (seq 0 (List.length s))) as -> by (injection H; intros <- _; reflexivity). clear H.
  rewrite map_map. unfold row. cbn [d_date]. apply ext_nth. intros i. rewrite nth_error_map_some, nth_error_seq. destruct (Nat.ltb_spec i (List.length s)) as [L | L].
  - cbn [option_map Nat.add]. symmetry. apply nth_error_nth'. unfold times. rewrite ?map_length. exact L.
  - symmetry. apply nth_error_None. unfold times. rewrite ?map_length. exact L.
Qed.

Lemma valid_part_sorted : forall pm, sorted_index pm -> sorted_index (valid_part pm).
Proof.
  intros pm H. destruct (valid_part_spec pm) as [[_ ->] | (pre & post & E & _)]; [constructor |]. rewrite E in H. apply sorted_app_inv in H. destruct H as (_ & H & _). apply sorted_app_inv in H. apply H.
Qed.

Lemma sorted_nth : forall l i j x y, StronglySorted Z.lt l -> (i < j)%nat -> nth_error l i = Some x -> nth_error l j = Some y -> (x < y)%Z.
Proof.
  induction l as [| a l IH]; intros [| i] [| j] x y S L Hx Hy; try discriminate; try lia; inversion S as [| a' l' S1 S2]; subst.
  - cbn in Hx. injection Hx as <-. rewrite Forall_forall in S2. apply S2. cbn in Hy. apply nth_error_In in Hy. exact Hy.
  - apply (IH i j); [exact S1 | lia | exact Hx | exact Hy].
Qed.
Lemma sorted_middle : forall a b c, StronglySorted Z.lt (a ++ b ++ c) -> StronglySorted Z.lt b.
Proof.
  induction a as [| x a IH]; intros b c H.
  - cbn in H. induction b as [| y b IHb]; [constructor |]. cbn in H. inversion H as [| y' l' S1 S2]; subst. constructor; [apply IHb; exact S1 |]. rewrite Forall_forall in *. intros z Hz. apply S2. apply in_or_app. left. exact Hz.
  - cbn in H. inversion H as [| y' l' S1 S2]; subst. apply (IH b c S1).
Qed.

Lemma fit_bounds : forall fit minimum rows r i, fit_interval fit minimum rows r = Ok i ->
  (forall q, i_slope_high i = Fin q -> q <= 0) /\
  (bound_below fit -> forall q, i_slope_low i = Fin q -> fgt (i_slope i) (fz 0) = false -> q <= 0).
Proof.
  intros fit minimum rows r i. unfold fit_interval. destruct rows as [| first rows]; [discriminate |]. cbv zeta.
  destruct (_ && _).
  - destruct (fit _) as [[[slope intercept] low] high] eqn:EF. intros E. injection E as <-. cbn [i_slope_high i_slope_low i_slope]. split.
    + intros q. destruct (flt high (fz 0)) eqn:Eh; [intros ->; unfold fz in Eh; cbn [flt] in Eh; qb; rewrite qz_0 in Eh; qlra | intros E; injection E as <-; apply Qcle_refl].
    + intros HB q -> NG. destruct (HB _ _ _ _ _ EF) as (s & -> & LE). unfold fz in NG. cbn [fgt flt] in NG. qb. rewrite qz_0 in NG. qlra.
  - intros E. injection E as <-. cbn [i_slope_high i_slope_low i_slope]. split; [intros q E; injection E as <-; apply Qcle_refl | intros _ q E _; injection E as <-; apply Qcle_refl].
Qed.
Lemma flat_bounds : forall fit minimum rows r i limit step, fit_interval fit minimum rows r = Ok i ->
  (forall q, i_slope_high (flatten (rejected limit step) i) = Fin q -> q <= 0) /\ (bound_below fit -> forall q, i_slope_low (flatten (rejected limit step) i) = Fin q -> q <= 0).
Proof.
  intros fit minimum rows r i limit step E. destruct (fit_bounds _ _ _ _ _ E) as [H1 H2]. unfold flatten. destruct (rejected limit step i) eqn:ER; cbn [i_slope_high i_slope_low].
  - split; [intros q Eq; injection Eq as <-; apply Qcle_refl | intros _ q Eq; injection Eq as <-; apply Qcle_refl].
  - split; [exact H1 |]. intros HB q Eq. apply (H2 HB q Eq). unfold rejected in ER. cbv zeta in ER. apply orb_false_iff in ER. destruct ER as [ER _]. apply orb_false_iff in ER. apply ER.
Qed.

Theorem result_formed : forall pm insolation precip day_scale thr recenter c pthr factor r rows fit trim limit step minimum out, sorted_index pm ->
  calc_daily_df pm insolation precip day_scale thr recenter c pthr factor = Ok (r, rows) ->
  calc_result_df fit rows trim limit step minimum = Ok out ->
  well_formed out /\ (bound_below fit -> forall x q, In x (s_table out) -> i_slope_low (fst x) = Fin q -> q <= 0) /\
  forall a, In a (s_daily out) -> exists d, In d rows /\ a_date a = d_date d /\ a_insol a = d_insol d.
Proof.
  intros pm insolation precip day_scale thr recenter c pthr factor r rows fit trim limit step minimum out SI H HO.
  destruct (daily_numbered _ _ _ _ _ _ _ _ _ _ _ H) as [NE NUM].
  assert (StronglySorted Z.lt (map d_date rows)) as SD by (rewrite (daily_dates _ _ _ _ _ _ _ _ _ _ _ H); apply valid_part_sorted; exact SI).
  assert (forall i j x y, (i <= j)%nat -> nth_error rows i = Some x -> nth_error rows j = Some y -> (d_date x <= d_date y)%Z) as MON.
  { intros i j x y Hij Hx Hy. destruct (Nat.eq_dec i j) as [-> | D]; [replace y with x by congruence; lia |].
    assert (d_date x < d_date y)%Z; [| lia]. apply (sorted_nth (map d_date rows) i j); [exact SD | lia | rewrite nth_error_map_some, Hx; reflexivity | rewrite nth_error_map_some, Hy; reflexivity]. }
  destruct (intervals_spec _ _ _ _ _ _ _ _ _ _ _ H) as (l & Hl & HP & HI). destruct (HI _ _ _ _ _ _ HO) as [FT FD]. clear HI.
  fold (event_row rows) in Hl.
  destruct (result_blocks rows NUM fit trim limit step minimum l Hl) as (fits & F & E). cbv zeta in E. rewrite HO in E.
  set (table := map (flatten (rejected limit step)) fits) in *. destruct (existsb i_valid table); [| discriminate]. injection E as Eout.
  assert (map fst (s_table out) = table) as EM.
  { rewrite Eout. cbn [s_table]. pose proof (recoveries_length table) as L. revert L. generalize (recoveries table) as rc. generalize table as t. clear. induction t as [| i t IH]; intros rc L; [reflexivity |]. destruct rc; [discriminate |]. cbn. rewrite IH; [reflexivity | cbn in L; lia]. }
  assert (forall x, In x (s_table out) -> exists i ab, In ab (kept_blocks trim l) /\ fit_block rows fit minimum ab = Ok i /\ fst x = flatten (rejected limit step) i) as FROM.
  { intros x Hx. assert (In (fst x) table) as Ht by (rewrite <- EM; apply in_map; exact Hx). unfold table in Ht. apply in_map_iff in Ht. destruct Ht as (i & Ei & Hi).
    destruct (Forall2_in_right _ _ _ _ _ i F Hi) as (ab & Hab & Eab). exists i, ab. auto. }
  split; [constructor |].
  - rewrite <- (map_map fst i_run), EM. unfold table. assert (map i_run (map (flatten (rejected limit step)) fits) = map (run_at rows) (kept_blocks trim l)) as ->.
    { assert (forall ab, In ab (kept_blocks trim l) -> In ab l) as IK by (intros ab; apply In_kept). revert IK F. generalize (kept_blocks trim l) as k. clear -NUM Hl. intros k IK F. revert IK. induction F as [| ab i k m Ei F IH]; intros IK; [reflexivity |]. cbn [map].
      destruct (fit_block_shape rows NUM fit minimum l ab Hl (IK ab (or_introl eq_refl))) as (i' & x & y & E & _ & _ & _ & _ & _ & E5). rewrite Ei in E. injection E as <-.
      destruct (flatten_keeps (rejected limit step) i) as (K1 & K2 & K3 & K4). rewrite K4, E5, IH; [reflexivity |]. intros ab' H'. apply IK. right. exact H'. }
    apply NoDup_kept, (run_nodup rows NUM l Hl).
  - intros x Hx. destruct (Forall2_in_right _ _ _ _ _ x FT Hx) as (ab & Hab & (y & z & (L & _) & _ & _ & -> & _)). lia.
  - intros x q Hx Eq. destruct (FROM x Hx) as (i & ab & _ & Ei & Ex). rewrite Ex in Eq. apply (proj1 (flat_bounds _ _ _ _ _ limit step Ei) q Eq).
  - intros [i rec] Hx. apply (recoveries_range table). rewrite Eout in Hx. cbn [s_table] in Hx. apply in_combine_r in Hx. exact Hx.
  - intros a Ha. destruct (Forall2_in_right _ _ _ _ _ a FD Ha) as (d & Hd & (E1 & E2 & E3 & _)). apply in_concat in Hd. destruct Hd as (bl & Hbl & Hd). apply in_map_iff in Hbl. destruct Hbl as (ab & <- & Hab).
    destruct (Forall2_in_left _ _ _ _ _ ab FT Hab) as (x & Hx & (y & z & (L & Hy & Hz) & S1 & S2 & _ & S4)). exists x. split; [exact Hx |].
    pose proof (In_kept _ _ _ Hab) as Hab'. apply In_nth_error in Hd. destruct Hd as (k & Hk). unfold block in Hk.
    assert (k < S (snd ab) - fst ab)%nat as Lk.
    { assert (k < List.length (firstn (S (snd ab) - fst ab) (skipn (fst ab) rows)))%nat by (apply nth_error_Some; congruence). rewrite firstn_length in H0. lia. }
    pose proof (nth_error_In _ _ Hk) as Hd. fold (block rows ab) in Hd.
    rewrite nth_error_firstn in Hk. rewrite nth_error_skipn in Hk. apply Nat.ltb_lt in Lk. try rewrite Lk in Hk. apply Nat.ltb_lt in Lk.
    split; [| rewrite S1, S2, E1; split; [apply (MON (fst ab) (fst ab + k)%nat); [lia | exact Hy | exact Hk] | apply (MON (fst ab + k)%nat (snd ab)); [lia | exact Hk | exact Hz]]].
    rewrite S4, E3. assert (In y (block rows ab)) as Hyb.
    { unfold block. apply (nth_error_In _ 0). rewrite nth_error_firstn, nth_error_skipn, Nat.add_0_r. replace (0 <? S (snd ab) - fst ab)%nat with true by (symmetry; apply Nat.ltb_lt; lia). exact Hy. }
    rewrite (run_in_block rows NUM l Hl ab y Hab' Hyb), (run_in_block rows NUM l Hl ab d Hab' Hd). reflexivity.
  - intros p q a b L Ha Hb. assert (StronglySorted Z.lt (map a_date (s_daily out))) as SA.
    { assert (map a_date (s_daily out) = map d_date (List.concat (map (block rows) (kept_blocks trim l)))) as ->.
      { clear -FD. induction FD as [| d e ds es (E & _) FD IH]; [reflexivity |]. cbn. rewrite E, IH. reflexivity. }
      rewrite <- HP in SD. destruct (kept_parts trim l) as [-> | [(_ & x & El & ->) | (_ & x & z & El)]]; [exact SD | constructor |]. set (k := kept_blocks trim l) in *. rewrite El in SD. cbn [map List.concat] in SD. rewrite (map_app (block rows)), concat_app, !map_app in SD.
      apply (sorted_middle _ _ _ SD). }
    apply (sorted_nth _ p q _ _ SA L); rewrite nth_error_map_some; [rewrite Ha | rewrite Hb]; reflexivity.
  - split.
    + intros HB x q Hx Eq. destruct (FROM x Hx) as (i & ab & _ & Ei & Ex). rewrite Ex in Eq. apply (proj2 (flat_bounds _ _ _ _ _ limit step Ei) HB q Eq).
    + intros a Ha. destruct (Forall2_in_right _ _ _ _ _ a FD Ha) as (d & Hd & (E1 & E2 & E3 & _)). exists d. split; [| auto]. rewrite <- HP. apply in_concat in Hd. destruct Hd as (bl & Hbl & Hd). apply in_map_iff in Hbl. destruct Hbl as (ab & <- & Hab).
      apply in_concat. exists (block rows ab). split; [| exact Hd]. apply in_map. apply In_kept in Hab. exact Hab.
Qed.

(** ** Percentiles of the realisations *)

Lemma percentiles_spec : forall qs c e, qs <> [] -> 0 <= c -> c <= qz 100 -> 0 <= e -> e <= qz 100 -> exists m lo hi x,
  srr_percentiles (map Fin qs) c e = Ok (Fin m, Fin lo, Fin hi, Fin x) /\
  is_median qs m /\ is_percentile (qz 50 - c / qz 2) qs lo /\ is_percentile (qz 50 + c / qz 2) qs hi /\ is_percentile (qz 100 - e) qs x /\
  lo <= m /\ m <= hi /\ forall a b, (forall q, In q qs -> a <= q /\ q <= b) -> (a <= lo /\ hi <= b) /\ (a <= x /\ x <= b).
Proof.
  intros qs c e NE C0 C1 E0 E1. destruct (ci_lo_range c C0 C1) as [A B]. assert (0 <= c / qz 2) as A2 by (apply Qc_le_div; qlra). unfold srr_percentiles. cbv zeta.
  rewrite !np_percentile_fin by (auto; qlra). cbn [bind]. destruct qs as [| q qs]; [contradiction |]. cbn [map]. set (l := q :: qs) in *.
  do 4 eexists. split; [reflexivity |]. rewrite half_eq, <- (qmedian_quantile l NE).
  destruct (div100_range (qz 50) ltac:(qlra) ltac:(qlra)) as [R1 R2]. destruct (div100_range (qz 50 - c / qz 2) ltac:(qlra) ltac:(qlra)) as [R3 R4].
  destruct (div100_range (qz 50 + c / qz 2) ltac:(qlra) ltac:(qlra)) as [R5 R6]. destruct (div100_range (qz 100 - e) ltac:(qlra) ltac:(qlra)) as [R7 R8].
  split; [apply qmedian_spec; exact NE |]. split; [apply qpercentile_spec; auto; qlra |]. split; [apply qpercentile_spec; auto; qlra |]. split; [apply qpercentile_spec; auto; qlra |].
  split; [| split].
  - rewrite qmedian_quantile, <- half_eq by exact NE. apply qquantile_mono; auto. apply div100_mono. qlra.
  - rewrite qmedian_quantile, <- half_eq by exact NE. apply qquantile_mono; auto. apply div100_mono. qlra.
  - intros a b H. split; [split |]; [apply (qquantile_bounds _ l a b); auto | apply (qquantile_bounds _ l a b); auto | apply (qquantile_bounds _ l a b); auto].
Qed.

Lemma percentiles_empty : forall c e r, srr_percentiles [] c e <> Ok r.
Proof.
  intros c e r. unfold srr_percentiles. destruct (np_percentile _ _); [| discriminate]. cbn [bind]. destruct (np_percentile _ _); [| discriminate]. cbn [bind].
  destruct (np_percentile _ _); [| discriminate]. cbn [bind]. destruct (np_percentile _ _); discriminate.
Qed.

Lemma map_result_F2 : forall A B (f : A -> result B) l out, map_result f l = Ok out -> Forall2 (fun x y => f x = Ok y) l out.
Proof.
  induction l as [| x l IH]; intros out H; cbn in H; [injection H as <-; constructor |]. destruct (f x) as [y |] eqn:E; [| discriminate]. cbn [bind] in H.
  destruct (map_result f l) as [ys |]; [| discriminate]. cbn [bind] in H. injection H as <-. constructor; [exact E | apply IH; reflexivity].
Qed.

Lemma known_dec : forall method, known_method method \/ ~ known_method method.
Proof.
  intros method. unfold known_method. destruct (string_dec method "half_norm_clean"); [left; auto |]. destruct (string_dec method "random_clean"); [left; auto |]. destruct (string_dec method "perfect_clean"); [left; auto |].
  right. intros [C | [C | C]]; contradiction.
Qed.
Lemma bounded_dec : forall s, (exists b, bounded s b) \/ (exists i rec, In (i, rec) (s_table s) /\ forall x y, i_slope_low i = Fin x -> i_slope_high i <> Fin y).
Proof.
  intros s. destruct (existsb (fun x => match i_slope_low (fst x), i_slope_high (fst x) with Fin _, Fin _ => false | _, _ => true end) (s_table s)) eqn:E.
  - right. apply existsb_exists in E. destruct E as ([i rec] & Hi & E). exists i, rec. split; [exact Hi |]. cbn [fst] in E. intros x y E1 E2. rewrite E1, E2 in E. discriminate.
  - left. exists (fun k => (fin_of (i_slope_low (row_at s k)), fin_of (i_slope_high (row_at s k)))). intros k Hk. cbn [fst snd]. destruct (row_at_In s k Hk) as (rec & Hin).
    assert (match i_slope_low (row_at s k), i_slope_high (row_at s k) with Fin _, Fin _ => false | _, _ => true end = false) as K.
    { destruct (match i_slope_low (row_at s k), i_slope_high (row_at s k) with Fin _, Fin _ => false | _, _ => true end) eqn:E'; [| reflexivity].
      assert (existsb (fun x => match i_slope_low (fst x), i_slope_high (fst x) with Fin _, Fin _ => false | _, _ => true end) (s_table s) = true) as C; [| congruence]. apply existsb_exists. exists (row_at s k, rec). split; [exact Hin | exact E']. }
    destruct (i_slope_low (row_at s k)); destruct (i_slope_high (row_at s k)); try discriminate; split; reflexivity.
Qed.

Theorem run_below_one : forall fit visit pm insolation precip ds day_scale thr trim method c pthr minimum exc conf recenter limit step factor res,
  sorted_index pm -> (forall l, set_order l (visit l)) -> bound_below fit ->
  (forall d, In d ds -> in_unit (dr_slope d) /\ in_unit (dr_level d) /\ (method = "random_clean"%string -> in_unit (dr_clean d))) ->
  srr_run fit visit pm insolation precip ds day_scale thr trim method c pthr minimum exc conf recenter limit step factor = Ok res ->
  ds <> [] /\ known_method method /\ exists r rows out ratios,
    calc_daily_df pm insolation precip day_scale thr recenter c pthr factor = Ok (r, rows) /\ calc_result_df fit rows trim limit step minimum = Ok out /\
    sr_renorm res = r /\ sr_intervals res = map fst (s_table out) /\
    sr_perfect res = map (fun a => (a_date a, a_loss_perfect a)) (filter a_valid (s_daily out)) /\
    List.length (sr_profiles res) = List.length ds /\ List.length ratios = List.length ds /\
    Forall2 (fun d pr => realization method visit out d = Ok pr) ds (combine (sr_profiles res) ratios) /\
    (forall p, In p (sr_profiles res) -> exists ps, p = map Fin ps /\ List.length ps = List.length (s_daily out) /\ forall x, In x ps -> x <= 1) /\
    ((forall a, In a (s_daily out) -> exists w, a_insol a = Fin w /\ 0 <= w) -> (exists a w, In a (s_daily out) /\ a_insol a = Fin w /\ 0 < w) ->
     0 <= conf -> conf <= qz 100 -> 0 <= exc -> exc <= qz 100 ->
     exists qs m lo hi x, ratios = map Fin qs /\ (forall q, In q qs -> q <= 1) /\
       sr_median res = Fin m /\ is_median qs m /\ sr_low res = Fin lo /\ is_percentile (qz 50 - conf / qz 2) qs lo /\
       sr_high res = Fin hi /\ is_percentile (qz 50 + conf / qz 2) qs hi /\ sr_exceedance res = Fin x /\ is_percentile (qz 100 - exc) qs x /\
       lo <= m /\ m <= hi /\ hi <= 1 /\ x <= 1).
Proof.
  intros fit visit pm insolation precip ds day_scale thr trim method c pthr minimum exc conf recenter limit step factor res SI HV HB HU. unfold srr_run.
  destruct (calc_daily_df _ _ _ _ _ _ _ _ _) as [[r rows] |] eqn:E1; [| discriminate]. cbn [bind snd fst].
  destruct (calc_result_df _ _ _ _ _ _) as [out |] eqn:E2; [| discriminate]. cbn [bind]. destruct (calc_monte method visit out ds) as [runs |] eqn:E3; [| discriminate]. cbn [bind].
  destruct (srr_percentiles (map snd runs) conf exc) as [[[[m0 lo0] hi0] x0] |] eqn:E4; [| discriminate]. cbn [bind]. intros E. injection E as <-. cbn [sr_renorm sr_intervals sr_perfect sr_profiles sr_median sr_low sr_high sr_exceedance].
  apply map_result_F2 in E3. destruct (result_formed _ _ _ _ _ _ _ _ _ _ _ _ _ _ _ _ _ SI E1 E2) as (WF & HL & _). specialize (HL HB).
  assert (ds <> []) as ND by (intros ->; inversion E3; subst; apply (percentiles_empty _ _ _ E4)). split; [exact ND |].
  destruct ds as [| d0 ds]; [contradiction |]. inversion E3 as [| a0 pr0 b0 runs0 R0 RR]; subst.
  destruct (bounded_dec out) as [(b & BD) | NB]; [| rewrite (realization_overflow visit out d0 method NB) in R0; discriminate].
  destruct (known_dec method) as [KM | NK]; [| rewrite (realization_unknown visit out d0 b BD method NK) in R0; discriminate]. split; [exact KM |]. clear R0 RR.
  set (all := d0 :: ds) in *. set (runs := pr0 :: runs0) in *. clearbody runs. assert (List.length runs = List.length all) as LR by (symmetry; apply (Forall2_len _ _ _ _ _ E3)).
  exists r, rows, out, (map snd runs). split; [reflexivity |]. split; [exact E2 |]. split; [reflexivity |]. split; [reflexivity |]. split; [reflexivity |]. rewrite !map_length. split; [exact LR |]. split; [exact LR |].
  assert (combine (map fst runs) (map snd runs) = runs) as EC by (clear; induction runs as [| [x y] l IH]; [reflexivity |]; cbn; rewrite IH; reflexivity). rewrite EC. split; [exact E3 |].
  assert (forall k, (k < List.length (s_table out))%nat -> fst (b k) <= 0) as BL.
  { intros k Hk. destruct (BD k Hk) as [El _]. destruct (row_at_In out k Hk) as (rec & Hin). apply (HL _ _ Hin). exact El. }
  assert (forall pr, In pr runs -> exists ps ratio, pr = (map Fin ps, ratio) /\ List.length ps = List.length (s_daily out) /\ (forall x, In x ps -> x <= 1) /\
    ((forall a, In a (s_daily out) -> exists w, a_insol a = Fin w /\ 0 <= w) -> (exists a w, In a (s_daily out) /\ a_insol a = Fin w /\ 0 < w) -> exists q, ratio = Fin q /\ q <= 1)) as K.
  { intros pr Hpr. destruct (Forall2_in_right _ _ _ _ _ pr E3 Hpr) as (d & Hd & Ed). destruct (HU d Hd) as (U1 & U2 & U3).
    destruct (realization_spec visit out d WF HV b BD method KM) as (starts & ps & ratio & Er & _ & LP & _ & _ & _ & _ & _ & HR & HLE). rewrite Ed in Er. injection Er as ->.
    destruct (HLE U3 U2 U1 BL) as (_ & P1 & _). exists ps, ratio. split; [reflexivity |]. split; [exact LP |]. split; [exact P1 |]. intros HW (a & w & Ha & Ew & Pw).
    assert (noinf (map a_insol (s_daily out))) as NI by (intros y Hy; apply in_map_iff in Hy; destruct Hy as (a' & <- & Ha'); destruct (HW a' Ha') as (w' & -> & _); split; discriminate).
    destruct (HR NI) as [HR1 _]. set (kr := known_rows ps (map a_insol (s_daily out))) in *.
    assert (forall rr, In rr kr -> In (fst rr) ps /\ 0 <= snd rr) as KR.
    { intros [v w'] Hrr. unfold kr, known_rows in Hrr. apply in_flat_map in Hrr. destruct Hrr as ([v' f] & Hin & Hf). cbn [fst snd] in *. pose proof (in_combine_l _ _ _ _ Hin) as I1. apply in_combine_r in Hin. apply in_map_iff in Hin. destruct Hin as (a' & <- & Ha').
      destruct (HW a' Ha') as (w'' & Ew' & Pw'). rewrite Ew' in Hf. destruct Hf as [Hf | []]. injection Hf as <- <-. auto. }
    assert (0 < qsum (map snd kr)) as TP.
    { clear HR HR1. assert (exists v, In (v, w) kr) as (v & Hv).
      { apply In_nth_error in Ha. destruct Ha as (k & Hk). assert (k < List.length ps)%nat as Lk by (rewrite LP; apply nth_error_Some; congruence).
        exists (nth k ps 0). unfold kr, known_rows. apply in_flat_map. exists (nth k ps 0, Fin w). split; [| left; reflexivity]. apply (nth_error_In _ k). rewrite nth_error_combine, (nth_error_nth' ps 0 Lk), nth_error_map_some, Hk. cbn [option_map]. rewrite Ew. reflexivity. }
      assert (forall rr, In rr kr -> 0 <= snd rr) as NN by (intros rr Hrr; apply KR; exact Hrr). clear -Hv NN Pw. induction kr as [| y kr IH]; [destruct Hv |]. cbn [map]. rewrite qsum_cons. pose proof (NN y (or_introl eq_refl)) as Hy.
      assert (forall z, In z kr -> 0 <= snd z) as NN' by (intros z Hz; apply NN; right; exact Hz). destruct Hv as [-> | Hv].
      - cbn [snd]. assert (0 <= qsum (map snd kr)); [| qlra]. clear -NN'. induction kr as [| z kr IH]; [discriminate |]. cbn [map]. rewrite qsum_cons. pose proof (NN' z (or_introl eq_refl)). specialize (IH (fun u Hu => NN' u (or_intror Hu))). qlra.
      - specialize (IH Hv NN'). qlra. }
    destruct HR1 as (q & Eq & WM); [intros C; rewrite C in TP; discriminate |]. exists q. split; [exact Eq |].
    unfold weighted_mean in WM. assert (qsum (map (fun rr => fst rr * snd rr) kr) <= qsum (map snd kr)) as LE.
    { clear -KR P1. induction kr as [| y kr IH]; [discriminate |]. cbn [map]. rewrite !qsum_cons. destruct (KR y (or_introl eq_refl)) as [I1 I2]. specialize (P1 _ I1) as Q1. specialize (IH (fun z Hz => KR z (or_intror Hz))).
      assert (0 <= (1 - fst y) * snd y) by (apply Qc_mul_nonneg; qlra). replace (fst y * snd y) with (snd y - (1 - fst y) * snd y) by ring. qlra. }
    rewrite <- WM in LE. destruct (Qclt_le_dec 1 q) as [C | C]; [| exact C]. exfalso. set (S := qsum (map snd kr)) in *. clearbody S. assert (0 < (q - 1) * S) by (apply Qc_mul_pos; qlra). replace ((q - 1) * S) with (q * S - S) in H by ring. qlra. }
  split.
  - intros p Hp. apply in_map_iff in Hp. destruct Hp as (pr & <- & Hpr). destruct (K pr Hpr) as (ps & ratio & -> & L1 & L2 & _). exists ps. auto.
  - intros HW HX C0 C1 X0 X1. assert (exists qs, map snd runs = map Fin qs /\ forall q, In q qs -> q <= 1) as (qs & Eqs & Hqs).
    { clear E3 E4 LR EC. induction runs as [| pr rs IH]; [exists []; split; [reflexivity | intros q []] |]. destruct IH as (qs & Eqs & Hqs); [intros pr' H'; apply K; right; exact H' |].
      destruct (K pr (or_introl eq_refl)) as (ps & ratio & -> & _ & _ & HQ). destruct (HQ HW HX) as (q & -> & Hq). exists (q :: qs). cbn [map snd]. rewrite Eqs. split; [reflexivity |]. intros q' [<- | H']; [exact Hq | apply Hqs; exact H']. }
    assert (qs <> []) as NQ by (intros ->; destruct runs; [cbn in LR; discriminate | discriminate]).
    destruct (percentiles_spec qs conf exc NQ C0 C1 X0 X1) as (m & lo & hi & x & EP & M & P1 & P2 & P3 & O1 & O2 & OB). rewrite Eqs, EP in E4. injection E4 as <- <- <- <-.
    exists qs, m, lo, hi, x. destruct qs as [| q0 qs]; [contradiction |].
    destruct (OB (qquantile 0 (q0 :: qs)) 1) as [[_ B1] [_ B2]].
    { intros q Hq. split; [apply (qquantile_0_min (q0 :: qs)); [discriminate | exact Hq] | apply Hqs; exact Hq]. }
    split; [exact Eqs |]. repeat (split; [solve [auto] |]). exact B2.
Qed.
