(** C41: soiling profiles stay at or below one *)

From Coq Require Import QArith Qcanon List ZArith Bool Arith Lia Permutation Sorted.
From Verif.Base Require Import QcExtra ISort Quantile Fl TimeSeries Calendar Rolling.
From Verif.Spec Require Import Stats Filters Theil Soiling.
From Verif.Model Require Import Soiling SoilingSummary.
From Verif.Proofs Require Import StatsP FiltersP2 SoilP SoilP2 SoilP4 SoilP5 SoilP8 SoilP9 SoilP10 SoilP11 SoilP12 SoilP13 SoilP14 EdgeP.
Import ListNotations.
Open Scope list_scope.
Open Scope Qc_scope.
From Verif.Spec Require Import SoilingTable SoilingSummary.
From Coq Require Import String.

(** One realisation: start levels, profile and soiling ratio; at or below one for
    draws from the unit interval. *)
Theorem C41_realization : forall visit (s : srr_intervals) (d : draws), well_formed s -> (forall l, set_order l (visit l)) -> forall b, bounded s b ->
  let slope k := between (b k) (dr_slope d k) in let loss k := slope k * qz (i_length (row_at s k)) in
  forall method, known_method method -> exists starts profile ratio,
  realization method visit s d = Ok (map Fin profile, ratio) /\ List.length starts = List.length (s_table s) /\ List.length profile = List.length (s_daily s) /\
  (method = "perfect_clean"%string -> forall k, (k < List.length (s_table s))%nat -> nth k starts 0 = 1) /\
  (method = "half_norm_clean"%string -> levels_ok true (dr_clean d) (the_valid s) loss (the_recovery s) (fun k => nth k starts 0)) /\
  (method = "random_clean"%string -> levels_ok false (dr_clean d) (the_valid s) loss (the_recovery s) (fun k => nth k starts 0)) /\
  (method <> "perfect_clean"%string -> (forall l, visit l = zset l) -> fill_ok (dr_level d) (the_valid s) loss (fun k => nth k starts 0)) /\
  (forall p a k, nth_error (s_daily s) p = Some a -> (k < List.length (s_table s))%nat -> i_run (row_at s k) = a_run a ->
     nth p profile 0 = nth k starts 0 + qz ((a_date a - i_start (row_at s k)) / ns_day) * slope k) /\
  (noinf (map a_insol (s_daily s)) ->
     let rows := known_rows profile (map a_insol (s_daily s)) in
     (qsum (map snd rows) <> 0 -> exists q, ratio = Fin q /\ weighted_mean rows q) /\
     (qsum (map snd rows) = 0 -> (forall r, In r rows -> 0 <= snd r) -> ratio = NaN)) /\
  ((method = "random_clean"%string -> in_unit (dr_clean d)) -> in_unit (dr_level d) -> in_unit (dr_slope d) -> (forall k, (k < List.length (s_table s))%nat -> fst (b k) <= 0) ->
     (forall x, In x starts -> x <= 1) /\ (forall x, In x profile -> x <= 1) /\
     (forall p q a a', (p <= q)%nat -> nth_error (s_daily s) p = Some a -> nth_error (s_daily s) q = Some a' -> a_run a = a_run a' -> nth q profile 0 <= nth p profile 0)).
Proof. exact realization_spec. Qed.

(** The whole analysis. *)
Theorem C41_run : forall fit visit pm insolation precip ds day_scale thr trim method c pthr minimum exc conf recenter limit step factor res,
  sorted_index pm -> (forall l, set_order l (visit l)) -> bound_below fit ->
  (forall d, In d ds -> in_unit (dr_slope d) /\ in_unit (dr_level d) /\ (method = "random_clean"%string -> in_unit (dr_clean d))) ->
  srr_run fit visit pm insolation precip ds day_scale thr trim method c pthr minimum exc conf recenter limit step factor = Ok res ->
  ds <> [] /\ known_method method /\ exists r rows out ratios,
    calc_daily_df pm insolation precip day_scale thr recenter c pthr factor = Ok (r, rows) /\ calc_result_df fit rows trim limit step minimum = Ok out /\
    sr_renorm res = r /\ sr_intervals res = map fst (s_table out) /\
    sr_perfect res = map (fun a => (a_date a, a_loss_perfect a)) (filter a_valid (s_daily out)) /\
    List.length (sr_profiles res) = List.length ds /\ List.length ratios = List.length ds /\
    Forall2 (fun d pr => realization method visit out d = Ok pr) ds (combine (sr_profiles res) ratios) /\
    (forall p, In p (sr_profiles res) -> exists ps, p = map Fin ps /\ List.length ps = List.length (s_daily out) /\ forall x, In x ps -> x <= 1) /\
    ((forall a, In a (s_daily out) -> exists w, a_insol a = Fin w /\ 0 <= w) -> (exists a w, In a (s_daily out) /\ a_insol a = Fin w /\ 0 < w) ->
     0 <= conf -> conf <= qz 100 -> 0 <= exc -> exc <= qz 100 ->
     exists qs m lo hi x, ratios = map Fin qs /\ (forall q, In q qs -> q <= 1) /\
       sr_median res = Fin m /\ is_median qs m /\ sr_low res = Fin lo /\ is_percentile (qz 50 - conf / qz 2) qs lo /\
       sr_high res = Fin hi /\ is_percentile (qz 50 + conf / qz 2) qs hi /\ sr_exceedance res = Fin x /\ is_percentile (qz 100 - exc) qs x /\
       lo <= m /\ m <= hi /\ hi <= 1 /\ x <= 1).
Proof. exact run_below_one. Qed.

(** Its intermediate tables are well formed. *)
Theorem C41_formed : forall pm insolation precip day_scale thr recenter c pthr factor r rows fit trim limit step minimum out, sorted_index pm ->
  calc_daily_df pm insolation precip day_scale thr recenter c pthr factor = Ok (r, rows) ->
  calc_result_df fit rows trim limit step minimum = Ok out ->
  well_formed out /\ (bound_below fit -> forall x q, In x (s_table out) -> i_slope_low (fst x) = Fin q -> q <= 0) /\
  forall a, In a (s_daily out) -> exists d, In d rows /\ a_date a = d_date d /\ a_insol a = d_insol d.
Proof. exact result_formed. Qed.

Theorem C41_percentiles : forall qs c e, qs <> [] -> 0 <= c -> c <= qz 100 -> 0 <= e -> e <= qz 100 -> exists m lo hi x,
  srr_percentiles (map Fin qs) c e = Ok (Fin m, Fin lo, Fin hi, Fin x) /\
  is_median qs m /\ is_percentile (qz 50 - c / qz 2) qs lo /\ is_percentile (qz 50 + c / qz 2) qs hi /\ is_percentile (qz 100 - e) qs x /\
  lo <= m /\ m <= hi /\ forall a b, (forall q, In q qs -> a <= q /\ q <= b) -> (a <= lo /\ hi <= b) /\ (a <= x /\ x <= b).
Proof. exact percentiles_spec. Qed.

(** Without realizations there is no result, whatever the levels. *)
Theorem C41_no_runs : forall c e, srr_percentiles [] c e =
  Raise (if qle (- qz 100) c && qle c (qz 100) && qle 0 e && qle e (qz 100) then IndexError else ValueError).
Proof. exact percentiles_none. Qed.

(** A weighted mean lies between the values. *)
Theorem C41_mean : forall rows q lo hi, weighted_mean rows q -> 0 < qsum (map snd rows) -> (forall r, In r rows -> 0 <= snd r /\ lo <= fst r /\ fst r <= hi) -> lo <= q /\ q <= hi.
Proof. exact mean_between. Qed.

(** Bounds that are not finite end the analysis with an OverflowError. *)
Theorem C41_unbounded : forall visit (s : srr_intervals) (d : draws), forall method, (exists i rec, In (i, rec) (s_table s) /\ forall x y, i_slope_low i = Fin x -> i_slope_high i <> Fin y) ->
  realization method visit s d = Raise OverflowError.
Proof. exact realization_overflow. Qed.

(** So does an unknown method with a ValueError, if the bounds are finite. *)
Theorem C41_unknown : forall visit (s : srr_intervals) (d : draws) b, bounded s b -> forall method, ~ known_method method -> realization method visit s d = Raise ValueError.
Proof. exact realization_unknown. Qed.

(** Twenty days: two falling stretches with a short one between them, a gap of two days
    without data and a last falling stretch. *)
Definition day (k : Z) : Z := (k * ns_day)%Z.
Definition levels : list fl := map (fun z => ff z 100) [100; 98; 96; 94; 92; 90; 100; 98; 100; 98; 96; 94; 92; 90]%Z ++ [NaN; NaN] ++ map (fun z => ff z 100) [95; 93; 91; 89]%Z.
Definition daily_pm : series := combine (map (fun k => day (Z.of_nat k)) (seq 0 20)) levels.
Definition sunshine : series := map (fun r => (fst r, fz 5)) daily_pm.
Definition no_margin : list (Z * Qc) -> Qc := fun _ => 0.
Definition demo_table : result (fl * list day_row) := calc_daily_df daily_pm sunshine None 1 (Some (ff 1 100)) false "shift" (fz 0) (ff 3 2).
Definition demo_rows : list day_row := match demo_table with Ok p => snd p | Raise _ => [] end.
Definition demo_result : result srr_intervals := calc_result_df (theil_fit no_margin) demo_rows false (fz 500) (ff 1 20) 3.
Definition demo_intervals : srr_intervals := match demo_result with Ok s => s | Raise _ => SrrIntervals [] [] end.
Definition half_draws : draws := Draws (fun _ => qf 1 2) (fun _ => qf 1 2) (fun _ => qf 1 2).

Lemma levels_noinf : noinf (vals daily_pm).
Proof.
  intros x Hx. unfold vals, daily_pm in Hx. apply in_map_iff in Hx. destruct Hx as ([t v] & <- & H). apply in_combine_r in H. cbn [snd]. unfold levels in H. rewrite !in_app_iff, !in_map_iff in H.
  destruct H as [(z & <- & _) | [[<- | [<- | []]] | (z & <- & _)]]; split; discriminate.
Qed.
Lemma sunshine_noinf : noinf (vals sunshine).
Proof. intros x Hx. unfold vals, sunshine in Hx. rewrite map_map in Hx. apply in_map_iff in Hx. destruct Hx as (r & <- & _). split; discriminate. Qed.

Example C41_example :
  realization "perfect_clean" zset demo_intervals half_draws =
    Ok (map (fun z => ff z 100) [100; 98; 96; 94; 92; 90; 100; 100; 100; 98; 96; 94; 92; 100; 100; 100; 100; 98; 96; 94]%Z, ff 969 1000) /\
  realization "random_clean" zset demo_intervals half_draws =
    Ok (map (fun z => ff z 400) [400; 392; 384; 376; 368; 360; 370; 370; 380; 372; 364; 356; 348; 361; 361; 361; 374; 366; 358; 350]%Z, ff 7371 8000) /\
  realization "half_norm_clean" zset demo_intervals half_draws =
    Ok (map (fun z => ff z 1200) [1200; 1176; 1152; 1128; 1104; 1080; 1140; 1140; 1200; 1176; 1152; 1128; 1104; 1147; 1147; 1147; 1190; 1166; 1142; 1118]%Z, ff 22937 24000).
Proof. fcompute. Qed.

Example C41_run_example : exists res, srr_run (theil_fit no_margin) zset daily_pm sunshine None [half_draws; half_draws] 1 (Some (ff 1 100)) false "random_clean" "shift" (fz 0) 3
    (qz 95) (qf 684 10) false (fz 500) (ff 1 20) (ff 3 2) = Ok res /\ sr_median res = ff 7371 8000 /\ sr_low res = ff 7371 8000 /\ sr_high res = ff 7371 8000.
Proof. eexists. split; [vm_compute; reflexivity |]. repeat split; fcompute. Qed.

Example C41_hypotheses : sorted_index daily_pm /\ (forall l, set_order l (zset l)) /\ bound_below (theil_fit no_margin) /\
  (in_unit (dr_slope half_draws) /\ in_unit (dr_level half_draws) /\ in_unit (dr_clean half_draws)) /\
  bounded demo_intervals (fun k => if Nat.even k then (qf (-1) 50, qf (-1) 50) else (0, 0)).
Proof.
  split; [unfold sorted_index; cbn; repeat (constructor; [| repeat constructor]); constructor |]. split.
  { exact zset_order. }
  split; [apply theil_bound_below; intros pts; apply Qcle_refl |]. split.
  { repeat split; intros; cbn; vm_compute; discriminate. }
  intros k Hk. assert (List.length (s_table demo_intervals) = 5)%nat as L by (vm_compute; reflexivity). rewrite L in Hk. do 5 (destruct k as [| k]; [split; fcompute |]). lia.
Qed.

Print Assumptions C41_realization.
Print Assumptions C41_run.
Print Assumptions C41_formed.
Print Assumptions C41_percentiles.
Print Assumptions C41_mean.
Print Assumptions C41_unbounded.
Print Assumptions C41_unknown.
Print Assumptions C41_no_runs.
