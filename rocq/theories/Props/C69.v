(** C69: what the figures of a soiling analysis show *)

From Coq Require Import QArith Qcanon List ZArith Bool Arith Lia Permutation Sorted String.
From Verif.Base Require Import QcExtra ISort Quantile Fl TimeSeries Calendar Rolling.
From Verif.Spec Require Import Stats Soiling SoilingTable Plots SoilingPlots.
From Verif.Model Require Import Utilities Clipping Soiling Plots.
From Verif.Proofs Require Import StatsP FlP SoilP SoilP10 SoilP13 PlotsP PlotsP5.
Import ListNotations.
Open Scope list_scope.
Open Scope Qc_scope.

(** Points and profiles. *)
Theorem C69_monte_carlo : forall (A : Type) factor (all : list A) y profiles,
  in_multiples factor y (fst (soiling_monte_carlo_plot factor all y profiles)) /\
  (profiles = None -> snd (soiling_monte_carlo_plot factor all y profiles) = all) /\
  (forall n, profiles = Some n -> first_ones n all (snd (soiling_monte_carlo_plot factor all y profiles))).
Proof. exact @monte_carlo_spec. Qed.

(** Points and ratio. *)
Theorem C69_intervals : forall factor perfect y, in_multiples factor y (fst (soiling_interval_plot factor perfect y)) /\ snd (soiling_interval_plot factor perfect y) = perfect.
Proof. exact interval_plot_spec. Qed.

(** The bars count the slopes of the valid intervals in percent. *)
Theorem C69_rates : forall summary bins r, valid_rates summary r ->
  (forall bars, soiling_rate_histogram summary bins = Ok bars -> histogram_shows r (bars_asked bins) bars /\ exists qs, numbers r qs /\ total bars = List.length qs) /\
  ((exists bars, soiling_rate_histogram summary bins = Ok bars) <-> (1 <= bars_asked bins)%Z /\ (r = [] \/ exists q qs, numbers r (q :: qs))) /\
  (forall e, soiling_rate_histogram summary bins = Raise e -> e = ValueError).
Proof. exact rate_histogram_spec. Qed.

(** After an analysis, with any fit: the ratio is at most 1 and no rate is above zero. *)
Theorem C69_run : forall fit visit pm insolation precip ds day_scale thr trim method c pthr minimum exc conf recenter limit step factor res,
  sorted_index pm -> srr_run fit visit pm insolation precip ds day_scale thr trim method c pthr minimum exc conf recenter limit step factor = Ok res ->
  (forall t v, In (t, v) (sr_perfect res) -> v = NInf \/ exists q, v = Fin q /\ q <= 1) /\
  forall r, valid_rates (sr_intervals res) r -> r <> [] /\ (forall q, In (Fin q) r -> q <= 0) /\
    forall bins, (exists bars, soiling_rate_histogram (sr_intervals res) bins = Ok bars) <-> (1 <= bars_asked bins)%Z /\ ~ In NInf r /\ exists q, In (Fin q) r.
Proof. exact run_figures. Qed.

(** With a fit whose finite lower bound is not above its slope, as that of the analysis: all rates are numbers and there always is a figure. *)
Theorem C69_always : forall fit visit pm insolation precip ds day_scale thr trim method c pthr minimum exc conf recenter limit step factor res,
  sorted_index pm -> bound_below fit -> srr_run fit visit pm insolation precip ds day_scale thr trim method c pthr minimum exc conf recenter limit step factor = Ok res ->
  (forall t v, In (t, v) (sr_perfect res) -> exists q, v = Fin q /\ q <= 1) /\
  exists qs, qs <> [] /\ valid_rates (sr_intervals res) (map Fin qs) /\ (forall q, In q qs -> q <= 0) /\
    forall bins, (1 <= bars_asked bins)%Z -> exists bars, soiling_rate_histogram (sr_intervals res) bins = Ok bars /\ total bars = List.length qs.
Proof. exact run_always. Qed.

(** Twenty days: two falling stretches with a short one between them, a gap of two days
    without data and a last falling stretch. *)
Definition day (k : Z) : Z := (k * ns_day)%Z.
Definition levels : list fl := map (fun z => ff z 100) [100; 98; 96; 94; 92; 90; 100; 98; 100; 98; 96; 94; 92; 90]%Z ++ [NaN; NaN] ++ map (fun z => ff z 100) [95; 93; 91; 89]%Z.
Definition daily_pm : series := combine (map (fun k => day (Z.of_nat k)) (seq 0 20)) levels.
Definition sunshine : series := map (fun r => (fst r, fz 5)) daily_pm.
Definition no_margin : list (Z * Qc) -> Qc := fun _ => 0.
Definition demo_table : result (fl * list day_row) := calc_daily_df daily_pm sunshine None 1 (Some (ff 1 100)) false "shift" (fz 0) (ff 3 2).
Definition demo_rows : list day_row := match demo_table with Ok p => snd p | Raise _ => [] end.
Definition demo_result : result srr_intervals := calc_result_df (theil_fit no_margin) demo_rows false (fz 500) (ff 1 20) 3.
Definition demo_intervals : srr_intervals := match demo_result with Ok s => s | Raise _ => SrrIntervals [] [] end.
Definition half_draws : draws := Draws (fun _ => qf 1 2) (fun _ => qf 1 2) (fun _ => qf 1 2).

Definition number (v : fl) : option Q := match v with Fin q => Some (this q) | _ => None end.
Definition demo_run : result srr_result := srr_run (theil_fit no_margin) zset daily_pm sunshine None [half_draws; half_draws] 1 (Some (ff 1 100)) false "random_clean" "shift" (fz 0) 3
    (qz 95) (qf 684 10) false (fz 500) (ff 1 20) (ff 3 2).
Definition demo_res : srr_result := match demo_run with Ok r => r | Raise _ => SrrResult NaN NaN NaN NaN NaN [] [] [] end.
Example C69_example :
  match soiling_rate_histogram (sr_intervals demo_res) (Some 2%Z) with Ok bars => map b_height bars = [0; 3]%nat /\ total bars = 3%nat | Raise _ => False end /\
  soiling_rate_histogram (sr_intervals demo_res) (Some 0%Z) = Raise ValueError /\
  map number (map snd (snd (soiling_interval_plot (sr_renorm demo_res) (sr_perfect demo_res) daily_pm))) =
    map Some [1; 49 # 50; 24 # 25; 47 # 50; 23 # 25; 9 # 10; 1; 49 # 50; 24 # 25; 47 # 50; 23 # 25; 1; 49 # 50; 24 # 25; 47 # 50]%Q /\
  List.length (snd (soiling_monte_carlo_plot (fz 2) (sr_profiles demo_res) daily_pm (Some 1%Z))) = 1%nat /\
  snd (soiling_monte_carlo_plot (fz 2) [3; 4; 5]%nat daily_pm (Some (-2)%Z)) = [3]%nat /\
  map number (map snd (fst (soiling_monte_carlo_plot (fz 2) [3]%nat [(0%Z, fz 1); (1%Z, NaN)] None))) = [Some (1 # 2)%Q; None].
Proof.
  split; [vm_compute; split; reflexivity |]. split; [vm_compute; reflexivity |]. split; [vm_compute; reflexivity |]. split; [vm_compute; reflexivity |]. split; [vm_compute; reflexivity | vm_compute; reflexivity].
Qed.
Example C69_hypotheses : sorted_index daily_pm /\ bound_below (theil_fit no_margin) /\ demo_run = Ok demo_res /\ exists r, valid_rates (sr_intervals demo_res) r.
Proof.
  split; [unfold sorted_index; cbn; repeat (constructor; [| repeat constructor]); constructor |]. split; [apply theil_bound_below; intros pts; apply Qcle_refl |].
  split; [vm_compute; reflexivity | apply rates_exist].
Qed.

Print Assumptions C69_monte_carlo.
Print Assumptions C69_intervals.
Print Assumptions C69_rates.
Print Assumptions C69_run.
Print Assumptions C69_always.
