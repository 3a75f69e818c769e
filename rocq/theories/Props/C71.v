(** C71: what the plots of a TrendAnalysis show *)

From Coq Require Import QArith Qcanon List ZArith Bool Arith Lia Permutation Sorted.
From Verif.Base Require Import QcExtra ISort Quantile Fl TimeSeries Calendar Rolling.
From Verif.Spec Require Import Stats Time YoY Plots TrendRuns TrendCalls TrendPlots.
From Verif.Model Require Import Utilities Bootstrap YearOnYear Normalization Plots FilterDict TrendAnalysis TrendPlots.
From Verif.Proofs Require Import TrendP4 TrendP5 TrendP10 TrendP11.
Import ListNotations.
Open Scope list_scope.
Open Scope Qc_scope.
From Coq Require Import String.
From Verif.Props Require Import YoYDemo C54.

Section Claims.
Context {P W T O YK SK YR SR F : Type}.
Local Notation env := (environment P W T O YK SK YR SR).
Local Notation st := (state P W T O YR SR).
Local Notation req := (@request YK SK).


(** After any calls: the results of the last one that succeeds with the performance they were computed from; a KeyError for an analysis it was not asked for, or if none succeeds. *)
Theorem C71_history : forall (E : env) (qs : list req) (c : case) (s : st) (draw : YR -> option series -> result F) (draw' : YR -> result F) (drawn : SR -> option series -> result F) (drawn' : SR -> result F), d_result (side_of c s) = None ->
  (exists before q after p i, qs = before ++ q :: after /\ q_case q = c /\ snd (analyse E q s) = Ok tt /\ (forall q', In q' after -> q_case q' = c -> snd (analyse E q' s) <> Ok tt) /\
     d_performance (side_of c (after_calls E qs s)) = Present p /\ d_insolation (side_of c (after_calls E qs s)) = Present i /\
     (In "yoy_degradation"%string (q_names q) -> exists r, e_yoy E (q_yoy q) p = Ok r /\ plot_degradation_summary draw (name_of c) (after_calls E qs s) = draw r (Some p) /\
        plot_degradation_timeseries draw' (name_of c) (after_calls E qs s) = draw' r) /\
     (~ In "yoy_degradation"%string (q_names q) -> plot_degradation_summary draw (name_of c) (after_calls E qs s) = Raise KeyError /\ plot_degradation_timeseries draw' (name_of c) (after_calls E qs s) = Raise KeyError) /\
     (In "srr_soiling"%string (q_names q) -> exists r, e_srr E (q_srr q) p i = Ok r /\ plot_soiling_monte_carlo drawn (name_of c) (after_calls E qs s) = drawn r (Some p) /\
        plot_soiling_interval drawn (name_of c) (after_calls E qs s) = drawn r (Some p) /\ plot_soiling_rate_histogram drawn' (name_of c) (after_calls E qs s) = drawn' r) /\
     (~ In "srr_soiling"%string (q_names q) -> plot_soiling_monte_carlo drawn (name_of c) (after_calls E qs s) = Raise KeyError /\
        plot_soiling_interval drawn (name_of c) (after_calls E qs s) = Raise KeyError /\ plot_soiling_rate_histogram drawn' (name_of c) (after_calls E qs s) = Raise KeyError)) \/
  ((forall q, In q qs -> q_case q = c -> snd (analyse E q s) <> Ok tt) /\
     plot_degradation_summary draw (name_of c) (after_calls E qs s) = Raise KeyError /\ plot_degradation_timeseries draw' (name_of c) (after_calls E qs s) = Raise KeyError /\
     plot_soiling_monte_carlo drawn (name_of c) (after_calls E qs s) = Raise KeyError /\ plot_soiling_interval drawn (name_of c) (after_calls E qs s) = Raise KeyError /\
     plot_soiling_rate_histogram drawn' (name_of c) (after_calls E qs s) = Raise KeyError).
Proof. exact plots_after. Qed.

(** A failing call, in any state, keeps the plots of the results alone. *)
Theorem C71_failed : forall {A} (key : outcome YR SR -> option A) (draw : A -> result F) (E : env) (q : req) (s : st) e name, snd (analyse E q s) = Raise e ->
  plot_entry key draw name (fst (analyse E q s)) = plot_entry key draw name s.
Proof. exact (@failing_entry P W T O YK SK YR SR F). Qed.

(** The plots of the other case are not changed. *)
Theorem C71_other : forall {A} (key : outcome YR SR -> option A) (draw : A -> option series -> result F) (draw' : A -> result F) (E : env) (q : req) (s : st),
  let c := other (q_case q) in
  plot_with_performance key draw (name_of c) (fst (analyse E q s)) = plot_with_performance key draw (name_of c) s /\ plot_entry key draw' (name_of c) (fst (analyse E q s)) = plot_entry key draw' (name_of c) s.
Proof. exact (@other_plots P W T O YK SK YR SR F). Qed.

(** There are two cases. *)
Theorem C71_name : forall {A} (key : outcome YR SR -> option A) (draw : A -> option series -> result F) (draw' : A -> result F) name (s : st),
  name <> "sensor"%string -> name <> "clearsky"%string ->
  plot_with_performance key draw name s = Raise ValueError /\ plot_entry key draw' name s = Raise ValueError /\ plot_pv_vs_irradiance name s = Raise ValueError.
Proof. exact (@plot_other P W T O YR SR F). Qed.

(** The scatter plot: energy against irradiance at the times both have. *)
Theorem C71_scatter : forall c (s : st),
  match match c with Sensor => Ok (i_poa (s_inputs s)) | Clearsky => read (c_clear_poa (s_completed s)) end, i_energy (s_inputs s) with
  | Raise _, _ | Ok _, Unset => plot_pv_vs_irradiance (name_of c) s = Raise AttributeError
  | Ok None, _ | Ok _, Absent => plot_pv_vs_irradiance (name_of c) s = Raise IndexError
  | Ok (Some poa), Present energy => StronglySorted Z.lt (times poa) -> StronglySorted Z.lt (times energy) -> exists l, plot_pv_vs_irradiance (name_of c) s = Ok l /\ paired poa energy l
  end.
Proof. exact scatter_spec. Qed.

End Claims.

Section Run.
Context {P W T O YK SK SR : Type}.
Context (infer : list Z -> option (Z -> Z)) (sortv : series -> series) (choice : nat -> list (list nat)) (starts : list (list nat)).
Context (recenter : YK -> bool) (ep cl : YK -> Qc).
Local Notation env := (environment P W T O YK SK yoy_out SR).
Local Notation st := (state P W T O yoy_out SR).
Local Notation req := (@request YK SK).

(** With the year-on-year function and the figures of the library: the trend is drawn, with the rate as its level; the summary if
    there are bars, and its points are coloured by the uses of the aggregated performance. *)
Theorem C71_figures : forall (E : env) (qs : list req) (c : case) (s : st) o z lower upper days ci bins detailed,
  (forall k p, e_yoy E k p = degradation_year_on_year infer sortv choice starts (recenter k) (ep k) (cl k) Simple p) -> sorts_by_shifted sortv ->
  (0 < i_width (s_inputs s))%Z -> d_result (side_of c s) = None -> d_result (side_of c (after_calls E qs s)) = Some (Outcome (Some o) z) ->
  exists p, d_performance (side_of c (after_calls E qs s)) = Present p /\ Sorted Z.lt (times p) /\
    (exists info i, info_of Simple o = Some info /\ yo_ci o = Some i /\
       plot_degradation_timeseries (draw_trend lower upper days ci) (name_of c) (after_calls E qs s) = degradation_timeseries_plot lower upper info days ci /\
       plot_degradation_summary (draw_summary bins detailed) (name_of c) (after_calls E qs s) = degradation_summary_plots (yo_rate o) i info p bins detailed) /\
    (exists f, plot_degradation_timeseries (draw_trend lower upper days ci) (name_of c) (after_calls E qs s) = Ok f /\ map fst (t_curve f) = times (yo_values o) /\ t_level f = yo_rate o) /\
    (forall qv, vals (yo_values o) = map Fin qv ->
       ((exists f, plot_degradation_summary (draw_summary bins detailed) (name_of c) (after_calls E qs s) = Ok f) <-> match bins with Some b => (1 <= b)%Z | None => (40 <= List.length qv)%nat end)) /\
    (forall f, plot_degradation_summary (draw_summary bins detailed) (name_of c) (after_calls E qs s) = Ok f ->
       map fst (m_points f) = map (fun r => (fst r, fdiv (snd r) (yo_renorm o))) p /\ m_mark f = yo_rate o /\ m_rate f = yo_rate o /\
       (detailed = true -> exists pick, partner_choice p pick /\ values_of_pairs p pick (yo_renorm o) (yo_values o) /\
          forall k t v, nth_error p k = Some (t, v) -> exists col, nth_error (m_points f) k = Some ((t, fdiv v (yo_renorm o)), Some col) /\
            let used_last := ends_pair (yo_values o) t in
            let used_first := exists dt, first_picked p pick t dt /\ ends_pair (yo_values o) dt in
            (col = Red <-> ~ used_last /\ ~ used_first) /\ (col = Chosen <-> used_last /\ used_first))).
Proof. exact (figures_after infer sortv choice starts recenter ep cl). Qed.
End Run.

(** If parameters are changed between a call that succeeds and one that fails, the summary shows the old results with the new performance. *)
Theorem C71_mixed_refuted : exists (E : environment nat unit unit unit unit unit nat nat) (q : @request unit unit) s k v params r p p',
  let s1 := fst (analyse E q s) in
  let s2 := State (s_inputs s1) (set_params params (s_completed s1)) (s_sensor s1) (s_clear s1) in
  let show := plot_degradation_summary (fun r p => Ok (r, p)) "sensor"%string in
  snd (analyse E q s) = Ok tt /\ show s1 = Ok (r, Some p) /\ e_yoy E (q_yoy q) p = Ok r /\
  set_item k v (c_params (s_completed s1)) = Ok params /\ snd (analyse E q s2) = Raise ValueError /\
  show (fst (analyse E q s2)) = Ok (r, Some p') /\ e_yoy E (q_yoy q) p' <> Ok r.
Proof.
  assert (exists s1 p params p', fst (analyse demo_env good long) = s1 /\ plot_degradation_summary (fun r p => Ok (r, p)) "sensor"%string s1 = Ok (3%nat, Some p) /\
    e_yoy demo_env tt p = Ok 3%nat /\ set_item "clip_filter"%string (Kwargs 3%nat) (c_params (s_completed s1)) = Ok params /\
    let s2 := State (s_inputs s1) (set_params params (s_completed s1)) (s_sensor s1) (s_clear s1) in
    snd (analyse demo_env good s2) = Raise ValueError /\ plot_degradation_summary (fun r p => Ok (r, p)) "sensor"%string (fst (analyse demo_env good s2)) = Ok (3%nat, Some p') /\ List.length p' = 2%nat) as (s1 & p & params & p' & E1 & E2 & E3 & E4 & E5 & E6 & E7).
  { do 4 eexists. split; [reflexivity |]. split; [vm_compute; reflexivity |]. split; [vm_compute; reflexivity |]. split; [vm_compute; reflexivity |]. cbv zeta. split; [vm_compute; reflexivity |]. split; vm_compute; reflexivity. }
  exists demo_env, good, long, "clip_filter"%string, (Kwargs 3%nat), params, 3%nat, p, p'. cbv zeta in *. rewrite E1. split; [vm_compute; reflexivity |]. split; [exact E2 |]. split; [exact E3 |]. split; [exact E4 |]. split; [exact E5 |]. split; [exact E6 |].
  cbn [e_yoy demo_env]. rewrite E7. discriminate.
Qed.

(** The object of C54: results are drawn after a success, and there is nothing for soiling or clear sky. *)
Example C71_example :
  let s := after_calls demo_env [both; good; C54.clear; both] long in
  plot_degradation_timeseries (fun r => Ok r) "sensor" s = Ok 3%nat /\ plot_degradation_timeseries (fun r => Ok r) "clearsky" s = Raise KeyError /\
  plot_soiling_rate_histogram (fun r => Ok r) "sensor" s = Raise KeyError /\ plot_degradation_timeseries (fun r => Ok r) "Sensor" s = Raise ValueError /\
  (exists p, plot_degradation_summary (fun r p => Ok (r, p)) "sensor" s = Ok (3%nat, Some p) /\ List.length p = 3%nat) /\
  plot_pv_vs_irradiance "clearsky" s = Raise AttributeError /\ (exists l, plot_pv_vs_irradiance "sensor" s = Ok l /\ List.length l = 3%nat).
Proof.
  repeat (split; [vm_compute; reflexivity |]). split; [eexists; split; [vm_compute; reflexivity | reflexivity] |]. split; [vm_compute; reflexivity |].
  eexists. split; [vm_compute; reflexivity | vm_compute; reflexivity].
Qed.

(** The same object with the year-on-year function of the library. *)
Definition run_env : environment nat unit unit unit unit unit yoy_out nat :=
  Environment (fun _ => Some year) (fun _ => Some year) (fun _ x => x) tt tt (fun _ _ a _ => Ok a) (fun _ _ _ => Raise ValueError) (fun _ _ => Raise ValueError)
    above above above above (fun n _ s => above n s) (fun n s _ => above n s) above above above above
    (fun _ => degradation_year_on_year demo_infer demo_sortv demo_choice [] false (qz 95) (qz 68) Simple) (fun _ s _ => Ok (List.length s)).
Definition fresh : state nat unit unit unit yoy_out nat :=
  match construct_analysis run_env 0%nat (yearly [fz 5; fz 4; fz 4; fz 3]) (Some (yearly [fz 8; fz 8; fz 8; fz 8])) None None None year PvPower tt (Some (yearly [fz 6; fz 6; fz 6; fz 6])) None None None None with
  | Ok s => s | Raise _ => State (Inputs Unset Unset None None None 0 tt None None None Unset None) (Completed None None Unset Unset Unset (Validated [] []) (Validated [] [])) empty_side empty_side end.
Example C71_run_example :
  let s := after_calls run_env [both; good; C54.clear; both] fresh in
  (0 < i_width (s_inputs fresh))%Z /\ d_result (s_sensor fresh) = None /\
  (exists o, d_result (s_sensor s) = Some (Outcome (Some o) None) /\ List.length (yo_values o) = 1%nat) /\
  (exists f, plot_degradation_timeseries (draw_trend (fun _ _ => []) (fun _ _ => []) 365 false) "sensor" s = Ok f) /\
  (exists f, plot_degradation_summary (draw_summary (Some 1%Z) true) "sensor" s = Ok f /\ map snd (m_points f) = [Some Green; Some Green; Some Red]) /\
  plot_degradation_summary (draw_summary None true) "sensor" s = Raise ValueError.
Proof.
  split; [vm_compute; reflexivity |]. split; [vm_compute; reflexivity |]. split; [eexists; split; [vm_compute; reflexivity | vm_compute; reflexivity] |].
  split; [eexists; vm_compute; reflexivity |]. split; [eexists; split; [vm_compute; reflexivity | vm_compute; reflexivity] |]. vm_compute. reflexivity.
Qed.

Print Assumptions C71_figures.
Print Assumptions C71_mixed_refuted.

Print Assumptions C71_history.
Print Assumptions C71_failed.
Print Assumptions C71_other.
Print Assumptions C71_name.
Print Assumptions C71_scatter.
