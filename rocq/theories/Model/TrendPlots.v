(** The plots of a TrendAnalysis, /repo/rdtools/analysis_chains.py:1076-1269.

    The functions of rdtools/plotting.py with their keyword arguments are arguments ([draw]); they
    are modelled in Plots.v.  Only the data of the scatter plot are given. *)

From Coq Require Import List ZArith Bool String.
From Verif.Base Require Import Fl TimeSeries.
From Verif.Model Require Import Bootstrap YearOnYear Plots TrendAnalysis.
Import ListNotations.
Open Scope list_scope.

Section TrendPlots.
Context {P W T O YR SR F : Type}.
Local Notation st := (state P W T O YR SR).

(** The argument [case]. *)
Definition case_named (name : string) : result case :=
  if String.eqb name "sensor" then Ok Sensor else if String.eqb name "clearsky" then Ok Clearsky else Raise ValueError.
(** [self.results[case][key]]. *)
Definition entry {A} (key : outcome YR SR -> option A) (c : case) (s : st) : result A :=
  bind (need KeyError (d_result (side_of c s))) (fun o => need KeyError (key o)).

(** The entry with the aggregated performance. *)
Definition plot_with_performance {A} (key : outcome YR SR -> option A) (draw : A -> option series -> result F) (name : string) (s : st) : result F :=
  bind (case_named name) (fun c => bind (entry key c s) (fun r => bind (read (d_performance (side_of c s))) (fun p => draw r p))).
(** The entry alone. *)
Definition plot_entry {A} (key : outcome YR SR -> option A) (draw : A -> result F) (name : string) (s : st) : result F :=
  bind (case_named name) (fun c => bind (entry key c s) draw).

(** 1076-1109. *)
Definition plot_degradation_summary (draw : YR -> option series -> result F) : string -> st -> result F := plot_with_performance r_yoy draw.
(** 1111-1141 and 1143-1173. *)
Definition plot_soiling_monte_carlo (draw : SR -> option series -> result F) : string -> st -> result F := plot_with_performance r_srr draw.
Definition plot_soiling_interval (draw : SR -> option series -> result F) : string -> st -> result F := plot_with_performance r_srr draw.
(** 1175-1201. *)
Definition plot_soiling_rate_histogram (draw : SR -> result F) : string -> st -> result F := plot_entry r_srr draw.
(** 1242-1269. *)
Definition plot_degradation_timeseries (draw : YR -> result F) : string -> st -> result F := plot_entry r_yoy draw.

(** 1203-1240.  [pd.DataFrame(None)] has no column, so that there is no second column. *)
Definition plot_pv_vs_irradiance (name : string) (s : st) : result (list (fl * fl)) :=
  bind (case_named name) (fun c =>
  bind (match c with Sensor => Ok (i_poa (s_inputs s)) | Clearsky => read (c_clear_poa (s_completed s)) end) (fun poa =>
  bind (read (i_energy (s_inputs s))) (fun energy =>
  match poa, energy with
  | Some poa, Some energy =>
    Ok (flat_map (fun r => map (fun e => (snd r, snd e)) (filter (fun e => (fst e =? fst r)%Z) energy)) poa)
  | _, _ => Raise IndexError
  end))).
End TrendPlots.

(** With the year-on-year analysis and the figures of the library, 1101-1107 and 1268.
    [results_dict["calc_info"]] is that of the simple bootstrap, the default of yoy_degradation. *)
Definition draw_summary (bins : option Z) (detailed : bool) (o : yoy_out) (performance : option series) : result summary_figure :=
  bind (need KeyError (yo_ci o)) (fun ci => bind (need KeyError (info_of Simple o)) (fun info => bind (need TypeError performance) (fun p =>
  degradation_summary_plots (yo_rate o) ci info p bins detailed))).
Definition draw_trend (draw_lower draw_upper : nat -> nat -> list (list nat)) (rolling_days : Z) (include_ci : bool) (o : yoy_out) : result trend_figure :=
  bind (need KeyError (info_of Simple o)) (fun info => degradation_timeseries_plot draw_lower draw_upper info rolling_days include_ci).
