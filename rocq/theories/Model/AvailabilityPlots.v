(** The figure of an availability analysis and the object it is made from,
    /repo/rdtools/plotting.py:340-431 and availability.py:566-638.

    As in Model/Availability.v the index is strictly increasing and slices are slices by position;
    only the data handed to matplotlib are given. *)

From Coq Require Import QArith Qcanon List ZArith Bool Arith.
From Verif.Base Require Import QcExtra Fl TimeSeries.
From Verif.Model Require Import Energy Availability.
Import ListNotations.
Open Scope Qc_scope.

(** An outage: the expected production, and the bar at its end with the lengths below and above. *)
Record outage_mark : Type := OutageMark { k_curve : series; k_time : Z; k_energy : fl; k_below : fl; k_above : fl }.
(** plotting.py:413-427 for one outage. *)
Definition mark_outage (index : list Z) (energy_expected_rescaled : list fl) (o : outage) : result outage_mark :=
  let a := o_start o in
  let b := o_end o in
  let curve := combine (slice a b index) (map (fun x => fadd x (o_energy_start o)) (fcumsum (slice a b energy_expected_rescaled))) in   (* 421-422 *)
  match rev curve with
  | [] => Raise IndexError                                                                    (* 425 *)
  | (_, energy_end) :: _ =>
    Ok (OutageMark curve (nth b index 0%Z) energy_end (fabs (fsub (o_expected o) (o_ci_lower o))) (fabs (fsub (o_expected o) (o_ci_upper o))))   (* 420, 426 *)
  end.
Fixpoint mark_outages (index : list Z) (energy : list fl) (os : list outage) : result (list outage_mark) :=
  match os with
  | [] => Ok []
  | o :: os' => bind (mark_outage index energy o) (fun k => bind (mark_outages index energy os') (fun ks => Ok (k :: ks)))
  end.

Record availability_figure : Type := AvailabilityFigure {
  v_system : series; v_subsystems : list (Z * list fl); v_lost : series; v_meter : series; v_outages : list outage_mark }.
Definition availability_summary_plots (index : list Z) (power_system : list fl) (power_subsystem : list (list fl)) (loss_total energy_cumulative energy_expected_rescaled : list fl)
    (outages : list outage) : result availability_figure :=
  bind (mark_outages index energy_expected_rescaled outages) (fun marks =>
  Ok (AvailabilityFigure (combine index power_system) (combine index power_subsystem) (combine index loss_total) (combine index energy_cumulative) marks)).

(** ** The object *)

(** What is given when it is made. *)
Record plant : Type := Plant {
  p_freq : option Z; p_index : list Z; p_count : nat; p_system : list fl; p_subsystem : list (list fl); p_meter : list fl; p_expected : list fl }.
(** The arguments of [run]. *)
Record run_options : Type := RunOptions {
  g_low : option (list fl); g_sizes : option (list fl); g_limits : option (list fl); g_quantiles : Qc * Qc; g_period : Z -> Z }.
(** The attributes [energy_expected_rescaled], [outage_info] and [loss_total], if they are set. *)
Record attributes : Type := Attributes { a_energy : option (list fl); a_outages : option (list outage); a_total : option (list fl) }.
Definition fresh : attributes := Attributes None None None.

Definition run_of (p : plant) (g : run_options) : result availability_result :=
  run (p_freq p) (p_index p) (p_count p) (p_system p) (p_subsystem p) (p_meter p) (p_expected p) (g_low g) (g_sizes g) (g_limits g) (g_quantiles g) (g_period g).

(** [run], 566-618, as a change of the attributes; they keep what was set before an exception. *)
Definition run_object (p : plant) (g : run_options) (s : attributes) : attributes * result unit :=
  let index := p_index p in
  let (masks, loss) := calc_loss_subsystem (p_count p) (g_low g) (g_sizes g) (g_limits g) (p_system p) (p_subsystem p) in
  let scaled := rescaled (normal_rows loss (p_system p) (p_expected p)) (p_system p) (p_expected p) in
  match energy_from_power (p_freq p) (combine index scaled) None None RightLabeled with      (* 334 *)
  | Raise e => (s, Raise e)
  | Ok energy =>
    let s1 := Attributes (Some (values_on index energy)) (a_outages s) (a_total s) in         (* 335 *)
    match calc_error_distributions (p_freq p) index loss (p_system p) (p_expected p) (g_quantiles g) with
    | Raise e => (s1, Raise e)
    | Ok x =>
      let runs := outage_runs (full_outage (daylight_offline masks (p_expected p))) in
      if match runs, e_lower x with _ :: _, [] => true | _, _ => false end then (s1, Raise IndexError) else
      let s2 := Attributes (a_energy s1) (Some (map (outage_info x (p_meter p)) runs)) (a_total s) in        (* 495 *)
      match calc_loss_system (p_freq p) index masks x (p_expected p) (p_meter p) with
      | Raise e => (s2, Raise e)
      | Ok r =>
        let s3 := Attributes (a_energy s2) (a_outages s2) (Some (zip fadd (fst (snd r)) loss)) in            (* 545 *)
        (s3, bind (combine_losses (p_freq p) (g_period g) index (fst (snd r)) loss (snd (snd r))) (fun _ => Ok tt))
      end
    end
  end.

(** [plot], 620-638. *)
Definition plot_object (p : plant) (s : attributes) : result availability_figure :=
  match a_total s with
  | None => Raise TypeError                                                                   (* 630-633 *)
  | Some total =>
    match a_energy s, a_outages s with
    | Some energy, Some outages => availability_summary_plots (p_index p) (p_system p) (p_subsystem p) total (p_meter p) energy outages
    | _, _ => Raise AttributeError
    end
  end.
