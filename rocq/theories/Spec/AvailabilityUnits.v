(** Specification: the same availability data in another unit of power and energy. *)

From Coq Require Import QArith Qcanon List ZArith Bool.
From Verif.Base Require Import QcExtra Fl TimeSeries.
From Verif.Model Require Import Availability.
Import ListNotations.
Open Scope list_scope.
Open Scope Qc_scope.

(** [k] of the new unit make one of the old. *)
Definition turned (k : Qc) (x : fl) : fl := fmul (Fin k) x.
Definition turn_list (k : Qc) (l : list fl) : list fl := map (turned k) l.

(** Counts, rows, types of outages and relative errors stay. *)
Definition turn_expectation (k : Qc) (e : expectation) : expectation :=
  Expectation (turn_list k (e_power e)) (turn_list k (e_energy e)) (e_lower e) (e_upper e).
Definition turn_outage (k : Qc) (o : outage) : outage :=
  Outage (o_start o) (o_end o) (o_daylight o) (turned k (o_expected o)) (turned k (o_energy_start o)) (turned k (o_energy_end o))
         (turned k (o_actual o)) (turned k (o_ci_lower o)) (turned k (o_ci_upper o)) (o_type o) (turned k (o_loss o)).
(** Lost and actual production are converted, the availability stays. *)
Definition turn_row (k : Qc) (r : Z * (fl * fl * fl)) : Z * (fl * fl * fl) :=
  match r with (p, (lost, actual, availability)) => (p, (turned k lost, turned k actual, availability)) end.
Definition turn_result (k : Qc) (r : availability_result) : availability_result :=
  AvailabilityResult (r_masks r) (turn_list k (r_loss_subsystem r)) (turn_expectation k (r_expectation r)) (map (turn_outage k) (r_outages r))
    (turn_list k (r_loss_system r)) (turn_list k (r_corrected r)) (map (turn_row k) (r_results r)).
