(** C73: an availability analysis in another unit of power *)

From Coq Require Import QArith Qcanon List ZArith Bool Arith Lia Permutation Sorted.
From Verif.Base Require Import QcExtra ISort Quantile Fl TimeSeries Calendar Rolling.
From Verif.Spec Require Import Interp Energy AvailabilityUnits.
From Verif.Model Require Import Energy Clipping Availability.
From Verif.Proofs Require Import AvailP13.
Import ListNotations.
Open Scope list_scope.
Open Scope Qc_scope.
From Verif.Props Require Import C57.

(** Powers, meter, thresholds and limits in another unit, the expected power in any unit: everything is converted, and availabilities, masks, kinds of outages and errors stay. *)
Theorem C73_units : forall k ke, 0 < k -> 0 < ke -> forall freq index n power sub cum expected low sizes limits quantiles period,
  run freq index n (turn_list k power) (map (turn_list k) sub) (turn_list k cum) (turn_list ke expected) (option_map (turn_list k) low) sizes (option_map (turn_list k) limits) quantiles period =
  rmap (turn_result k) (run freq index n power sub cum expected low sizes limits quantiles period).
Proof. exact run_units. Qed.

(** C57's fourteen hours in kilowatts. *)
Definition kilo : Qc := qf 1 1000.
Definition kilo_run : result availability_result :=
  run None clock 2 (turn_list kilo system) (map (turn_list kilo) inverters) (turn_list kilo meter) (turn_list (qf 7 3) expected_power)
    (Some (turn_list kilo [fz 1; fz 1])) None (Some (turn_list kilo (map (fun _ => fz 90) system))) (qf 1 100, qf 99 100) seven_hours.
Definition same_number (x y : fl) : bool := match x, y with Fin a, Fin b => qeq a b | NaN, NaN => true | _, _ => false end.
Example C73_example :
  let plain := run None clock 2 system inverters meter expected_power (Some [fz 1; fz 1]) None (Some (map (fun _ => fz 90) system)) (qf 1 100, qf 99 100) seven_hours in
  kilo_run = rmap (turn_result kilo) plain /\
  match kilo_run with
  | Ok r => List.length (r_outages r) = 1%nat /\ forallb (fun o => match o_type o with Real => true | _ => false end) (r_outages r) = true /\
            forallb (fun p => same_number (fst (fst (snd (fst p)))) (snd p)) (combine (r_results r) [ff 3 10; ff 19 100]) = true
  | Raise _ => False
  end.
Proof. split; [exact (C73_units kilo (qf 7 3) ltac:(reflexivity) ltac:(reflexivity) None clock 2%nat system inverters meter expected_power (Some [fz 1; fz 1]) None (Some (map (fun _ => fz 90) system)) (qf 1 100, qf 99 100) seven_hours) |]. vm_compute. auto. Qed.

Print Assumptions C73_units.
