(** Specification: the same soiling data in other units and at another time. *)

From Coq Require Import QArith Qcanon List ZArith Bool String.
From Verif.Base Require Import QcExtra Fl TimeSeries.
From Verif.Model Require Import Soiling.
Import ListNotations.
Open Scope list_scope.
Open Scope Qc_scope.

(** Values in another unit, [k] of which make one of the old. *)
Definition in_unit_of (k : Qc) (x : fl) : fl := fmul (Fin k) x.
(** A column measured in another unit and dated [c] nanoseconds later. *)
Definition rewritten (k : Qc) (c : Z) (s : series) : series := map (fun r => ((fst r + c)%Z, in_unit_of k (snd r))) s.

(** An interval of the table, dated [c] later and otherwise the same. *)
Definition later (c : Z) (i : interval) : interval :=
  Interval (i_start i + c) (i_end i + c) (i_length i) (i_run i) (i_slope i) (i_slope_low i) (i_slope_high i) (i_max_neg_step i)
           (i_start_loss i) (i_end_loss i) (i_valid i).
(** A result with the renormalizing factor in another unit, dated [c] later and otherwise the same. *)
Definition restated (k : Qc) (c : Z) (r : srr_result) : srr_result :=
  SrrResult (sr_median r) (sr_low r) (sr_high r) (sr_exceedance r) (in_unit_of k (sr_renorm r)) (sr_profiles r)
            (map (later c) (sr_intervals r)) (map (fun p => ((fst p + c)%Z, snd p)) (sr_perfect r)).
Definition outcome {A B} (f : A -> B) (x : result A) : result B := match x with Ok a => Ok (f a) | Raise e => Raise e end.
