(** Specifications of the annual and monthly summaries. *)

From Coq Require Import QArith Qcanon List ZArith Bool.
From Verif.Base Require Import QcExtra Fl TimeSeries Calendar.
From Verif.Model Require Import Soiling.
From Verif.Spec Require Import SoilingTable.
Import ListNotations.
Open Scope list_scope.
Open Scope Qc_scope.

(** Every realisation has a value at [t]. *)
Definition complete (profiles : list series) (t : Z) : bool := forallb (fun p => notnan (lookup p t)) profiles.
(** Values of one realisation in a year with their insolation, where known. *)
Definition year_rows (profiles : list series) (insolation : series) (y : Z) (p : series) : list (Qc * Qc) :=
  flat_map (fun t => match lookup p t, lookup insolation t with Fin v, Fin w => [(v, w)] | _, _ => [] end)
    (filter (fun t => complete profiles t && (ts_year t =? y)%Z) (times p)).

(** Days of an interval: steps of a day from its start up to its end; those in a month. *)
Definition day_of (i : interval) (t : Z) : Prop := exists k, (0 <= k)%Z /\ t = (i_start i + k * ns_day)%Z /\ (t <= i_end i)%Z.
Definition has_days (i : interval) (P : Z -> Prop) (n : Z) : Prop :=
  exists l, NoDup l /\ Z.of_nat (List.length l) = n /\ forall t, In t l <-> day_of i t /\ P t.
Definition zsum (l : list Z) : Z := fold_right Z.add 0%Z l.

(** The samples drawn for interval [k] with bounds [b]. *)
Definition samples (u : nat -> nat -> Qc) (k : nat) (b : Qc * Qc) (n : Z) : list Qc := map (fun j => between b (u k j)) (seq 0 (Z.to_nat n)).
