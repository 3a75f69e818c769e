(** What the figure of an availability analysis shows. *)

From Coq Require Import QArith Qcanon List ZArith Bool.
From Verif.Base Require Import QcExtra Fl TimeSeries.
From Verif.Spec Require Import Stats Availability.
From Verif.Model Require Import Availability AvailabilityPlots.
Import ListNotations.
Open Scope Qc_scope.

(** The expected production of the rows [a .. b] on top of the meter reading [s]; gaps where the
    expected energy is missing. *)
Definition production_shown (index : list Z) (energy : list fl) (a b : nat) (s : Qc) (curve : series) : Prop :=
  length curve = (S b - a)%nat /\
  forall j, (a + j <= b)%nat -> exists t v, nth_error index (a + j) = Some t /\ nth_error energy (a + j) = Some v /\
    ((v = NaN /\ nth_error curve j = Some (t, NaN)) \/
     (exists q, v = Fin q /\ nth_error curve j = Some (t, Fin (s + sum_rows (known_at energy) a (a + j))))).
(** The ends of a bar. *)
Definition bar_from (k : outage_mark) (lo hi : Qc) : Prop :=
  exists e d u, k_energy k = Fin e /\ k_below k = Fin d /\ k_above k = Fin u /\ lo = e - d /\ hi = e + u.
