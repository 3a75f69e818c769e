(** Specification of instantaneous energy for intervals up to the median step. *)

From Coq Require Import QArith Qcanon List ZArith Bool.
From Verif.Base Require Import QcExtra Fl.
From Verif.Spec Require Import Stats Interp Energy.
Import ListNotations.
Open Scope Qc_scope.

(** A step may start at [t]: it is the first row, or the step before it is known too. *)
Definition may_start (power : series) (width : Z) (limit : Qc) (t : Z) : Prop :=
  t = first_time power \/ (qz width <= limit /\ exists q, interp power limit (t - width) (Fin q)).

(** The mean of both ends times the width. *)
Definition mean_of_ends (power : series) (width : Z) (limit : Qc) (t : Z) (e : Qc) : Prop :=
  qz width <= limit /\ may_start power width limit (t - width) /\
  exists q' q, interp power limit (t - width) (Fin q') /\ interp power limit t (Fin q) /\ e = (q + q') / qz 2 * hours width.

(** The last known value, after it; not in the first interval after it unless a step may start there. *)
Definition last_held (power : series) (width : Z) (limit : Qc) (t : Z) (e : Qc) : Prop :=
  exists last q, on_grid power width last /\ interp power limit last (Fin q) /\
    (forall g x, on_grid power width g -> interp power limit g (Fin x) -> (g <= last)%Z) /\
    (last < t)%Z /\ (may_start power width limit last \/ (last + width < t)%Z) /\ e = q * hours width.
