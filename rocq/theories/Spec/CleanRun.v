(** Irradiance and insolation without negative values. *)

From Coq Require Import Qcanon List ZArith.
From Verif.Base Require Import QcExtra Fl.
Import ListNotations.
Open Scope Qc_scope.

(** Every value is missing or a number that is not negative. *)
Definition no_negative (s : series) : Prop := forall t x, In (t, x) s -> x = NaN \/ exists q, x = Fin q /\ 0 <= q.
