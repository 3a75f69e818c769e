(** What one fit of the CODS decomposition is given and what it changes. *)

From Coq Require Import Qcanon List ZArith Bool.
From Verif.Base Require Import QcExtra Fl.
From Verif.Spec Require Import CodsRun.
Import ListNotations.
Open Scope Qc_scope.

(** Row by row quotient of two columns (what is divided by zero is left open). *)
Definition quotient (a b out : list fl) : Prop :=
  List.length out = Nat.min (List.length a) (List.length b) /\
  (forall i p q, value_at a i p -> value_at b i q -> q <> 0 -> exists r, value_at out i r /\ r * q = p) /\
  (forall i x y, nth_error a i = Some x -> nth_error b i = Some y -> x = NaN \/ y = NaN -> missing_at out i).
(** Every row divided by one number. *)
Definition over (a : list fl) (d : Qc) (out : list fl) : Prop :=
  List.length out = List.length a /\
  (forall i p, value_at a i p -> exists r, value_at out i r /\ r * d = p) /\
  (forall i, missing_at a i -> missing_at out i).
(** Either of two columns of events. *)
Definition either (a b out : list bool) : Prop :=
  List.length out = Nat.min (List.length a) (List.length b) /\
  forall i x y, nth_error a i = Some x -> nth_error b i = Some y -> nth_error out i = Some (x || y).
