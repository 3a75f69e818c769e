(** Specification: a linear trend added to a series. *)

From Coq Require Import QArith Qcanon List ZArith.
From Verif.Base Require Import QcExtra Fl.
Open Scope Qc_scope.

(** Every value plus [a + b t]. *)
Definition plus_line (a b : Qc) (s : series) : series := map (fun r => (fst r, fadd (snd r) (Fin (a + b * qz (fst r))))) s.

(** The sorting permutation does not depend on the values. *)
Definition moves_rows (sortv : series -> series) : Prop :=
  forall f l, (forall r, fst (f r) = fst r) -> sortv (map f l) = map f (sortv l).
