(** Specification: series measured side by side, and their weighted sums. *)

From Coq Require Import QArith Qcanon List ZArith Bool.
From Verif.Base Require Import QcExtra Fl TimeSeries.
Import ListNotations.
Open Scope Qc_scope.

(** Both numbers, or both missing. *)
Definition both_or_none (x y : fl) : Prop := (x = NaN /\ y = NaN) \/ exists p q, x = Fin p /\ y = Fin q.
(** The same times, with values at the same times. *)
Definition side_by_side (x y : series) : Prop := Forall2 (fun r s => fst r = fst s /\ both_or_none (snd r) (snd s)) x y.
(** [a x + b y], time by time. *)
Definition weighted (a : Qc) (x : series) (b : Qc) (y : series) : series :=
  map (fun p => (fst (fst p), fadd (fmul (Fin a) (snd (fst p))) (fmul (Fin b) (snd (snd p))))) (combine x y).
(** The sum of several series, time by time. *)
Definition added (x y : series) : series := map (fun p => (fst (fst p), fadd (snd (fst p)) (snd (snd p)))) (combine x y).
Definition total (x : series) (l : list series) : series := fold_left added l x.

(** Every known value of the first is at most that of the second. *)
Definition nowhere_above (x y : series) : Prop :=
  Forall2 (fun r s => fst r = fst s /\ ((snd r = NaN /\ snd s = NaN) \/ exists p q, snd r = Fin p /\ snd s = Fin q /\ p <= q)) x y.

(** Every known value is at least zero. *)
Definition nowhere_negative (x : series) : Prop := Forall (fun r => snd r = NaN \/ exists q, snd r = Fin q /\ 0 <= q) x.
