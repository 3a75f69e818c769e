(** Specification: a system that gives exactly what is expected of it, or nothing. *)

From Coq Require Import QArith Qcanon List ZArith Bool Arith.
From Verif.Base Require Import QcExtra Fl.
From Verif.Spec Require Import Availability Available.
Import ListNotations.
Open Scope Qc_scope.

(** At each row everything runs and gives [c] times the expected power, or nothing runs. *)
Definition exactly_or_not (thr : list Qc) (rows : list (list fl)) (c : Qc) (q : nat -> Qc) (power : list fl) : Prop :=
  forall i row, nth_error rows i = Some row -> exists p, nth_error power i = Some (Fin p) /\
    ((all_on thr row /\ 0 < q i /\ p = c * q i) \/ (all_off thr row /\ p <= 0)).

(** Nothing runs although power is expected. *)
Definition failed (thr : list Qc) (rows : list (list fl)) (q : nat -> Qc) (i : nat) : Prop :=
  0 < q i /\ exists row, nth_error rows i = Some row /\ all_off thr row.
(** Row [i] failed, or only darkness is between it and a failed row. *)
Definition down (thr : list Qc) (rows : list (list fl)) (q : nat -> Qc) (i : nat) : Prop :=
  exists j, failed thr rows q j /\ forall k, ((i <= k < j) \/ (j < k <= i))%nat -> q k <= 0.
Definition down_from_to (thr : list Qc) (rows : list (list fl)) (q : nat -> Qc) (a b : nat) : Prop :=
  maximal_run (length rows) (down thr rows q) a b.

(** The energy of the rows [a .. b] at [c] times the expected power; the very first row has none. *)
Definition missed (h c : Qc) (q : nat -> Qc) (a b : nat) : Qc := sum_rows (fun i => if (i =? 0)%nat then 0 else c * q i * h) a b.

(** A meter that counts the energy of the rows. *)
Definition counts (h : Qc) (power : list fl) (m : nat -> Qc) : Prop :=
  forall i p, nth_error power (S i) = Some (Fin p) -> m (S i) = m i + p * h.
