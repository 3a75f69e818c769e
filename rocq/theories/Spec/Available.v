(** Specification: a system whose equipment keeps running. *)

From Coq Require Import QArith Qcanon List ZArith Bool Arith.
From Verif.Base Require Import QcExtra Fl.
From Verif.Spec Require Import Availability.
Import ListNotations.
Open Scope Qc_scope.

(** Every (no) subsystem gives more than its threshold; unknown power counts as zero. *)
Definition all_on (thr : list Qc) (row : list fl) : Prop := Forall2 (fun t x => t < known_or_0 x) thr row.
Definition all_off (thr : list Qc) (row : list fl) : Prop := Forall2 (fun t x => known_or_0 x <= t) thr row.

(** No power is expected. *)
Definition dark (e : fl) : Prop := e <> PInf /\ forall q, e = Fin q -> q <= 0.

(** Everything runs, except that nothing need run in the dark. *)
Definition keeps_running (thr : list Qc) (rows : list (list fl)) (expected : list fl) : Prop :=
  forall i row, nth_error rows i = Some row ->
    all_on thr row \/ (all_off thr row /\ exists e, nth_error expected i = Some e /\ dark e).

(** Rows in which power is expected and given. *)
Definition produces (power expected : list fl) (i : nat) : bool :=
  match nth i power NaN, nth i expected NaN with
  | Fin p, Fin e => qlt 0 p && qlt 0 e
  | _, _ => false
  end.
Definition producing (power expected : list fl) : nat := length (filter (produces power expected) (seq 0 (length power))).
