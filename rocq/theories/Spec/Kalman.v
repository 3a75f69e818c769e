(** Specification of the soiling component found by the Kalman filter. *)

From Coq Require Import QArith Qcanon List ZArith Bool Arith.
From Verif.Base Require Import QcExtra Fl.
From Verif.Spec Require Import Stats.
Import ListNotations.
Open Scope Qc_scope.

Definition event (ev : list bool) (i : nat) : Prop := nth_error ev i = Some true.
(** [e] is the latest event at or before row [i]. *)
Definition latest_event (ev : list bool) (i e : nat) : Prop := event ev e /\ (e <= i)%nat /\ forall j, (e < j <= i)%nat -> ~ event ev j.
Definition first_event (ev : list bool) (e : nat) : Prop := event ev e /\ forall j, (j < e)%nat -> ~ event ev j.
Definition no_event (ev : list bool) : Prop := forall i, ~ event ev i.

(** [d] days since the latest event, or since the first row. *)
Definition days_since_event (ev : list bool) (i d : nat) : Prop :=
  (exists e, latest_event ev i e /\ d = (i - e)%nat) \/ ((forall e, ~ latest_event ev i e) /\ d = i).

(** Soiling ratio on row [i] if every cleaning is perfect: the level relative to the latest
    cleaning; up to and including the first cleaning, the level relative to the harmonic mean of the levels at later
    latest cleanings. *)
Definition perfect_ratio (ev : list bool) (levels : list Qc) (i : nat) (r : Qc) : Prop :=
  (no_event ev /\ r = 1) \/
  (exists f, first_event ev f /\
    (((f < i)%nat /\ exists e, latest_event ev i e /\ r = nth i levels 0 / nth e levels 0) \/
     ((i <= f)%nat /\ exists inv, length inv = (length levels - f)%nat /\
        (forall j, (j < length inv)%nat -> exists e, latest_event ev (f + j) e /\ nth j inv 0 = / nth e levels 0) /\
        r = nth i levels 0 * (qsum inv / qz (Z.of_nat (length inv)))))).

(** Division by the [q]-quantile of the ratios on the event rows (an event may count more than once). *)
Definition renormalised (q : Qc) (ev : list bool) (before : list Qc) (d : Qc) : Prop :=
  exists l, (forall e, event ev e -> In e l) /\ (forall e, In e l -> event ev e) /\ is_percentile (qz 100 * q) (map (fun e => nth e before 0) l) d.

Definition clipped (clip : bool) (x y : Qc) : Prop := if clip then (x <= 1 /\ y = x) \/ (1 < x /\ y = 1) else y = x.

(** Rows on which the soiling ratio is the same number as on the row before. *)
Definition unchanged (ratio : list fl) (i : nat) : Prop := exists j q, i = S j /\ nth_error ratio j = Some (Fin q) /\ nth_error ratio i = Some (Fin q).
