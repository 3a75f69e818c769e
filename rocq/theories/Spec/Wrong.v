(** Specification: records that differ at some times only. *)

From Coq Require Import List ZArith Bool.
From Verif.Base Require Import QcExtra Fl Calendar.
From Verif.Spec Require Import Time YoY Window.
Import ListNotations.
Open Scope Z_scope.

(** The same times, and the same values except at [bad] ones. *)
Definition differ_at (bad : Z -> Prop) (x y : series) : Prop :=
  (forall t, In t (times x) <-> In t (times y)) /\ forall t v, ~ bad t -> (In (t, v) x <-> In (t, v) y).

(** A point whose pair involves a bad time, or whose partner is not unique. *)
Definition affected (x : series) (bad : Z -> Prop) (dt : Z) : Prop :=
  bad dt \/ (exists r, is_partner x dt r /\ bad (fst r)) \/ ~ one_partner x dt.

(** Every midnight from day [first] to day [last]. *)
Definition daily_from (first last : Z) (x : series) : Prop :=
  forall t, In t (times x) <-> exists z, first <= z <= last /\ t = z * ns_day.

(** Midnight of 28 or 29 February. *)
Definition late_february (t : Z) : Prop :=
  exists y d, (d = 28 \/ d = 29) /\ valid_date (mkdate y 2 d) /\ t = day_of_civil (mkdate y 2 d) * ns_day.
