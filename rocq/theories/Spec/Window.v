(** Specification: the part of a record between two times. *)

From Coq Require Import List ZArith Bool.
From Verif.Base Require Import QcExtra Fl Calendar.
From Verif.Spec Require Import Time YoY.
Import ListNotations.
Open Scope Z_scope.

(** Rows from [a] to [b], or up to [b]. *)
Definition between (a b : Z) (input : series) : series := filter (fun r => (a <=? fst r) && (fst r <=? b)) input.
Definition up_to (b : Z) (input : series) : series := filter (fun r => fst r <=? b) input.

(** [b] is no later than some row of [s] with a value. *)
Definition reached (s : series) (b : Z) : Prop := exists u q, In (u, Fin q) s /\ (b <= u).

(** A year later no row from before [a] lands after one from [a] on. *)
Definition clean_cut (input : series) (a : Z) : Prop :=
  forall r r' t t', In r input -> In r' input -> fst r < a <= fst r' ->
    one_year_later (fst r) t -> one_year_later (fst r') t' -> t <= t'.

(** Midnight of any day but 29 February. *)
Definition ordinary_midnight (a : Z) : Prop :=
  exists y m d, valid_date (mkdate y m d) /\ (m, d) <> (2, 29) /\ a = day_of_civil (mkdate y m d) * ns_day.

(** The point [dt] has (at most) one latest-landing row. *)
Definition one_partner (input : series) (dt : Z) : Prop :=
  forall r r', is_partner input dt r -> is_partner input dt r' -> r = r'.
