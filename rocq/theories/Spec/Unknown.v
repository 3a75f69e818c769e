(** Specification: the rows of a record that have a value. *)

From Coq Require Import List ZArith Bool.
From Verif.Base Require Import QcExtra Fl Calendar.
From Verif.Spec Require Import Time YoY Window Wrong.
Import ListNotations.

Definition known_rows (x : series) : series := filter (fun r => match snd r with NaN => false | _ => true end) x.

(** The row [r] would be the partner of [dt] if only rows with a value counted, but a row without
    one lands later. *)
Definition hidden (x : series) (dt : Z) (r : Z * fl) : Prop :=
  is_partner (known_rows x) dt r /\ exists t t1 t2, In (t, NaN) x /\ one_year_later (fst r) t1 /\ one_year_later t t2 /\ (t1 < t2 <= dt)%Z.
