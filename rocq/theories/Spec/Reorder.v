(** Subsystems put into another order. *)

From Coq Require Import QArith Qcanon List Permutation Arith.
From Verif.Base Require Import Fl.
From Verif.Model Require Import Availability.
Import ListNotations.

(** [p] lists the numbers of [n] columns in some order. *)
Definition an_order (n : nat) (p : list nat) : Prop := Permutation p (seq 0 n).
(** The row with the columns in the order [p]; [d] stands for what is not there. *)
Definition reorder {A} (d : A) (p : list nat) (row : list A) : list A := map (fun j => nth j row d) p.
(** One value for each of [n] columns, if there are any. *)
Definition one_each (n : nat) (o : option (list fl)) : Prop := match o with Some l => length l = n | None => True end.
(** The same results with the reporting mask in the order [p]. *)
Definition relabelled (p : list nat) (r : availability_result) : availability_result :=
  AvailabilityResult (map (reorder false p) (r_masks r)) (r_loss_subsystem r) (r_expectation r) (r_outages r) (r_loss_system r) (r_corrected r) (r_results r).
