(** What the figures of a soiling analysis show. *)

From Coq Require Import QArith Qcanon List ZArith Bool.
From Verif.Base Require Import QcExtra Fl TimeSeries.
From Verif.Spec Require Import Stats.
From Verif.Model Require Import Soiling.
Import ListNotations.
Open Scope Qc_scope.

(** Each row at its time, in multiples of the factor. *)
Definition in_multiples (factor : fl) (y points : series) : Prop := Forall2 (fun r p => fst p = fst r /\ snd p = fdiv (snd r) factor) y points.
(** The first [n] of a list; all but the last [- n] for negative numbers. *)
Definition first_ones {A} (n : Z) (l shown : list A) : Prop :=
  exists rest, l = shown ++ rest /\
    ((0 <= n)%Z -> Z.of_nat (length shown) = Z.min n (Z.of_nat (length l))) /\
    ((n < 0)%Z -> Z.of_nat (length rest) = Z.min (- n) (Z.of_nat (length l))).
(** The slopes of the valid intervals in percent. *)
Inductive valid_rates : list interval -> list fl -> Prop :=
| rates_nil : valid_rates [] []
| rates_number : forall i q l r, i_valid i = true -> i_slope i = Fin q -> valid_rates l r -> valid_rates (i :: l) (Fin (qz 100 * q) :: r)
| rates_other : forall i l r, i_valid i = true -> (forall q, i_slope i <> Fin q) -> valid_rates l r -> valid_rates (i :: l) (i_slope i :: r)
| rates_invalid : forall i l r, i_valid i = false -> valid_rates l r -> valid_rates (i :: l) r.
(** The number of bars: ten by default. *)
Definition bars_asked (bins : option Z) : Z := match bins with Some n => n | None => 10%Z end.
