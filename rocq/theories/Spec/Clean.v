(** An array whose daily performance never changes. *)

From Coq Require Import Qcanon List ZArith Bool String.
From Verif.Base Require Import QcExtra Fl TimeSeries.
From Verif.Model Require Import Soiling.
Import ListNotations.
Open Scope Qc_scope.

(** Every performance that is known is [v]. *)
Definition steady_at (v : Qc) (pm : series) : Prop := forall t x, In (t, x) pm -> x = Fin v \/ x = NaN.
(** No insolation is negative or infinite; there is some on the days with a performance. *)
Definition sunny (pm insolation : series) : Prop :=
  (forall t x, In (t, x) insolation -> x = NaN \/ exists q, x = Fin q /\ 0 <= q) /\
  (forall t q, In (t, Fin q) pm -> exists w, In (t, Fin w) insolation /\ 0 < w).

(** What is reported of an array that is never soiled: no loss in any figure, realization, interval or day. *)
Definition never_soiled (res : srr_result) : Prop :=
  sr_median res = Fin 1 /\ sr_low res = Fin 1 /\ sr_high res = Fin 1 /\ sr_exceedance res = Fin 1 /\
  (forall p x, In p (sr_profiles res) -> In x p -> x = Fin 1) /\
  (forall i, In i (sr_intervals res) -> i_slope i = Fin 0 /\ i_slope_low i = Fin 0 /\ i_slope_high i = Fin 0) /\
  (forall t x, In (t, x) (sr_perfect res) -> x = Fin 1).

(** Every day has the performance [v]. *)
Definition all_at (v : Qc) (pm : series) : Prop := forall t x, In (t, x) pm -> x = Fin v.
(** No threshold below zero is given for the steps that count as a cleaning. *)
Definition quiet (thr : option fl) : Prop := match thr with None => True | Some x => fgt (Fin 0) x = false end.
(** One interval from the first day to the last, flat at [level]. *)
Definition one_interval (level : Qc) (pm : series) : interval :=
  Interval (hd 0%Z (times pm)) (last (times pm) 0%Z) (Z.of_nat (List.length pm) - 1) 0 (Fin 0) (Fin 0) (Fin 0) (Fin 0) (Fin level) (Fin level) true.
