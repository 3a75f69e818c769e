(** Specifications about the interval table and the realisations of the soiling rate analysis. *)

From Coq Require Import QArith Qcanon List ZArith Bool String.
From Verif.Base Require Import QcExtra Fl Calendar.
From Verif.Spec Require Import Soiling.
From Verif.Model Require Import Soiling.
Import ListNotations.
Open Scope Qc_scope.

(** A row of the daily table as a point. *)
Definition shows (d : day_row) (p : point) : Prop := d_day d = p_day p /\ d_pi_norm d = Fin (p_pi p) /\ d_delta d = Fin (p_step p).

(** Interval [i] over the days [a] to [b] with points [pts]. *)
Definition described (fit : fit_function) (minimum : Z) (limit step : Qc) (pts : list point) (a b : nat) (i : interval) : Prop :=
  let enough := positive pts <> [] /\ (minimum < Z.of_nat (List.length (positive pts)))%Z in
  (exists m, i_max_neg_step i = Fin m /\ least (map p_step (used pts)) m) /\
  (i_valid i = false -> i_slope i = Fin 0 /\ i_slope_low i = Fin 0 /\ i_slope_high i = Fin 0) /\
  (~ enough -> i_valid i = false /\ exists q, i_start_loss i = Fin q /\ i_end_loss i = Fin q /\ q = qmean (map p_pi (used pts))) /\
  (enough -> forall slope intercept low high,
     fit (map (fun p => (p_day p, Fin (p_pi p))) (positive pts)) = (Fin slope, Fin intercept, Fin low, Fin high) ->
     (i_valid i = true <-> slope <= 0 /\ slope_certain limit slope low (qmin 0 high) /\ forall x, In x (map p_step (positive pts)) -> - step < x) /\
     (i_valid i = true -> i_slope i = Fin slope /\ i_slope_low i = Fin low /\ i_slope_high i = Fin (qmin 0 high)) /\
     i_start_loss i = Fin (slope * qz (Z.of_nat a) + intercept) /\ i_end_loss i = Fin (slope * qz (Z.of_nat b) + intercept)).

(** A fit whose finite lower bound is not above its finite slope. *)
Definition bound_below (fit : fit_function) : Prop :=
  forall pts slope intercept low high, fit pts = (slope, intercept, Fin low, high) -> exists q, slope = Fin q /\ low <= q.

(** The interval table and the rows of the days. *)
Definition row_at (s : srr_intervals) (k : nat) : interval := fst (nth k (s_table s) (Interval 0 0 0 0 NaN NaN NaN NaN NaN NaN false, NaN)).
Record well_formed (s : srr_intervals) : Prop := WellFormed {
  wf_runs : NoDup (map (fun x => i_run (fst x)) (s_table s));
  wf_length : forall x, In x (s_table s) -> (0 <= i_length (fst x))%Z;
  wf_high : forall x q, In x (s_table s) -> i_slope_high (fst x) = Fin q -> q <= 0;
  wf_recovery : forall x, In x (s_table s) -> snd x = NaN \/ exists q, snd x = Fin q /\ 0 <= q /\ q <= 1;
  wf_daily : forall a, In a (s_daily s) -> exists x, In x (s_table s) /\ i_run (fst x) = a_run a /\ (i_start (fst x) <= a_date a <= i_end (fst x))%Z;
  wf_dates : forall p q a b, (p < q)%nat -> nth_error (s_daily s) p = Some a -> nth_error (s_daily s) q = Some b -> (a_date a < a_date b)%Z }.

(** Values with known weight; their weighted mean. *)
Definition known_rows (x : list Qc) (w : list fl) : list (Qc * Qc) :=
  flat_map (fun p => match snd p with Fin v => [(fst p, v)] | _ => [] end) (combine x w).
Definition weighted_mean (rows : list (Qc * Qc)) (q : Qc) : Prop := q * qsum (map snd rows) = qsum (map (fun r => fst r * snd r) rows).

Definition known_method (method : string) : Prop := method = "half_norm_clean"%string \/ method = "random_clean"%string \/ method = "perfect_clean"%string.
(** The bounds of interval [k] are [fst (b k)] and [snd (b k)]. *)
Definition bounded (s : srr_intervals) (b : nat -> Qc * Qc) : Prop :=
  forall k, (k < List.length (s_table s))%nat -> i_slope_low (row_at s k) = Fin (fst (b k)) /\ i_slope_high (row_at s k) = Fin (snd (b k)).
Definition between (x : Qc * Qc) (u : Qc) : Qc := fst x + (snd x - fst x) * u.
Definition in_unit (u : nat -> Qc) : Prop := forall k, 0 <= u k /\ u k <= 1.
(** Validity flags and recoveries (1 when missing) of the intervals. *)
Definition the_recovery (s : srr_intervals) (k : nat) : Qc := match nth k (map snd (s_table s)) NaN with Fin q => q | _ => 1 end.
Definition the_valid (s : srr_intervals) : list bool := map (fun x => i_valid (fst x)) (s_table s).
