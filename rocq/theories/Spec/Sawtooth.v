(** An array that soils evenly and is cleaned completely. *)

From Coq Require Import Qcanon List ZArith Bool String.
From Verif.Base Require Import QcExtra Fl TimeSeries Calendar.
From Verif.Spec Require Import Soiling.
From Verif.Model Require Import Soiling.
Import ListNotations.
Open Scope Qc_scope.

(** [c] is the last day up to [i] with a cleaning, the first day of all if there was none. *)
Definition last_clean (wet : nat -> Prop) (i c : nat) : Prop :=
  (c <= i)%nat /\ (c = 0%nat \/ wet c) /\ forall j, (c < j <= i)%nat -> ~ wet j.
(** On every day [i] the performance is [a * p]: from [top] on the day of the cleaning [p] falls by
    [rate c] a day, and stays above zero. *)
Definition teeth (a top : Qc) (rate : nat -> Qc) (wet : nat -> Prop) (pm : series) (share : list Qc) : Prop :=
  Forall2 (fun r p => snd r = Fin (a * p) /\ 0 < p) pm share /\
  forall i p, nth_error share i = Some p -> exists c, last_clean wet i c /\ p = top - rate c * qz (Z.of_nat (i - c)).
(** The share [p] of the clean performance [a] is left. *)
Definition sawtooth (a : Qc) : (nat -> Qc) -> (nat -> Prop) -> series -> list Qc -> Prop := teeth a 1.
(** More than [minimum] days from every cleaning to the next. *)
Definition long_dry (minimum : Z) (wet : nat -> Prop) (n : nat) : Prop :=
  forall c, (c < n)%nat -> c = 0%nat \/ wet c ->
    (minimum < Z.of_nat (n - c))%Z /\ forall j, (c < j < n)%nat -> wet j -> (minimum < Z.of_nat (j - c))%Z.

(** The interval from day [a] to day [b] as it was, from the level [top] on. *)
Definition recovered (top : Qc) (rate : nat -> Qc) (pm : series) (ab : nat * nat) (i : interval) : Prop :=
  let r := rate (fst ab) in
  nth_error (times pm) (fst ab) = Some (i_start i) /\ nth_error (times pm) (snd ab) = Some (i_end i) /\
  i_valid i = true /\ i_slope i = Fin (- r) /\ i_slope_low i = Fin (- r) /\ i_slope_high i = Fin (- r) /\
  i_start_loss i = Fin top /\ i_end_loss i = Fin (top - r * qz (Z.of_nat (snd ab - fst ab))).
(** Mean of the shares, weighted with the insolation. *)
Definition insolation_mean (pm insolation : series) (share : list Qc) (q : Qc) : Prop :=
  exists w, Forall2 (fun r x => In (fst r, Fin x) insolation /\ 0 < x) pm w /\
    q * qsum w = qsum (map (fun x => fst x * snd x) (combine share w)).

(** The days that the analysis takes for cleanings of a performance with values [s]. *)
Definition flagged (c : string) (day_scale : nat) (thr : option Qc) (factor : Qc) (precip : option series) (pthr : Qc) (s : series) : nat -> Prop :=
  cleaning c (shift day_scale thr factor s) (rain precip pthr s).
(** Options within their ranges, days without infinities. *)
Record usable (margin : list (Z * Qc) -> Qc) (visit : list Z -> list Z) (precip : option series) (ds : list draws) (day_scale : nat) (c : string)
    (minimum : Z) (exc conf limit : Qc) : Prop := Usable {
  us_margin : forall pts, 0 <= margin pts;
  us_visit : forall l, set_order l (visit l);
  us_precip : match precip with None => True | Some q => noinf (vals q) end;
  us_draws : ds <> [];
  us_scale : (1 <= day_scale)%nat;
  us_criterion : known_criterion c;
  us_minimum : (1 <= minimum)%Z;
  us_exceedance : 0 <= exc /\ exc <= qz 100;
  us_confidence : 0 <= conf /\ conf <= qz 100;
  us_limit : 0 < limit }.
(** What is reported: the intervals, the same profile in every realization, and its mean as every figure. *)
Definition reports (pm insolation : series) (ds : list draws) (renorm top : Qc) (rate : nat -> Qc) (wet : nat -> Prop) (profile : list Qc) (res : srr_result) : Prop :=
  sr_renorm res = Fin renorm /\
  (exists l, tiles wet (List.length pm) 0 l /\ Forall2 (recovered top rate pm) l (sr_intervals res)) /\
  sr_profiles res = map (fun _ => map Fin profile) ds /\
  exists q, insolation_mean pm insolation profile q /\ sr_median res = Fin q /\ sr_low res = Fin q /\ sr_high res = Fin q /\ sr_exceedance res = Fin q.
