(** Specification of the combined degradation and soiling (CODS) analysis. *)

From Coq Require Import QArith Qcanon List ZArith Bool Arith Sorted String.
From Verif.Base Require Import QcExtra Fl TimeSeries Calendar.
From Verif.Spec Require Import Stats Filters Soiling.
Import ListNotations.
Open Scope list_scope.
Open Scope Qc_scope.

(** ** Collapsing detected events *)

(** Row [i] was detected. *)
Definition detected (ev : list bool) (i : nat) : Prop := nth_error ev i = Some true.

(** A maximal run of detected rows, of which the first one at or after [a] is [s], the last one [e]. *)
Definition run_from (ev : list bool) (a s e : nat) : Prop :=
  (a <= s <= e)%nat /\ (forall i, (a <= i < s)%nat -> ~ detected ev i) /\
  (forall i, (s <= i <= e)%nat -> detected ev i) /\ ~ detected ev (S e).

(** The islands found in the rows [a], ..., [hi - 1] when the [f] rows following an island are
    skipped; the search ends at a run reaching row [hi - 1]. *)
Inductive islands (ev : list bool) (f hi : nat) : nat -> list (nat * nat) -> Prop :=
| isl_none : forall a, (forall i, (a <= i < hi)%nat -> ~ detected ev i) -> islands ev f hi a []
| isl_open : forall a s, (a <= s < hi)%nat -> (forall i, (a <= i < s)%nat -> ~ detected ev i) ->
    (forall i, (s <= i < hi)%nat -> detected ev i) -> islands ev f hi a []
| isl_take : forall a s e l, run_from ev a s e -> (S e < hi)%nat -> islands ev f hi (S (e + f)) l -> islands ev f hi a ((s, e) :: l).

(** The first row with the largest value among rows [lo], ..., [hi]. *)
Definition is_peak (m : list fl) (lo hi p : nat) : Prop :=
  (lo <= p <= hi)%nat /\ exists x, nth_error m p = Some x /\ x <> NaN /\
  (forall j y, (lo <= j <= hi)%nat -> nth_error m j = Some y -> y <> NaN -> fle y x = true) /\
  (forall j y, (lo <= j < p)%nat -> nth_error m j = Some y -> y <> NaN -> flt y x = true).
Definition all_missing (m : list fl) (lo hi : nat) : Prop := forall j x, (lo <= j <= hi)%nat -> nth_error m j = Some x -> x = NaN.

Definition window (f : nat) (se : nat * nat) (i : nat) : Prop := (fst se <= i + f)%nat /\ (i <= snd se + f)%nat.

(** Row [i] is reported: it is the peak of the window of an island, and outside the windows of the later islands. *)
Definition reported (f : nat) (isl : list (nat * nat)) (peaks : list nat) (i : nat) : Prop :=
  exists k, nth_error peaks k = Some i /\ forall j se, (k < j)%nat -> nth_error isl j = Some se -> ~ window f se i.

Definition collapsed (f : nat) (ev : list bool) (m : list fl) (out : list bool) : Prop :=
  exists isl peaks, islands ev f (List.length ev - f) f isl /\
    Forall2 (fun se p => is_peak m (fst se - f) (snd se + f) p) isl peaks /\
    List.length out = List.length ev /\ forall i, detected out i <-> reported f isl peaks i.

(** ** Detecting shifts *)

(** The latest (next) value at row [i]. *)
Definition filled (forward : bool) (l : list fl) (i : nat) (q : Qc) : Prop :=
  exists j, nth_error l j = Some (Fin q) /\
    if forward then (j <= i)%nat /\ forall m, (j < m <= i)%nat -> nth_error l m = Some NaN
    else (i <= j)%nat /\ forall m, (i <= m < j)%nat -> nth_error l m = Some NaN.
(** The values filled in, on numbered rows. *)
Definition filled_rows (forward : bool) (l : list fl) (f : series) : Prop :=
  List.length f = List.length l /\
  forall i t v, nth_error f i = Some (t, v) -> t = Z.of_nat i /\
    ((exists q, v = Fin q /\ filled forward l i q) \/ (v = NaN /\ forall q, ~ filled forward l i q)).

(** Row [i] is a shift: the rolling median of [w] rows rises by more than the third quartile of
    the sizes of all its steps plus [tuner] times their interquartile range. *)
Definition upward_shift (forward : bool) (w : nat) (tuner : Qc) (l : list fl) (i : nat) : Prop :=
  exists f ds q25 q75 d, filled_rows forward l f /\ steps w f 0 ds /\
    is_percentile (qz 25) (map qabs ds) q25 /\ is_percentile (qz 75) (map qabs ds) q75 /\
    step_at w f i d /\ q75 + tuner * (q75 - q25) < d.
(** Row [i] is a fall of the rolling median of nine rows below the first percentile of the sizes
    minus [tuner] times the distance to the ninety-ninth. *)
Definition downward_shift (forward : bool) (tuner : Qc) (l : list fl) (i : nat) : Prop :=
  exists f ds q1 q99 d, filled_rows forward l f /\ steps 9 f 0 ds /\
    is_percentile (qz 1) (map qabs ds) q1 /\ is_percentile (qz 99) (map qabs ds) q99 /\
    step_at 9 f i d /\ d < q1 - tuner * (q99 - q1).

(** Outliers by quartiles. *)
Definition above_fence (multiplier : Qc) (l : list Qc) (x : Qc) : Prop :=
  exists q25 q75, is_percentile (qz 25) l q25 /\ is_percentile (qz 75) l q75 /\ q75 + multiplier * (q75 - q25) < x.
Definition below_fence (multiplier : Qc) (l : list Qc) (x : Qc) : Prop :=
  exists q25 q75, is_percentile (qz 25) l q25 /\ is_percentile (qz 75) l q75 /\ x < q25 - multiplier * (q75 - q25).
