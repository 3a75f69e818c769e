(** Specification of what the Kalman filter starts from, and of the events it keeps. *)

From Coq Require Import QArith Qcanon List ZArith Bool Arith.
From Verif.Base Require Import QcExtra Fl TimeSeries Calendar.
From Verif.Spec Require Import Stats Theil Filters Soiling Cods.
Import ListNotations.
Open Scope list_scope.
Open Scope Qc_scope.

(** The centred median of [w] rows, where all of them have values after filling. *)
Definition median_at (forward : bool) (w : nat) (zs : list fl) (i : nat) (q : Qc) : Prop :=
  exists f, filled_rows forward zs f /\ window_median (around_rows w) w f i q.
Definition no_median_at (forward : bool) (w : nat) (zs : list fl) (i : nat) : Prop := forall q, ~ median_at forward w zs i q.
(** The latest median, or else the next one. *)
Definition near_median (forward : bool) (w : nat) (zs : list fl) (i : nat) (q : Qc) : Prop :=
  (exists j, (j <= i)%nat /\ median_at forward w zs j q /\ forall m, (j < m <= i)%nat -> no_median_at forward w zs m) \/
  (exists j, (i < j)%nat /\ median_at forward w zs j q /\ forall m, (m < j)%nat -> no_median_at forward w zs m).

Definition sample_variance (l : list Qc) (v : Qc) : Prop :=
  (2 <= List.length l)%nat /\ exists mean, mean = qsum l / qz (Z.of_nat (List.length l)) /\
  v = qsum (map (fun x => (x - mean) * (x - mean)) l) / qz (Z.of_nat (List.length l) - 1).

(** Distances of the known values from the medians of thirteen rows, in row order. *)
Definition from_medians (forward : bool) (zs : list fl) (ds : list Qc) : Prop :=
  exists med, List.length med = List.length zs /\ (forall i, (i < List.length zs)%nat -> near_median forward 13 zs i (nth i med 0)) /\
  ds = flat_map (fun p => match snd p with Fin z => [fst p - z] | _ => [] end) (combine med zs).

(** Level and rate to begin with: the Theil-Sen line through the first fourteen rows, filled backwards. *)
Definition starting_line (zs : list fl) (level rate : Qc) : Prop :=
  exists ys my mx, let pts := combine (map Z.of_nat (seq 0 (List.length ys))) ys in
    List.length ys = Nat.min 14 (List.length zs) /\ (forall i, (i < List.length ys)%nat -> filled false zs i (nth i ys 0)) /\
    is_median (chords pts) rate /\ is_median ys my /\ is_median (map (fun i => qz (Z.of_nat i)) (seq 0 (List.length ys))) mx /\
    level = my - rate * mx.

(** ** Events that are kept *)

(** Medians of the levels of the week that begins at an event. *)
Definition week_from (levels : list Qc) (i : nat) (m : Qc) : Prop :=
  (i + 7 <= List.length levels)%nat /\ is_median (firstn 7 (skipn i levels)) m.
(** Events without those after which the level is unusually low.  If some week is incomplete, all are kept. *)
Definition plausible (prune : Qc) (levels : list Qc) (events kept : list nat) : Prop :=
  (exists ms, Forall2 (week_from levels) events ms /\
     exists keep : Qc -> bool, (forall m, keep m = true <-> ~ below_fence prune ms m) /\ kept = map fst (filter (fun p => keep (snd p)) (combine events ms))) \/
  ((exists i, In i events /\ (List.length levels < i + 7)%nat) /\ kept = events).
(** Rows that rise faster than [limit]. *)
Definition too_fast (limit : Qc) (rates : list Qc) (fast : list bool) : Prop :=
  List.length fast = List.length rates /\ forall i, detected fast i <-> exists r, nth_error rates i = Some r /\ limit < r.

(** ** Events to begin with *)
(** Steps of the rolling median of nine rows, missing where there is none. *)
Definition median_steps (zs : list fl) (m : list fl) : Prop :=
  List.length m = List.length zs /\ exists f, filled_rows true zs f /\
  forall i x, nth_error m i = Some x -> (exists d, x = Fin d /\ step_at 9 f i d) \/ (x = NaN /\ forall d, ~ step_at 9 f i d).
