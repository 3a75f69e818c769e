(** Specifications for the clipping filters. *)

From Coq Require Import QArith Qcanon List ZArith Bool.
From Verif.Base Require Import QcExtra Fl TimeSeries Calendar.
From Verif.Model Require Import Interpolation Clipping.
From Verif.Spec Require Import Stats Filters Normalization.
Import ListNotations.
Open Scope Qc_scope.

(** The values of the rows on the day of [t]. *)
Definition on_day (t : Z) (s : series) : list fl :=
  vals (filter (fun r => (fst r / ns_day =? t / ns_day)%Z) s).

(** The value of the last row at or before [t]. *)
Definition latest {A} (l : list (Z * A)) (t : Z) (v : A) : Prop :=
  exists i u, nth_error l i = Some (u, v) /\ (u <= t)%Z /\
    forall j u' v', (i < j)%nat -> nth_error l j = Some (u', v') -> (t < u')%Z.

(** Steps between rows, and the most frequent one (the smallest if several are). *)
Definition gaps (l : list Z) : list Z := map (fun p => (snd p - fst p)%Z) (combine l (tl l)).
Definition occurrences (x : Z) (l : list Z) : nat := length (filter (Z.eqb x) l).
Definition is_mode (l : list Z) (m : Z) : Prop :=
  In m l /\ forall y, In y l -> (occurrences y l < occurrences m l)%nat \/ (occurrences y l = occurrences m l /\ (m <= y)%Z).

(** The standard deviation is less than a tenth of the mean. *)
Definition steady (l : list Qc) : Prop :=
  exists m, (2 <= length l)%nat /\ m * qz (Z.of_nat (length l)) = qsum l /\
    (m < 0 \/ (0 < m /\ qz 100 * qsum (map (fun x => (x - m) * (x - m)) l) < m * m * qz (Z.of_nat (length l) - 1))).

(** [without P s c]: [c] is [s] with the values of the rows satisfying [P] removed. *)
Definition without (P : Z -> fl -> Prop) (s c : series) : Prop :=
  times c = times s /\
  forall i t v w, nth_error s i = Some (t, v) -> nth_error c i = Some (t, w) -> (P t v /\ w = NaN) \/ (~ P t v /\ w = v).

(** Below a tenth of the highest value of the day. *)
Definition low (s : series) (t : Z) (v : fl) : Prop :=
  exists q hi, v = Fin q /\ is_max (finvals (on_day t s)) hi /\ q < qf 1 10 * hi.

(** Medians of 15 minute bins counted from midnight. *)
Definition quarter : Z := 900000000000.
Definition bin_medians (c r : series) : Prop :=
  forall b v, In (b, v) r ->
    (exists k, b = (quarter * k)%Z) /\
    let l := finvals (vals (filter (fun x => inside b quarter (fst x)) c)) in
    (l = [] /\ v = NaN) \/ (exists m, v = Fin m /\ is_median l m).
Definition every_quarter (c r : series) : Prop :=
  (exists b0, times r = map (fun k => (b0 + quarter * Z.of_nat k)%Z) (seq 0 (length r))) /\
  (forall t v, In (t, v) c -> exists b, In b (times r) /\ in_bin b quarter t).

(** [n] values from row [j] on within [cutoff] per cent of their midpoint. *)
Definition flat (s : series) (n : nat) (cutoff : Qc) (j : nat) : Prop :=
  exists w lo hi, map snd (firstn n (skipn j s)) = map Fin w /\ length w = n /\ is_min w lo /\ is_max w hi /\
    lo + hi <> 0 /\ (hi - lo) / ((hi + lo) / qz 2) * qz 100 < cutoff.

(** Row [i] lies in such a stretch (the first [n - 1] rows never count). *)
Definition in_flat (s : series) (n : nat) (cutoff : Qc) (i : nat) : Prop :=
  (n <= S i)%nat /\ exists j, (j <= i < j + n)%nat /\ flat s n cutoff j.

(** The percentile [100 q] of the robust part of [x]. *)
Definition robust_percentile (q : Qc) (x : list fl) (v : Qc) : Prop :=
  exists l, robust_part q x l /\ l <> [] /\ is_percentile (qz 100 * q) l v.

(** Clipping levels of the flagged values [x] of a day. *)
Definition levels (coarse : bool) (x : list fl) (lo hi : Qc) : Prop :=
  if coarse then is_min (finvals x) lo /\ is_max (finvals x) hi
  else robust_percentile (qf 75 1000) x lo /\ robust_percentile (qf 99 100) x hi.

(** Between levels that differ by at most 2.5 %, or within 0.25 % of one of two levels
    further apart.  (If the higher one is zero, only zero is.) *)
Definition at_level (lo hi x : Qc) : Prop :=
  (hi <> 0 /\ (hi - lo) / hi <= qf 25 1000 /\ lo <= x /\ x <= hi) \/
  (hi <> 0 /\ qf 25 1000 < (hi - lo) / hi /\
    ((hi * qf 9975 10000 <= x /\ x <= hi * qf 10025 10000) \/ (lo * qf 9975 10000 <= x /\ x <= lo * qf 10025 10000))) \/
  (hi = 0 /\ lo < 0 /\ x = 0).

(** The two 99 % percentiles are within 0.5 % of each other, and more than 4 % of [n] rows are
    clipped. *)
Definition overall (q qc : Qc) (clipped n : nat) : Prop :=
  (q + qc <> 0 /\ qabs ((q - qc) / ((q + qc) / qz 2)) < qf 5 1000) /\
  qz 4 < qz (Z.of_nat clipped) / qz (Z.of_nat n) * qz 100.

(** [chosen P s l]: the values of the rows satisfying [P]. *)
Inductive chosen (P : Z -> fl -> Prop) : series -> list fl -> Prop :=
| chosen_nil : chosen P [] []
| chosen_keep : forall t v s l, P t v -> chosen P s l -> chosen P ((t, v) :: s) (v :: l)
| chosen_skip : forall t v s l, ~ P t v -> chosen P s l -> chosen P ((t, v) :: s) l.

(** [flagged regular s n cutoff D]: [D] labels the rows of the regular form of [s] without
    its steady days by whether they lie in a flat stretch of [n] rows that are not low. *)
Definition flagged (regular : series -> series -> Prop) (s : series) (n : nat) (cutoff : Qc) (D : list (Z * bool)) : Prop :=
  exists c r u, without (fun t _ => steady (finvals (on_day t s))) s c /\ regular c r /\ without (low r) r u /\
    map fst D = times r /\
    forall i t b, nth_error D i = Some (t, b) -> (b = true <-> in_flat u n cutoff i).

(** At a level of the flagged values of its day. *)
Definition level_clipped (coarse : bool) (f : series) (t : Z) (v : fl) : Prop :=
  exists x lo hi, v = Fin x /\ levels coarse (on_day t f) lo hi /\ at_level lo hi x.

(** At or above the 99 % percentile of the data, when that percentile is a clipping level. *)
Definition overall_clipped (c : series) (cl : list fl) (i : nat) (t : Z) : Prop :=
  exists q qc x, robust_percentile (qf 99 100) (vals c) q /\ robust_percentile (qf 99 100) cl qc /\
    overall q qc (length cl) (length c) /\ nth_error c i = Some (t, Fin x) /\ q <= x.

(** The regular form of a series: interpolated to its own step (the model of [interpolate]
    is characterised separately), or medians of 15 minutes if the step is below 10. *)
Definition regular_form (freq : Z) (c r : series) : Prop :=
  if (minutes 10 <=? freq)%Z then interpolate true true c (TFreq freq) None = Ok r
  else bin_medians c r /\ every_quarter c r.

(** The number of rows of a stretch. *)
Definition stretch (m : mounting) (freq : Z) (roll_periods : option nat) (n : nat) : Prop :=
  match roll_periods with
  | Some k => n = k
  | None => n = if match m with Tracking => (freq <? minutes 30)%Z | _ => false end then 5%nat else 3%nat
  end.

(** ** The learned filter *)

(** Position of a value between [lo] and [hi]. *)
Definition position (lo hi : Qc) (v : fl) : fl := match v with Fin x => Fin ((x - lo) / (hi - lo)) | _ => NaN end.

(** The day whose predicted rows give the levels at [t]: its own day while there are
    predicted rows on it or later, afterwards the last day with a predicted row.  [t'] is
    any time on that day. *)
Definition level_day (P : list (Z * bool)) (s : series) (t t' : Z) : Prop :=
  (t' = t /\ exists u v, In (u, v) s /\ latest P u true /\ (t / ns_day <= u / ns_day)%Z) \/
  (exists v, In (t', v) s /\ latest P t' true /\ (t' / ns_day < t / ns_day)%Z /\
     forall u w, In (u, w) s -> latest P u true -> (u <= t')%Z).

(** The row at [t] with value [v] is removed: [z] is its position in the range of the data,
    [bottom] and [top] are the extreme positions of the predicted rows ([f]) on the level
    day, [day_max] the highest position of the day. *)
Definition learned_clipped (fine : bool) (P : list (Z * bool)) (s : series) (t : Z) (v : fl) : Prop :=
  exists x lo hi f t' bottom top day_max, v = Fin x /\
    is_min (finvals (vals s)) lo /\ is_max (finvals (vals s)) hi /\ lo < hi /\
    without (fun u _ => ~ latest P u true) (map (fun r => (fst r, position lo hi (snd r))) s) f /\
    level_day P s t t' /\ is_min (finvals (on_day t' f)) bottom /\ is_max (finvals (on_day t' f)) top /\
    is_max (finvals (on_day t (map (fun r => (fst r, position lo hi (snd r))) s))) day_max /\
    let z := (x - lo) / (hi - lo) in
    qf 1 10 <= z /\ (if fine then qf 9 10 else qf 95 100) * (day_max + qf 1 100000) <= z /\
    bottom <= z /\ z <= top * qf 10025 10000 /\ (fine = true -> top * qf 96 100 <= z).
