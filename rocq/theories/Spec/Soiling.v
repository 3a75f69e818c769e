(** Specification of the soiling analysis. *)

From Coq Require Import QArith Qcanon List ZArith Bool Arith Sorted String.
From Verif.Base Require Import QcExtra Fl TimeSeries Calendar.
From Verif.Spec Require Import Stats Filters.
Import ListNotations.
Open Scope list_scope.
Open Scope Qc_scope.

(** ** Days *)

(** Consecutive days, at least three. *)
Definition day_by_day (l : list Z) : Prop :=
  (3 <= List.length l)%nat /\ forall i t u, nth_error l i = Some t -> nth_error l (S i) = Some u -> u = (t + ns_day)%Z.

(** The part from the first to the last value. *)
Definition valid_span (s p : series) : Prop :=
  exists pre post, s = pre ++ p ++ post /\ (forall r, In r (pre ++ post) -> snd r = NaN) /\
    (exists t v p', p = (t, v) :: p' /\ v <> NaN) /\ (exists t v p', p = p' ++ [(t, v)] /\ v <> NaN).

(** The values of the first year. *)
Definition first_year (p : series) : list Qc :=
  match p with [] => [] | (t0, _) :: _ => finvals (vals (filter (fun r => (fst r <=? t0 + 364 * ns_day)%Z) p)) end.
Definition is_renorm (recenter : bool) (p : series) (r : Qc) : Prop := if recenter then is_median (first_year p) r else r = 1.

(** Values divided by [r]. *)
Definition scaled_by (r : Qc) (s : series) : series := map (fun x => (fst x, match snd x with Fin q => Fin (q / r) | _ => NaN end)) s.

(** Row [i] is the last value before (the first one after) more than [k] missing ones. *)
Definition gap_after (k : nat) (s : series) (i : nat) : Prop :=
  (exists t q, nth_error s i = Some (t, Fin q)) /\ forall j, (i < j <= i + S k)%nat -> exists t, nth_error s j = Some (t, NaN).
Definition gap_before (k : nat) (s : series) (i : nat) : Prop :=
  (exists t q, nth_error s i = Some (t, Fin q)) /\ (S k < i)%nat /\ forall j, (i <= j + S k)%nat -> (j < i)%nat -> exists t, nth_error s j = Some (t, NaN).

(** The latest value, if not older than [k] rows. *)
Definition carried (k : nat) (s : series) (i : nat) (q : Qc) : Prop :=
  exists j t, (j <= i <= j + k)%nat /\ nth_error s j = Some (t, Fin q) /\ forall m, (j < m <= i)%nat -> exists u, nth_error s m = Some (u, NaN).
Definition carried_series (k : nat) (s f : series) : Prop :=
  times f = times s /\
  forall i t v, nth_error f i = Some (t, v) -> (exists q, v = Fin q /\ carried k s i q) \/ (v = NaN /\ forall q, ~ carried k s i q).

(** Step of the rolling median of [k] rows, and all of them. *)
Definition step_at (k : nat) (f : series) (i : nat) (d : Qc) : Prop :=
  exists j m m', i = S j /\ window_median (around_rows k) k f i m /\ window_median (around_rows k) k f j m' /\ d = m - m'.
Inductive steps (k : nat) (f : series) : nat -> list Qc -> Prop :=
| steps_end : forall i, nth_error f i = None -> steps k f i []
| steps_take : forall i d l, step_at k f i d -> steps k f (S i) l -> steps k f i (d :: l)
| steps_skip : forall i l, nth_error f i <> None -> (forall d, ~ step_at k f i d) -> steps k f (S i) l -> steps k f i l.

Definition shift_limit (given : option Qc) (factor : Qc) (l : list Qc) (x : Qc) : Prop :=
  match given with
  | Some y => x = y
  | None => exists q25 q75, is_percentile (qz 25) (map qabs l) q25 /\ is_percentile (qz 75) (map qabs l) q75 /\ x = q75 + factor * (q75 - q25)
  end.
(** [s] are the scaled values. *)
Definition shift (k : nat) (given : option Qc) (factor : Qc) (s : series) (i : nat) : Prop :=
  exists f l x d, carried_series k s f /\ steps k f 0 l /\ shift_limit given factor l x /\ step_at k f i d /\ x < d.

Definition rain (precip : option series) (thr : Qc) (s : series) (i : nat) : Prop :=
  exists t v, nth_error (times s) i = Some t /\
    match precip with Some p => In (t, Fin v) p | None => v = 0 end /\ thr < v.

Definition cleaning (criterion : string) (shift rain : nat -> Prop) (i : nat) : Prop :=
  (criterion = "shift"%string /\ shift i) \/
  (criterion = "precip"%string /\ rain i) \/
  (criterion = "precip_or_shift"%string /\ (shift i \/ rain i)) \/
  (criterion = "precip_and_shift"%string /\ shift i /\ exists j, (j <= S i)%nat /\ (i <= S j)%nat /\ rain j).
Definition known_criterion (c : string) : Prop :=
  c = "shift"%string \/ c = "precip"%string \/ c = "precip_or_shift"%string \/ c = "precip_and_shift"%string.

(** Value of a column at a date, zero if there is none. *)
Definition value_or_0 (s : series) (t : Z) (x : Qc) : Prop := In (t, Fin x) s \/ (x = 0 /\ forall q, ~ In (t, Fin q) s).

(** Number of [true] among the first. *)
Definition count_true (b : list bool) : nat := List.length (filter (fun x => x) b).

(** ** Intervals *)

(** Division of the rows from [a] on into blocks that start at events. *)
Inductive tiles (event : nat -> Prop) (n : nat) : nat -> list (nat * nat) -> Prop :=
| tiles_last : forall a, (a < n)%nat -> (forall i, (a < i < n)%nat -> ~ event i) -> tiles event n a [(a, (n - 1)%nat)]
| tiles_more : forall a b l, (a <= b)%nat -> (S b < n)%nat -> (forall i, (a < i <= b)%nat -> ~ event i) -> event (S b) ->
    tiles event n (S b) l -> tiles event n a ((a, b) :: l).
Definition kept_blocks (trim : bool) (l : list (nat * nat)) : list (nat * nat) := if trim then removelast (tl l) else l.
Definition block {A} (l : list A) (ab : nat * nat) : list A := firstn (S (snd ab) - fst ab) (skipn (fst ab) l).
(** A block with its first and last row. *)
Definition spans {A} (l : list A) (ab : nat * nat) (x y : A) : Prop :=
  (fst ab <= snd ab)%nat /\ nth_error l (fst ab) = Some x /\ nth_error l (snd ab) = Some y.

(** Day number, normalised performance and step of the days of an interval. *)
Definition point : Type := (Z * Qc * Qc)%type.
Definition p_day (p : point) : Z := fst (fst p).
Definition p_pi (p : point) : Qc := snd (fst p).
Definition p_step (p : point) : Qc := snd p.
Definition positive (l : list point) : list point := filter (fun p => qlt 0 (p_pi p)) l.
(** The days with positive performance, all days if there are none. *)
Definition used (l : list point) : list point := match positive l with [] => l | _ => positive l end.
Definition least (l : list Qc) (x : Qc) : Prop := In x l /\ forall y, In y l -> x <= y.
(** The relative error of the slope is not too large; [limit] in percent.  A horizontal
    fit only passes without any width. *)
Definition slope_certain (limit slope low high : Qc) : Prop :=
  (qz 100 * (high - low) < limit * qabs slope) \/ (slope = 0 /\ high <= low).
Definition clip_unit (x : Qc) : Qc := qmax 0 (qmin 1 x).
(** The first [true] after position [k]. *)
Definition next_true (b : list bool) (k j : nat) : Prop :=
  (k < j)%nat /\ nth_error b j = Some true /\ forall m, (k < m < j)%nat -> nth_error b m = Some false.

(** ** Realisations *)

Definition prev_true (b : list bool) (k j : nat) : Prop :=
  (j < k)%nat /\ nth_error b j = Some true /\ forall m, (j < m < k)%nat -> nth_error b m = Some false.
(** Level after a cleaning; [z] is a normal draw or a uniform one. *)
Definition cleaned (half : bool) (z ending recovery : Qc) : Qc :=
  if half then 1 - qabs z * ((1 - clip_unit (ending + recovery)) / qz 3) else ending + (1 - ending) * z.
(** Start levels of the valid intervals; the draws are used one after the other. *)
Definition levels_ok (half : bool) (z : nat -> Qc) (valid : list bool) (loss recovery start : nat -> Qc) : Prop :=
  forall k, nth_error valid k = Some true ->
    ((forall m, (m < k)%nat -> nth_error valid m = Some false) -> start k = 1) /\
    (forall j, prev_true valid k j -> start k = cleaned half (z (count_true (firstn j valid))) (start j + loss j) (recovery j)).
Definition last_end (valid : list bool) (loss start : nat -> Qc) (k : nat) (p : Qc) : Prop :=
  (exists j, prev_true valid k j /\ p = start j + loss j) \/ ((forall j, ~ prev_true valid k j) /\ p = 1).
Definition next_begin (valid : list bool) (start : nat -> Qc) (k : nat) (p : Qc) : Prop :=
  (exists j, next_true valid k j /\ p = start j) \/ ((forall j, ~ next_true valid k j) /\ p = 1).
(** Number of stretches of invalid intervals before that of [k]. *)
Definition stretch (valid : list bool) (k : nat) : nat :=
  (List.length (filter (fun m => negb (nth m valid true) && ((m =? 0)%nat || nth (m - 1) valid false)) (seq 0 (S k))) - 1)%nat.
(** One level for a stretch of invalid intervals, between its neighbours. *)
Definition fill_ok (u : nat -> Qc) (valid : list bool) (loss start : nat -> Qc) : Prop :=
  forall k, nth_error valid k = Some false ->
    exists p n, last_end valid loss start k p /\ next_begin valid start k n /\ start k = p + (n - p) * u (stretch valid k).
(** Iteration order of a set. *)
Definition set_order (l o : list Z) : Prop := NoDup o /\ forall g, In g o <-> In g l.
