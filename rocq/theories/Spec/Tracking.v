(** Specification of the Kalman filter and smoother as weighted least squares. *)

From Coq Require Import QArith Qcanon List ZArith Bool Arith.
From Verif.Base Require Import QcExtra.
Import ListNotations.
Open Scope list_scope.
Open Scope Qc_scope.

(** Level and rate of change.  From one row to the next the rate changes by [a], the level by the
    mean of the rates before and after, and by a known amount [u]. *)
Definition motion : Type := (Qc * Qc)%type.
Definition advance (u a : Qc) (x : motion) : motion := (fst x + snd x + a / qz 2 + u, snd x + a).
Fixpoint path (x : motion) (us accs : list Qc) : list motion :=
  match us, accs with
  | u :: us', a :: accs' => advance u a x :: path (advance u a x) us' accs'
  | _, _ => []
  end.

(** A symmetric covariance: variance of the level, covariance, variance of the rate. *)
Definition cov : Type := (Qc * Qc * Qc)%type.
Definition det (P : cov) : Qc := let '(p, c, r) := P in p * r - c * c.
Definition definite (P : cov) : Prop := let '(p, c, r) := P in 0 < p /\ 0 < det P.
(** Squared distance in terms of the covariance (the inverse of the matrix between the difference). *)
Definition distance (P : cov) (x y : motion) : Qc :=
  let '(p, c, r) := P in
  let d := fst x - fst y in
  let e := snd x - snd y in
  (r * d * d - qz 2 * c * d * e + p * e * e) / det P.

(** How badly a path that begins at [x] explains the measurements: distance from the estimate
    to begin with, changes of the rate, and distances of the levels from the measurements. *)
Definition misfit (R : Qc) (zs : list (option Qc)) (xs : list motion) : Qc :=
  qsum (map (fun p => match fst p with Some z => (z - fst (snd p)) * (z - fst (snd p)) / R | None => 0 end) (combine zs xs)).
Definition effort (v : Qc) (accs : list Qc) : Qc := qsum (map (fun a => a * a / v) accs).
Definition cost (v R : Qc) (start : motion * cov) (us : list Qc) (zs : list (option Qc)) (x : motion) (accs : list Qc) : Qc :=
  distance (snd start) x (fst start) + effort v accs + misfit R zs (path x us accs).

(** [now] is the estimate after the measurements [zs]: the least cost of a path that ends at [y] is a constant plus the
    distance of [y] from the estimate. *)
Definition estimated (v R : Qc) (start : motion * cov) (us : list Qc) (zs : list (option Qc)) (now : motion * cov) : Prop :=
  definite (snd now) /\ List.length us = List.length zs /\
  exists c,
    (forall x accs, List.length accs = List.length us -> c + distance (snd now) (List.last (path x us accs) x) (fst now) <= cost v R start us zs x accs) /\
    (forall y, exists x accs, List.length accs = List.length us /\ List.last (path x us accs) x = y /\ cost v R start us zs x accs = c + distance (snd now) y (fst now)).

(** The path of least cost, from the first estimate on without known changes of the level. *)
Definition best_path (v R : Qc) (start : motion * cov) (zs : list (option Qc)) (xs : list motion) : Prop :=
  let us := map (fun _ => 0) zs in
  exists x accs, List.length accs = List.length zs /\ xs = x :: path x us accs /\
  forall y other, List.length other = List.length zs ->
    cost v R start us zs x accs <= cost v R start us zs y other /\
    (cost v R start us zs y other = cost v R start us zs x accs -> y = x /\ other = accs).

(** ** Known changes of the level and the list of events *)

(** Step of the medians into a row, and the first largest of the steps around row [i]. *)
Definition step_into (med : list Qc) (j : nat) : Qc := nth j med 0 - nth (j - 1) med 0.
Definition biggest_step (med : list Qc) (i j : nat) : Prop :=
  (i - 4 <= j <= i + 5)%nat /\
  forall k, (i - 4 <= k <= i + 5)%nat -> step_into med k <= step_into med j /\ ((k < j)%nat -> step_into med k < step_into med j).

Definition times (r : nat) (l : list nat) : nat := count_occ Nat.eq_dec l r.
Definition taken_out (i : nat) (before after : list nat) : Prop := forall r, times r after = if Nat.eq_dec r i then (times r before - 1)%nat else times r before.
Definition put_in (j : nat) (before after : list nat) : Prop := forall r, times r after = if Nat.eq_dec r j then S (times r before) else times r before.

(** What happens on row [i] of [n]: the known change [u] and the events.  [expected] is the level predicted without it. *)
Definition row_events (n : nat) (med : list Qc) (R : Qc) (soiling : list nat) (i : nat) (expected : Qc) (before : list nat) (u : Qc) (after : list nat) : Prop :=
  let jump := nth (i + 3) med 0 - expected in
  let active := (7 < i /\ i + 7 < n)%nat /\ (In i before \/ In i soiling) in
  (~ active -> u = 0 /\ after = before) /\
  (active -> exists j, biggest_step med i j /\
    (~ In i before \/ j = i ->
       (R < qz 4 * (jump * jump) -> u = jump /\ after = before) /\
       (qz 4 * (jump * jump) <= R -> u = 0 /\ taken_out i before after)) /\
    (In i before -> j <> i ->
       u = 0 /\
       if Qclt_le_dec 0 (step_into med j)
       then if in_dec Nat.eq_dec j before then taken_out i before after
            else exists less, taken_out i before less /\ put_in j less after
       else taken_out i before after)).

(** The pass over all rows: [nows] are the estimates, [us] the known changes and [events] the
    lists before each row and at the end. *)
Definition level_ahead (x : motion) : Qc := fst x + snd x.
Definition pass (v R : Qc) (med : list Qc) (soiling : list nat) (start : motion * cov) (zs : list (option Qc))
    (nows : list (motion * cov)) (us : list Qc) (events : list (list nat)) : Prop :=
  let n := List.length zs in
  List.length nows = n /\ List.length us = n /\ List.length events = S n /\
  forall k, (k < n)%nat ->
    estimated v R start (firstn (S k) us) (firstn (S k) zs) (nth k nows start) /\
    row_events n med R soiling k (level_ahead (fst (match k with O => start | S k' => nth k' nows start end))) (nth k events []) (nth k us 0) (nth (S k) events []).

(** Rows from [a] up to, without, [e]. *)
Definition rows {A} (a e : nat) (l : list A) : list A := firstn (e - a) (skipn a l).
(** [a] and [e] are neighbours in a set of rows. *)
Definition next_to (borders : list nat) (a e : nat) : Prop := In a borders /\ In e borders /\ (a < e)%nat /\ forall b, In b borders -> (b <= a \/ e <= b)%nat.

(** One run: levels and rates of the smoothed path between neighbouring borders (the events at the end, the soiling
    events, the first and the last row); the last row is not smoothed.  [final] is the covariance of the last estimate. *)
Definition tracked (v R : Qc) (med : list Qc) (soiling : list nat) (start : motion * cov) (zs : list (option Qc))
    (first last : list nat) (levels rates : list Qc) (final : cov) : Prop :=
  exists nows us events, let n := List.length zs in let now := nth (n - 1) nows start in
  pass v R med soiling start zs nows us events /\ nth 0 events [] = first /\ nth n events [] = last /\ final = snd now /\
  List.length levels = n /\ List.length rates = n /\
  (forall i e, next_to (last ++ [0%nat; (n - 1)%nat] ++ soiling) i e ->
     best_path v R (nth i nows start) (rows (S i) e zs) (combine (rows i e levels) (rows i e rates))) /\
  nth (n - 1) levels 0 = fst (fst now) /\ nth (n - 1) rates 0 = snd (fst now).
