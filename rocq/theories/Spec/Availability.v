(** Specification of the availability analysis. *)

From Coq Require Import QArith Qcanon List ZArith Bool Arith Sorted.
From Verif.Base Require Import QcExtra Fl TimeSeries.
From Verif.Spec Require Import Stats.
Import ListNotations.
Open Scope Qc_scope.

(** ** Subsystems *)

(** A subsystem at one time; the size is unknown if it was never online. *)
Record subsystem : Type := Subsystem { s_power : Qc; s_threshold : Qc; s_size : option Qc }.
Definition online (u : subsystem) : Prop := s_threshold u < s_power u.
Definition onlineb (u : subsystem) : bool := qlt (s_threshold u) (s_power u).

Definition size_or_0 (u : subsystem) : Qc := match s_size u with Some s => s | None => 0 end.
Definition capacity (l : list subsystem) : Qc := qsum (map size_or_0 l).
(** Part of the capacity that reports. *)
Definition online_share (l : list subsystem) : Qc := capacity (filter onlineb l) / capacity l.

(** Power per unit of size of the subsystems that report. *)
Fixpoint specific_powers (l : list subsystem) : list Qc :=
  match l with
  | [] => []
  | u :: l' =>
    match s_size u with
    | Some s => if onlineb u then s_power u / s :: specific_powers l' else specific_powers l'
    | None => specific_powers l'
    end
  end.
(** What the whole system would give at their mean. *)
Definition full_power (l : list subsystem) (F : Qc) : Prop :=
  specific_powers l <> [] /\ F = qmean (specific_powers l) * qlen l.

(** The smallest share of an offline subsystem, one if there is none of known size. *)
Definition offline_shares (l : list subsystem) (x : Qc) : Prop :=
  exists u s, In u l /\ ~ online u /\ s_size u = Some s /\ x = s / capacity l.
Definition smallest_offline (l : list subsystem) (x : Qc) : Prop :=
  (offline_shares l x /\ forall y, offline_shares l y -> x <= y) \/
  ((forall y, ~ offline_shares l y) /\ x = 1).

(** Some subsystem is offline, and the system misses more than three quarters of the
    smallest such share. *)
Definition downtime (l : list subsystem) (power : Qc) : Prop :=
  (exists u, In u l /\ ~ online u) /\
  exists F s, full_power l F /\ F <> 0 /\ smallest_offline l s /\ qf 3 4 * s < 1 - power / F.

(** The fraction of the system that is online. *)
Definition online_fraction (l : list subsystem) (power f : Qc) : Prop :=
  exists F, full_power l F /\ f = qmin 1 (qmax (online_share l) (power / F)).

Definition uncapped_loss (l : list subsystem) (power x : Qc) : Prop :=
  (downtime l power -> exists f, online_fraction l power f /\ x = power / f - power) /\
  (~ downtime l power -> x = 0).
Definition capped (limit : option fl) (power x0 x : Qc) : Prop :=
  match limit with
  | Some (Fin m) => x = if qlt m (x0 + power) then qmax 0 (m - power) else x0
  | Some NInf => x = 0
  | _ => x = x0
  end.

(** The loss of one time; nothing is lost while the system power is unknown, negative power
    counts as zero. *)
Definition loss_at (l : list subsystem) (limit : option fl) (power : fl) (x : Qc) : Prop :=
  match power with
  | Fin p => exists x0, uncapped_loss l (qmax 0 p) x0 /\ capped limit (qmax 0 p) x0 x
  | _ => x = 0
  end.

(** Rows of one value per subsystem. *)
Definition frame (n : nat) (rows : list (list fl)) : Prop := forall r, In r rows -> length r = n /\ noinf r.
(** The limit of row [i]. *)
Definition limit_at (limits : option (list fl)) (i : nat) : option fl :=
  match limits with Some l => nth_error l i | None => None end.
(** *** Where thresholds and sizes come from *)

Definition known_or_0 (x : fl) : Qc := match x with Fin q => q | _ => 0 end.
Definition system_power (power : fl) : Qc := qmax 0 (known_or_0 power).
Definition data (rows : list (list fl)) : list (list Qc) := map (map known_or_0) rows.
Definition in_column (j : nat) (rows : list (list Qc)) : list Qc := map (fun r => nth j r 0) rows.

Definition is_threshold (given : option (list fl)) (rows : list (list Qc)) (thr : list Qc) : Prop :=
  match given with
  | Some l => l = map Fin thr
  | None => forall j t, nth_error thr j = Some t -> exists v, is_percentile (qz 99) (in_column j rows) v /\ t = v / qz 1000
  end.

(** The powers of one row that are above their thresholds. *)
Definition powers_online (thr row : list Qc) : list Qc :=
  map fst (filter (fun pt => qlt (snd pt) (fst pt)) (combine row thr)).
(** Power of subsystem [j] relative to the mean of those online, for the rows where it is. *)
Definition relative_powers (thr : list Qc) (j : nat) (rows : list (list Qc)) : list Qc :=
  map (fun r => nth j r 0 / qmean (powers_online thr r)) (filter (fun r => qlt (nth j thr 0) (nth j r 0)) rows).
Definition is_size (given : option (list fl)) (rows : list (list Qc)) (thr : list Qc) (sizes : list (option Qc)) : Prop :=
  match given with
  | Some l => l = map (fun s => match s with Some q => Fin q | None => NaN end) sizes
  | None => forall j s, nth_error sizes j = Some s ->
      match s with Some m => is_median (relative_powers thr j rows) m | None => relative_powers thr j rows = [] end
  end.

Definition subsystems (row thr : list Qc) (sizes : list (option Qc)) : list subsystem :=
  map (fun p => Subsystem (fst (fst p)) (snd (fst p)) (snd p)) (combine (combine row thr) sizes).

(** ** Outages *)

(** The nearest daylight row at or before (after) [i]. *)
Definition last_daylight (l : list (option bool)) (i : nat) (b : bool) : Prop :=
  exists j, (j <= i)%nat /\ nth_error l j = Some (Some b) /\ forall k, (j < k <= i)%nat -> nth_error l k = Some None.
Definition next_daylight (l : list (option bool)) (i : nat) (b : bool) : Prop :=
  exists j, (i <= j)%nat /\ nth_error l j = Some (Some b) /\ forall k, (i <= k < j)%nat -> nth_error l k = Some None.
(** [l] tells for daylight rows whether nothing reported. *)
Definition in_outage (l : list (option bool)) (i : nat) : Prop := last_daylight l i true \/ next_daylight l i true.

(** Maximal runs of rows with a property. *)
Definition maximal_run (n : nat) (P : nat -> Prop) (a b : nat) : Prop :=
  (a <= b < n)%nat /\ (forall i, (a <= i <= b)%nat -> P i) /\
  (forall i, S i = a -> ~ P i) /\ (S b < n -> ~ P (S b))%nat.
Definition in_order (l : list (nat * nat)) : Prop := StronglySorted (fun x y => snd x < fst y)%nat l.

(** What each row tells: nothing at night, otherwise whether no subsystem reports. *)
Definition daylight_reports (masks : list (list bool)) (expected : list fl) (l : list (option bool)) : Prop :=
  length l = length masks /\
  forall i m e, nth_error masks i = Some m -> nth_error expected i = Some e ->
    (e = PInf \/ (exists q, e = Fin q /\ 0 < q) -> nth_error l i = Some (Some (negb (existsb (fun b => b) m)))) /\
    (e <> PInf -> (forall q, e = Fin q -> q <= 0) -> nth_error l i = Some None).

(** *** Classification *)

(** The rows [a .. b], and sums over them. *)
Definition rows_from (a b : nat) : list nat := seq a (S b - a).
Definition sum_rows (f : nat -> Qc) (a b : nat) : Qc := qsum (map f (rows_from a b)).
Definition known_at (l : list fl) (i : nat) : Qc := known_or_0 (nth i l NaN).
(** Rows with positive power. *)
Definition daylight_rows (power : list fl) (a b : nat) : nat :=
  length (filter (fun i => match nth i power NaN with Fin q => qlt 0 q | PInf => true | _ => false end) (rows_from a b)).

(** The meter before an outage that starts at row [a]; for the first row it is the last one. *)
Definition meter_before (meter : list fl) (a : nat) (x : fl) : Prop :=
  (exists k, a = S k /\ nth_error meter k = Some x) \/
  (a = 0%nat /\ exists k, S k = length meter /\ nth_error meter k = Some x).

(** Straight lines between the points, the end values outside. *)
Inductive clamped (l : list (Z * Qc)) (x : Z) : Qc -> Prop :=
| clamped_low : forall x0 y0 l', l = (x0, y0) :: l' -> (x <= x0)%Z -> clamped l x y0
| clamped_high : forall x0 y0 l', l = l' ++ [(x0, y0)] -> (x0 <= x)%Z -> clamped l x y0
| clamped_between : forall x1 y1 x2 y2 l1 l2, l = l1 ++ (x1, y1) :: (x2, y2) :: l2 -> (x1 <= x <= x2)%Z ->
    clamped l x (y1 + (y2 - y1) * (qz (x - x1) / qz (x2 - x1))).
Definition bound_at (l : list (Z * fl)) (x : Z) (y : Qc) : Prop :=
  exists k, l = map (fun p => (fst p, Fin (snd p))) k /\ StronglySorted Z.lt (map fst k) /\ clamped k x y.

(** Energy according to the meter. *)
Definition metered (start stop : fl) (x : Qc) : Prop := exists s t, start = Fin s /\ stop = Fin t /\ x = t - s.
Definition unknown_outage (expected : Qc) (start stop : fl) : Prop :=
  (forall x, ~ metered start stop x) \/ exists x, metered start stop x /\ x < - (qf 5 100 * expected).
Definition real_outage (expected err : Qc) (start stop : fl) (x : Qc) : Prop :=
  metered start stop x /\ - (qf 5 100 * expected) <= x /\ x < (1 + err) * expected.
Definition comms_outage (expected err : Qc) (start stop : fl) (x : Qc) : Prop :=
  metered start stop x /\ - (qf 5 100 * expected) <= x /\ (1 + err) * expected <= x.

(** *** Reconstruction *)

(** Times [t0], [t0 + w], …. *)
Definition evenly (t0 w : Z) (n : nat) : list Z := map (fun k => (t0 + w * Z.of_nat k)%Z) (seq 0 n).
(** Expected energy of the rows after [a] up to [i]. *)
Definition energy_after (h : Qc) (q : nat -> Qc) (a i : nat) : Qc := sum_rows (fun j => q j * h) (S a) i.

(** Lost power and corrected meter of an outage with a known loss: both follow the expected
    power; the first row of the meter is left empty. *)
Definition rebuilt (h : Qc) (q : nat -> Qc) (a b : nat) (loss actual start : Qc) (lost corrected : list fl) : Prop :=
  forall i, (a <= i <= b)%nat ->
    nth_error lost i = Some (Fin (q i * (loss / energy_after h q a b))) /\
    nth_error corrected i = Some (if (i =? a)%nat then NaN else Fin (start + actual * (energy_after h q a i / energy_after h q a b))).
(** Nothing is known about the others. *)
Definition blank (a b : nat) (lost corrected : list fl) : Prop :=
  forall i, (a <= i <= b)%nat -> nth_error lost i = Some NaN /\ nth_error corrected i = Some NaN.

(** ** Lost and actual production of a period *)

(** Total lost power of a row, if known. *)
Definition total_at (system subsystem : list fl) (i : nat) : option Qc :=
  match nth i system NaN, nth i subsystem NaN with Fin x, Fin y => Some (x + y) | _, _ => None end.
(** A row counts if the one before is known as well. *)
Definition lost_in (h : Qc) (system subsystem : list fl) (i : nat) : Qc :=
  match total_at system subsystem (i - 1), total_at system subsystem i with Some _, Some x => x * h | _, _ => 0 end.

(** Last known reading minus first known reading among the rows selected. *)
Definition meter_change (meter : list fl) (sel : nat -> bool) (a : fl) : Prop :=
  ((forall i, (i < length meter)%nat -> sel i = true -> nth_error meter i = Some NaN) /\ a = NaN) \/
  exists i j x y, (i <= j)%nat /\ sel i = true /\ sel j = true /\ nth_error meter i = Some (Fin x) /\ nth_error meter j = Some (Fin y) /\
    a = Fin (y - x) /\ forall k z, sel k = true -> nth_error meter k = Some (Fin z) -> (i <= k <= j)%nat.

(** ** Error of the expected energy *)

Definition shown (x : option Qc) : fl := match x with Some q => Fin q | None => NaN end.
(** No subsystem loss, and both powers positive. *)
Definition normal_row (loss power expected : list fl) (i : nat) : bool :=
  match nth i loss NaN, nth i power NaN, nth i expected NaN with
  | Fin x, Fin p, Fin e => qeq x 0 && qlt 0 p && qlt 0 e
  | _, _, _ => false
  end.
Definition normal_at (loss power expected : list fl) : list nat := filter (normal_row loss power expected) (seq 0 (length power)).
Definition total_over (l : list fl) (rows : list nat) : Qc := qsum (map (known_at l) rows).
(** Energy of a row, known if the row and the one before are. *)
Definition row_energy (h : Qc) (l : list fl) (i : nat) : option Qc :=
  match i with
  | O => None
  | S j => match nth j l NaN, nth i l NaN with Fin _, Fin x => Some (x * h) | _, _ => None end
  end.

(** Windows of [k] consecutive rows of a selection, and their relative errors. *)
Definition windows (k : nat) (rows : list nat) : list (list nat) :=
  map (fun s => firstn k (skipn s rows)) (seq 0 (S (length rows) - k)).
Fixpoint window_total (f : nat -> option Qc) (rows : list nat) : option Qc :=
  match rows with
  | [] => Some 0
  | i :: rows' => match f i, window_total f rows' with Some x, Some y => Some (x + y) | _, _ => None end
  end.
Fixpoint knowns (l : list (option Qc)) : list Qc :=
  match l with [] => [] | Some x :: l' => x :: knowns l' | None :: l' => knowns l' end.
Definition window_error (actual expected : nat -> option Qc) (win : list nat) : option Qc :=
  match window_total actual win, window_total expected win with Some x, Some y => Some (x / y - 1) | _, _ => None end.

(** The points of an error bound: for each power of two from 2 to at most half the number
    of rows, the percentile of the errors of the windows of that length. *)
Definition error_points (q : Qc) (actual expected : nat -> option Qc) (rows : list nat) (l : list (Z * fl)) : Prop :=
  StronglySorted Z.lt (map fst l) /\
  forall x y, In (x, y) l <-> exists k, (1 <= k)%nat /\ (2 ^ S k <= length rows)%nat /\ x = Z.of_nat (2 ^ k) /\
    (exists win, In win (windows (2 ^ k) rows) /\ (window_total actual win <> None \/ window_total expected win <> None)) /\
    let errors := knowns (map (window_error actual expected) (windows (2 ^ k) rows)) in
    (errors = [] /\ y = NaN) \/ (errors <> [] /\ exists v, is_percentile (qz 100 * q) errors v /\ y = Fin v).

(** The expected power in the unit of the meter. *)
Definition calibrated (rows : list nat) (power expected : list fl) (i : nat) : fl :=
  match nth i expected NaN with
  | Fin x => Fin (x * (total_over power rows / total_over expected rows))
  | _ => NaN
  end.
