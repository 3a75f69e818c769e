(** What figures show, without the functions that draw them. *)

From Coq Require Import QArith Qcanon List ZArith Bool Sorted.
From Verif.Base Require Import QcExtra Fl.
From Verif.Spec Require Import Stats.
From Verif.Model Require Import Plots.
Import ListNotations.
Open Scope Qc_scope.

(** How many members of a list have a property. *)
Inductive tally {A} (P : A -> Prop) : list A -> nat -> Prop :=
| tally_nil : tally P [] 0
| tally_in : forall a l n, P a -> tally P l n -> tally P (a :: l) (S n)
| tally_out : forall a l n, ~ P a -> tally P l n -> tally P (a :: l) n.

(** The finite numbers of a column of numbers and missing values. *)
Inductive numbers : list fl -> list Qc -> Prop :=
| numbers_nil : numbers [] []
| numbers_missing : forall l qs, numbers l qs -> numbers (NaN :: l) qs
| numbers_value : forall q l qs, numbers l qs -> numbers (Fin q :: l) (q :: qs).

(** A histogram runs from the least to the largest number, or over one unit around the only one. *)
Definition range_of (qs : list Qc) (lo hi : Qc) : Prop :=
  exists a b, is_min qs a /\ is_max qs b /\ ((a < b /\ lo = a /\ hi = b) \/ (a = b /\ lo = a - qf 1 2 /\ hi = b + qf 1 2)).
(** [n] bars of equal widths side by side; a bar counts the numbers from its left edge up to, and
    for the last bar including, its right edge. *)
Definition bars_show (qs : list Qc) (lo hi : Qc) (n : nat) (bars : list bar) : Prop :=
  length bars = n /\
  forall k b, nth_error bars k = Some b ->
    b_left b = lo + qz (Z.of_nat k) * ((hi - lo) / qz (Z.of_nat n)) /\
    b_right b = b_left b + (hi - lo) / qz (Z.of_nat n) /\
    tally (fun v => b_left b <= v /\ (v < b_right b \/ (S k = n /\ v = b_right b))) qs (b_height b).
Definition histogram_shows (l : list fl) (n : Z) (bars : list bar) : Prop :=
  (1 <= n)%Z /\
  ((l = [] /\ bars_show [] 0 1 (Z.to_nat n) bars) \/
   exists qs lo hi, numbers l qs /\ range_of qs lo hi /\ bars_show qs lo hi (Z.to_nat n) bars).

(** The heights together. *)
Definition total (bars : list bar) : nat := fold_right Nat.add 0%nat (map b_height bars).

(** The number of bars of a summary: at most one for each value; by default one for 40 values. *)
Definition bars_of_summary (bins : option Z) (values : nat) (n : Z) : Prop :=
  match bins with
  | Some b => (n <= b /\ n <= Z.of_nat values /\ (n = b \/ n = Z.of_nat values))%Z
  | None => (40 * n <= Z.of_nat values < 40 * n + 40)%Z
  end.
Definition color_for (u : Z) (c : option color) : Prop := (u = 0%Z /\ c = Some Red) \/ (u = 1%Z /\ c = Some Green) \/ (u = 2%Z /\ c = Some Chosen).
(** Colours of points: one for all, or by the numbers of uses. *)
Definition colors_show (detailed : bool) (usage : list Z) (colors : list (option color)) : Prop :=
  if detailed then
    Forall (fun u => u = 0 \/ u = 1 \/ u = 2)%Z usage /\
    ((length usage = length colors /\ Forall2 color_for usage colors) \/
     (length usage <> length colors /\ ((usage = [] /\ Forall (fun c => c = None) colors) \/ exists u, usage = [u] /\ Forall (color_for u) colors)))
  else Forall (fun c => c = Some Chosen) colors.
Definition whole_days (d : Z) (n : Z) : Prop := (n * (86400 * 1000000000) <= d < (n + 1) * (86400 * 1000000000))%Z.

Definition summary_shows (rd : fl) (ci : fl * fl) (values : series) (renorm : fl) (usage : list Z) (y : series) (bins : option Z) (detailed : bool) (f : summary_figure) : Prop :=
  map fst (m_points f) = map (fun r => (fst r, fdiv (snd r) renorm)) y /\ colors_show detailed usage (map snd (m_points f)) /\
  (exists a b days, nth_error y 0 = Some a /\ nth_error y (length y - 1) = Some b /\ whole_days (fst b - fst a) days /\
     fst (m_line f) = (fst a, Fin 1) /\ fst (snd (m_line f)) = fst b /\
     snd (snd (m_line f)) = fadd (Fin 1) (fdiv (fmul rd (Fin (qz days / qf 36525 100))) (fz 100))) /\
  (exists n, bars_of_summary bins (length values) n /\ histogram_shows (vals values) n (m_bars f)) /\
  m_mark f = rd /\ m_rate f = rd /\ m_interval f = ci /\
  (if detailed then exists n, m_count f = Some n /\ tally (fun v => v <> NaN) (vals values) n else m_count f = None).

(** ** Rolling trend *)

(** The finite numbers of the rows with a property of position and time, in order. *)
Inductive numbers_at (P : nat -> Z -> Prop) : nat -> series -> list Qc -> Prop :=
| at_nil : forall i, numbers_at P i [] []
| at_take : forall i t q l qs, P i t -> numbers_at P (S i) l qs -> numbers_at P i ((t, Fin q) :: l) (q :: qs)
| at_skip : forall i t v l qs, ~ P i t \/ (forall q, v <> Fin q) -> numbers_at P (S i) l qs -> numbers_at P i ((t, v) :: l) qs.
Definition day_length : Z := (86400 * 1000000000)%Z.
(** The numbers of row [i] and of the rows before it less than [days] days away. *)
Definition last_days (days : Z) (s : series) (i : nat) (qs : list Qc) : Prop :=
  exists t v, nth_error s i = Some (t, v) /\ numbers_at (fun j u => (j <= i)%nat /\ (- (days * day_length) < t - u < days * day_length)%Z) 0 s qs.
(** At least half as many numbers as days, rounded down. *)
Definition enough (days : Z) (qs : list Qc) : Prop := (days <= 2 * Z.of_nat (length qs) + 1)%Z.
Definition median_shown (qs : list Qc) (v : fl) : Prop := (qs = [] /\ v = NaN) \/ exists m, v = Fin m /\ is_median qs m.
Definition curve_shows (days : Z) (s : series) (i : nat) (v : fl) : Prop :=
  exists qs, last_days days s i qs /\ ((enough days qs /\ median_shown qs v) \/ (~ enough days qs /\ v = NaN)).
Definition ordered (l : list Z) : Prop := Sorted Z.le l \/ Sorted Z.ge l.
(** Positions drawn with replacement. *)
Definition drawn (n : nat) (ds : list (list nat)) : Prop := ds <> [] /\ forall d, In d ds -> d <> [] /\ forall i, In i d -> (i < n)%nat.
(** A percentile of the medians of drawn numbers. *)
Definition resampled (p : Qc) (qs : list Qc) (ds : list (list nat)) (v : fl) : Prop :=
  exists ms x, Forall2 (fun d m => is_median (map (fun i => nth i qs 0) d) m) ds ms /\ v = Fin x /\ is_percentile p ms x.
(** A number between all bounds of the numbers. *)
Definition within_limits (qs : list Qc) (v : fl) : Prop := exists x, v = Fin x /\ forall a b, (forall q, In q qs -> a <= q /\ q <= b) -> a <= x /\ x <= b.
(** Times at least [g] days apart. *)
Definition apart (g : Z) (l : list Z) : Prop := Sorted (fun a b => (a + g * day_length <= b)%Z) l.
