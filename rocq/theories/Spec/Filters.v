(** Specifications for the filters. *)

From Coq Require Import QArith Qcanon List ZArith.
From Verif.Base Require Import QcExtra Fl Rolling.
From Verif.Spec Require Import Stats.
Import ListNotations.
Open Scope Qc_scope.

(** Strict order with infinities: [below x y] never holds for NaN. *)
Inductive below : fl -> fl -> Prop :=
| below_fin : forall a b, a < b -> below (Fin a) (Fin b)
| below_neg : forall b, below NInf (Fin b)
| below_pos : forall a, below (Fin a) PInf
| below_inf : below NInf PInf.

(** Row [i] of the mask is [t] with the truth of [P], in index order. *)
Definition mask_is (P : nat -> Z -> fl -> Prop) (s : series) (m : list (Z * bool)) : Prop :=
  map fst m = times s /\
  forall i t v b, nth_error s i = Some (t, v) -> nth_error m i = Some (t, b) -> (b = true <-> P i t v).

(** Number of rows kept. *)
Definition kept (m : list (Z * bool)) : nat := length (filter snd m).

(** The value of a column at a timestamp. *)
Definition value_at (s : series) (t : Z) (v : fl) : Prop :=
  In (t, v) s \/ (v = NaN /\ ~ In t (times s)).

(** Clear-sky index within [thr] of one.  An infinite clear-sky value gives index 0. *)
Definition index_near_one (thr : Qc) (measured clearsky : fl) : Prop :=
  exists m, measured = Fin m /\
    ((exists c, clearsky = Fin c /\ c <> 0 /\ 1 - thr <= m / c /\ m / c <= 1 + thr) \/
     ((clearsky = PInf \/ clearsky = NInf) /\ 1 - thr <= 0 /\ 0 <= 1 + thr)).

(** ** Robust statistics *)

Definition or_zero (v : fl) : Qc := match v with Fin q => q | _ => 0 end.
(** The values above a thousandth of the quantile of the data with zeros for missing
    values. *)
Definition robust_part (q : Qc) (x : list fl) (l : list Qc) : Prop :=
  exists z, is_percentile (qz 100 * q) (map or_zero x) z /\
    l = filter (fun v => qlt (z / qz 1000) v) (finvals x).

(** ** Windows *)

(** [selected P k s l]: [l] are the values of the rows of [s], numbered from [k], that have
    a value and satisfy [P]. *)
Inductive selected (P : nat -> Z -> Prop) : nat -> series -> list Qc -> Prop :=
| sel_nil : forall k, selected P k [] []
| sel_take : forall k t q s l, P k t -> selected P (S k) s l -> selected P k ((t, Fin q) :: s) (q :: l)
| sel_skip : forall k t v s l, (~ P k t \/ forall q, v <> Fin q) -> selected P (S k) s l ->
    selected P k ((t, v) :: s) l.

(** Windows of row (i, t), as conditions on row (j, u). *)
Definition within := nat -> Z -> nat -> Z -> Prop.
Definition last_time_span (w : Z) : within := fun _ t _ u => (t - w <= u <= t)%Z.
Definition next_time_span (w : Z) : within := fun _ t _ u => (t <= u <= t + w)%Z.
Definition around_time_span (w : Z) : within := fun _ t _ u => (- w < 2 * (u - t) <= w)%Z.
Definition last_rows (n : nat) : within := fun i _ j _ => (j <= i <= j + n)%nat.
Definition next_rows (n : nat) : within := fun i _ j _ => (i <= j <= i + n)%nat.
(** [k] rows, as many before as after (one more before if [k] is even). *)
Definition around_rows (k : nat) : within := fun i _ j _ => (j <= i + (k - 1) / 2 /\ i + (k - 1) / 2 < j + k)%nat.

(** The windows meant by a span, a time or a number of rows. *)
Definition last_span (sp : span) : within := match sp with ByTime w => last_time_span w | ByRows n => last_rows n end.
Definition next_span (sp : span) : within := match sp with ByTime w => next_time_span w | ByRows n => next_rows n end.
Definition around_span (sp : span) : within := match sp with ByTime w => around_time_span w | ByRows n => around_rows n end.

(** The window of a row contains the row. *)
Definition proper_span (sp : span) : Prop := match sp with ByTime w => (0 < w)%Z | ByRows k => (1 <= k)%nat end.

(** The median of the values in the window of row [i], if there are at least [least]. *)
Definition window_median (W : within) (least : nat) (s : series) (i : nat) (m : Qc) : Prop :=
  exists t v l, nth_error s i = Some (t, v) /\ selected (W i t) 0 s l /\ (least <= length l)%nat /\ is_median l m.

(** Distance of row [i] from its window median. *)
Definition distance (W : within) (least : nat) (s : series) (i : nat) (d : Qc) : Prop :=
  exists t q m, nth_error s i = Some (t, Fin q) /\ window_median W least s i m /\ d = q - m.

(** Two-way window: close to the median on this side, or no distance there. *)
Definition close_on (W : within) (s : series) (z thr : Qc) (i : nat) : Prop :=
  (exists d, distance W 5 s i d /\ qabs d < thr * qabs z) \/
  ((forall d, ~ distance W 5 s i d) /\ 0 < thr).

(** All distances, in row order. *)
Inductive distances (W : within) (least : nat) (s : series) : nat -> list Qc -> Prop :=
| ds_end : forall k, nth_error s k = None -> distances W least s k []
| ds_take : forall k d l, distance W least s k d -> distances W least s (S k) l -> distances W least s k (d :: l)
| ds_skip : forall k l, nth_error s k <> None -> (forall d, ~ distance W least s k d) ->
    distances W least s (S k) l -> distances W least s k l.

(** Strictly between the fences; the lower one is fixed. *)
Definition inside_fences (W : within) (s : series) (k : Qc) (i : nat) : Prop :=
  exists l p25 p75 d, distances W 5 s 0 l /\ is_percentile (qz 25) l p25 /\ is_percentile (qz 75) l p75 /\
    distance W 5 s i d /\ p25 - qf 3 2 * (p75 - p25) < d /\ d < p75 + k * (p75 - p25).

(** Hampel: the median distance around row [i] of the absolute distances. *)
Definition abs_distance (W : within) (s : series) (i : nat) (d : Qc) : Prop :=
  exists d0, distance W 1 s i d0 /\ d = qabs d0.
Definition median_deviation (W : within) (s : series) (i : nat) (m : Qc) : Prop :=
  exists t v s', nth_error s i = Some (t, v) /\ times s' = times s /\
    (forall j u x, nth_error s' j = Some (u, x) ->
       (exists d, x = Fin d /\ abs_distance W s j d) \/ (x = NaN /\ forall d, ~ abs_distance W s j d)) /\
    window_median W 1 s' i m.

(** ** Piecewise linear table lookup *)

(** Between two consecutive table points, or flat outside. *)
Inductive on_table : list (Qc * Qc) -> Qc -> Qc -> Prop :=
| tab_before : forall x0 y0 rest x, x <= x0 -> on_table ((x0, y0) :: rest) x y0
| tab_segment : forall pre x0 y0 x1 y1 rest x, x0 <= x -> x <= x1 ->
    on_table (pre ++ (x0, y0) :: (x1, y1) :: rest) x (y0 + (y1 - y0) / (x1 - x0) * (x - x0))
| tab_after : forall pre xn yn x, xn <= x -> on_table (pre ++ [(xn, yn)]) x yn.

(** Increasing points. *)
Fixpoint table_sorted (table : list (Qc * Qc)) : Prop :=
  match table with
  | (x0, y0) :: (((x1, y1) :: _) as rest) => x0 < x1 /\ y0 <= y1 /\ table_sorted rest
  | _ => True
  end.


(** Detector parameters as published, by minutes between rows. *)
Definition published_windows : list (Qc * Qc) := [(qz 1, qz 50); (qz 5, qz 60); (qz 15, qz 90); (qz 30, qz 120)].
Definition published_max_diffs : list (Qc * Qc) := [(qz 1, qz 60); (qz 5, qz 65); (qz 15, qz 75); (qz 30, qz 90)].
Definition published_var_diffs : list (Qc * Qc) :=
  [(qz 1, qf 5 1000); (qz 5, qf 10 1000); (qz 15, qf 32 1000); (qz 30, qf 70 1000)].
Definition published_slope_devs : list (Qc * Qc) := [(qz 1, qz 50); (qz 5, qz 60); (qz 15, qz 75); (qz 30, qz 96)].
