(** Specifications for regression and trend tests. *)

From Coq Require Import QArith Qcanon List ZArith.
From Verif.Base Require Import QcExtra Fl.
Import ListNotations.
Open Scope Qc_scope.

(** Elapsed time in 365-day years. *)
Definition years_between (t0 t : Z) : Qc := qz (t - t0) / qz (365 * 86400 * 1000000000).

(** Sum of squared deviations of the available values from the line
    [b + m * (years since t0)]. *)
Fixpoint sq_error (t0 : Z) (s : series) (b m : Qc) : Qc :=
  match s with
  | [] => 0
  | (t, Fin y) :: s' => (y - (b + m * years_between t0 t)) * (y - (b + m * years_between t0 t))
                        + sq_error t0 s' b m
  | _ :: s' => sq_error t0 s' b m
  end.

(** Sums over the available rows: their number, their times and the squares of their
    times, in years since [t0] (the entries of the normal matrix). *)
Definition row_years (t0 : Z) (s : series) : list Qc :=
  flat_map (fun r => match snd r with Fin _ => [years_between t0 (fst r)] | _ => [] end) s.
Definition sum_1 (t0 : Z) (s : series) : Qc := qz (Z.of_nat (length (row_years t0 s))).
Definition sum_x (t0 : Z) (s : series) : Qc := qsum (row_years t0 s).
Definition sum_xx (t0 : Z) (s : series) : Qc := qsum (map (fun x => x * x) (row_years t0 s)).

(** The symmetric matrix [vb vc; vc vm] times the normal matrix is [e] times the
    identity. *)
Definition is_covariance (t0 : Z) (s : series) (e vb vc vm : Qc) : Prop :=
  vb * sum_1 t0 s + vc * sum_x t0 s = e /\ vb * sum_x t0 s + vc * sum_xx t0 s = 0 /\
  vc * sum_1 t0 s + vm * sum_x t0 s = 0 /\ vc * sum_x t0 s + vm * sum_xx t0 s = e.

(** Two values known at different times. *)
Definition spread_out (s : series) : Prop := exists t1 t2 y1 y2, In (t1, Fin y1) s /\ In (t2, Fin y2) s /\ t1 <> t2.
(** Three available values at at least two different times. *)
Definition enough_points (s : series) : Prop :=
  (exists t1 t2 y1 y2, In (t1, Fin y1) s /\ In (t2, Fin y2) s /\ t1 <> t2) /\
  (3 <= length (finvals (map snd s)))%nat.

(** Every available value lies on the line with value [a] at [t0] and slope [c] per
    365 days. *)
Definition on_line_from (t0 : Z) (a c : Qc) (s : series) : Prop :=
  forall t e, In (t, e) s -> e = NaN \/ e = Fin (a + c * years_between t0 t).

(** Concordant / discordant pairs of a list. *)
Fixpoint pairs {A} (l : list A) : list (A * A) :=
  match l with [] => [] | a :: l' => map (fun b => (a, b)) l' ++ pairs l' end.

Definition rises (p : Qc * Qc) : bool := qlt (fst p) (snd p).
Definition falls (p : Qc * Qc) : bool := qlt (snd p) (fst p).
Definition concordance (l : list Qc) : Z :=
  (Z.of_nat (length (filter rises (pairs l))) - Z.of_nat (length (filter falls (pairs l))))%Z.

(** The Mann-Kendall variance: tied groups reduce it.  [vs] lists the distinct
    values. *)
Definition multiplicity (v : Qc) (x : list Qc) : Z := Z.of_nat (length (filter (qeq v) x)).
Definition distinct_values (x vs : list Qc) : Prop := NoDup vs /\ forall v, In v vs <-> In v x.
Definition group_term (n : Z) : Z := (n * (n - 1) * (2 * n + 5))%Z.
Definition tie_terms (x vs : list Qc) : Qc :=
  qsum (map (fun v => qz (group_term (multiplicity v x))) vs).
Definition mann_kendall_variance (x vs : list Qc) : Qc :=
  (qz (group_term (Z.of_nat (length x))) - tie_terms x vs) / qz 18.

(** ** Classical decomposition *)

(** Row [i] carries a value. *)
Definition available_at (s : series) (i : nat) : Prop :=
  exists t e, nth_error s i = Some (t, e) /\ e <> NaN.

(** The rows that carry a value are evenly spaced. *)
Definition evenly_spaced (s : series) : Prop :=
  exists a d n, (1 <= d)%nat /\ (1 <= n)%nat /\
    forall i, available_at s i <-> exists k, (k < n)%nat /\ i = (a + k * d)%nat.

(** 365 days in nanoseconds. *)
Definition year_ns : Z := (365 * 86400 * 1000000000)%Z.

(** At least half a year away from both ends. *)
Definition inside (first last t : Z) : Prop :=
  (year_ns <= 2 * (t - first))%Z /\ (year_ns <= 2 * (last - t))%Z.

(** Within half a year of [t], the earlier end excluded. *)
Definition within_half_year (t u : Z) : Prop :=
  (- year_ns < 2 * (u - t) <= year_ns)%Z.

(** [n] rows, [step] apart, on the line with value [a] at [t0] and slope [c] per
    365 days. *)
Definition regular_line (t0 step : Z) (n : nat) (a c : Qc) : series :=
  map (fun k => let t := (t0 + Z.of_nat k * step)%Z in (t, Fin (a + c * years_between t0 t))) (seq 0 n).
