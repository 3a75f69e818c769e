(** Model of degradation_year_on_year, /repo/rdtools/degradation.py:180-356.

    Arguments standing for external behaviour:
    - [infer]: [index.inferred_freq] / [pd.infer_freq] turned into "subtract one
      step"; [None] when no frequency can be inferred (degradation.py:242-245,
      253);
    - [sortv]: [sort_values('dt_shifted')] (degradation.py:277), not a stable
      sort in pandas, so any sorted arrangement is allowed;
    - [choice]: the index matrix drawn by [np.random.choice] (degradation.py:308),
      given as one list of positions per repetition;
    - [starts]: the block starts drawn by the circular block bootstrap.
    Timestamps are naive or in one fixed-offset zone. *)

From Coq Require Import QArith Qcanon List ZArith Bool.
From Verif.Base Require Import QcExtra ISort Quantile Fl Calendar.
From Verif.Model Require Import Utilities Bootstrap.
Import ListNotations.
Open Scope Qc_scope.

(** [sort_index()], degradation.py:232. *)
Definition row_le (a b : Z * fl) : bool := (fst a <=? fst b)%Z.
Definition sort_index (s : series) : series := isort row_le s.

(** Consecutive differences. *)
Fixpoint diffs (l : list Z) : list Z :=
  match l with
  | x :: ((y :: _) as l') => (y - x)%Z :: diffs l'
  | _ => []
  end.

(** degradation.py:242-248: is the span shorter than two calendar years minus one
    step?  Without an inferred frequency the step is the median difference
    (degradation.py:245; pandas rounds it to whole nanoseconds, the model does
    not); with a single row it is NaT and the comparison is false. *)
Definition too_short (infer : list Z -> option (Z -> Z)) (ts : list Z) (first last : Z) : bool :=
  match infer ts with
  | Some minus_step => (last <? minus_step (add_years 2 first))%Z
  | None =>
      match diffs ts with
      | [] => false
      | ds => qlt (qz last) (qz (add_years 2 first) - qmedian (map qz ds))
      end
  end.

(** degradation.py:280: the tolerance of the as-of merge, 8 days. *)
Definition tolerance : Z := (8 * ns_day)%Z.

(** Partner of a left row in [pd.merge_asof(..., left_on='dt',
    right_on='dt_shifted', tolerance=8D)], degradation.py:276-281: the last row of
    the sorted right table whose key is not after the left key, rejected when it is
    more than the tolerance before. *)
Definition asof_match (right : series) (dt : Z) : option (Z * fl) :=
  match last_such (fun r => add_years 1 (fst r) <=? dt)%Z right with
  | Some r => if (dt - add_years 1 (fst r) <=? tolerance)%Z then Some r else None
  | None => None
  end.

(** A row of the merged frame, degradation.py:276-285. *)
Record yoy_row : Type := mk_yoy_row {
  yr_dt : Z; yr_energy : fl; yr_right : option (Z * fl); yr_yoy : fl }.

(** degradation.py:283: [(dt - dt_right) / Timedelta('365d')]. *)
Definition time_diff_years (dt dt_right : Z) : Qc := qz (dt - dt_right) / qz (365 * ns_day).

(** degradation.py:283-284; a row without partner has NaN everywhere. *)
Definition yoy_value (dt : Z) (energy : fl) (m : option (Z * fl)) : fl :=
  match m with
  | None => NaN
  | Some (dt_right, energy_right) =>
      fdiv (fmul (fz 100) (fsub energy energy_right)) (Fin (time_diff_years dt dt_right))
  end.

Definition merged (sortv : series -> series) (rows : series) : list yoy_row :=
  let right := sortv rows in
  map (fun r => let m := asof_match right (fst r) in
                mk_yoy_row (fst r) (snd r) m (yoy_value (fst r) (snd r) m)) rows.

(** degradation.py:287: [df.yoy.dropna()]. *)
Definition yoy_result (df : list yoy_row) : series :=
  filter (fun p => notnan (snd p)) (map (fun r => (yr_dt r, yr_yoy r)) df).

Definition b2z (b : bool) : Z := if b then 1%Z else 0%Z.

(** degradation.py:289: rows indexed by dt_right, first occurrence only; the
    value looked up at a timestamp. *)
Definition right_used (df : list yoy_row) (t : Z) : option bool :=
  match find (fun r => match yr_right r with Some p => (fst p =? t)%Z | None => false end) df with
  | Some r => Some (notnan (yr_yoy r))
  | None => None
  end.

(** degradation.py:290-291: aligned sum with [fill_value=0]. *)
Definition usage_of_points (df : list yoy_row) : list (Z * Z) :=
  map (fun r => (yr_dt r,
                 (b2z (notnan (yr_yoy r)) +
                  match right_used df (yr_dt r) with Some b => b2z b | None => 0 end)%Z)) df.

(** degradation.py:261-267. *)
Definition renorm_factor (recenter : bool) (s : series) (first : Z) : fl :=
  if recenter then
    robust_median q99 (vals (filter (fun r => ((first <=? fst r) && (fst r <=? first + 364 * ns_day))%Z) s))
  else Fin 1.

Inductive umethod : Type := Simple | CircularBlock (block_length : Z) | NoUncertainty.

Record yoy_out : Type := mk_yoy_out {
  yo_rate : fl; yo_values : series; yo_renorm : fl; yo_usage : list (Z * Z);
  yo_ci : option (fl * fl); yo_exceedance : option fl }.

(** degradation.py:250-259: the two guards of the circular block method.
    [block_length > len / 3] is compared exactly. *)
Definition circular_guard (infer : list Z -> option (Z -> Z)) (m : umethod) (s : series) : result unit :=
  match m with
  | CircularBlock L =>
      match infer (times s) with
      | None => Raise ValueError
      | Some _ => if (Z.of_nat (length s) <? 3 * L)%Z then Raise ValueError else Ok tt
      end
  | _ => Ok tt
  end.

(** degradation.py:231-296: everything up to the rate.  An empty input makes
    [index[-1]] raise IndexError. *)
Definition yoy_core (infer : list Z -> option (Z -> Z)) (sortv : series -> series)
    (recenter : bool) (m : umethod) (input : series) : result (yoy_out * series) :=
  let s := sort_index input in
  match s with
  | [] => Raise IndexError
  | (first, _) :: _ =>
    let last := fst (List.last s (first, NaN)) in
    if too_short infer (times s) first last then Raise ValueError else
    bind (circular_guard infer m s) (fun _ =>
    let renorm := renorm_factor recenter s first in
    let rows := map (fun r => (fst r, fdiv (snd r) renorm)) s in
    let df := merged sortv rows in
    let res := yoy_result df in
    match res with
    | [] => Raise ValueError
    | _ => Ok (mk_yoy_out (fmedian (vals res)) res renorm (usage_of_points df) None None, rows)
    end)
  end.

(** degradation.py:308-309: medians of resampled YoY values. *)
Definition resampled_medians (choice : nat -> list (list nat)) (values : list fl) : list fl :=
  map (fun d => fmedian (map (fun i => nth i values NaN) d)) (choice (length values)).

(** degradation.py:325-332: the trend line [1 + Rd/100/365 * i * days_per_index]. *)
Definition trend (rate : fl) (rows : series) : list fl :=
  match rows with
  | [] => []
  | (first, _) :: _ =>
    let last := fst (List.last rows (first, NaN)) in
    let N := length rows in
    let days_per_index := qz ((last - first) / ns_day)%Z / qz (Z.of_nat N) in
    map (fun i => fadd (Fin 1) (fmul (fmul (fdiv (fdiv rate (fz 100)) (fz 365)) (fz (Z.of_nat i)))
                                 (Fin days_per_index)))
        (seq 0 N)
  end.

(** degradation.py:180-356.  The circular block branch re-enters the function with
    [recenter=False, uncertainty_method='none'] on every bootstrap column
    (degradation.py:340-344). *)
Definition degradation_year_on_year (infer : list Z -> option (Z -> Z)) (sortv : series -> series)
    (choice : nat -> list (list nat)) (starts : list (list nat))
    (recenter : bool) (exceedance_prob confidence_level : Qc) (m : umethod)
    (input : series) : result yoy_out :=
  bind (yoy_core infer sortv recenter m input) (fun r =>
  let o := fst r in let rows := snd r in
  match m with
  | NoUncertainty => Ok o
  | Simple =>
      let mb1 := resampled_medians choice (vals (yo_values o)) in
      bind (percentile_ci confidence_level mb1) (fun ci =>
      bind (exceedance exceedance_prob mb1) (fun ex =>
      Ok (mk_yoy_out (yo_rate o) (yo_values o) (yo_renorm o) (yo_usage o) (Some ci) (Some ex))))
  | CircularBlock L =>
      bind (make_samples Multiplicative (Z.to_nat L) (vals rows) (trend (yo_rate o) rows) starts)
        (fun samples =>
      let fit := fun col =>
        bind (yoy_core infer sortv false NoUncertainty (combine (times rows) col))
             (fun r => Ok (yo_rate (fst r))) in
      bind (construct_ci fit exceedance_prob confidence_level samples) (fun c =>
      let '(ci, ex, _) := c in
      Ok (mk_yoy_out (yo_rate o) (yo_values o) (yo_renorm o) (yo_usage o) (Some ci) (Some ex))))
  end).
