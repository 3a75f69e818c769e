(** rdtools/soiling.py, 844-1069: annual and monthly summaries of the soiling rate analysis.
    Indexes are strictly increasing and without time zone. *)

From Coq Require Import QArith Qcanon List ZArith Bool Arith String.
From Verif.Base Require Import QcExtra ISort Quantile Fl TimeSeries Calendar Rolling.
From Verif.Model Require Import Soiling.
Import ListNotations.
Open Scope list_scope.
Open Scope Qc_scope.

(** ** annual_soiling_ratios, 856-934 *)

(** 899-900: rows in which every realisation has a value. *)
Definition complete_rows (profiles : list series) : list (Z * list fl) :=
  filter (fun r => forallb notnan (snd r))
    (map (fun t => (t, map (fun p => lookup p t) profiles)) (zset (flat_map times profiles))).

(** 912-922: the weighted mean of realisation [j] over the rows of one year. *)
Definition year_ratio (insolation : series) (rows : list (Z * list fl)) (j : nat) : fl :=
  let total := fsum (map (fun r => lookup insolation (fst r)) rows) in
  let weighted := fsum (map (fun r => fmul (nth j (snd r) NaN) (lookup insolation (fst r))) rows) in
  fmul weighted (fdiv (fz 1) total).

Record annual : Type := Annual { y_year : Z; y_median : fl; y_low : fl; y_high : fl }.

Definition quantile_levels (confidence_level : Qc) : Qc * Qc :=
  (qf 1 2 - confidence_level / qz 2 / qz 100, qf 1 2 + confidence_level / qz 2 / qz 100).

(** [pd.concat] of nothing is a ValueError, as are quantiles outside [0, 1]. *)
Definition annual_soiling_ratios (profiles : list series) (insolation : series) (confidence_level : Qc) : result (list annual) :=
  match profiles with
  | [] => Raise ValueError
  | _ =>
    let rows := complete_rows profiles in
    let '(low, high) := quantile_levels confidence_level in
    if qle 0 low && qle low 1 && qle 0 high && qle high 1 then
      Ok (map (fun y =>
                 let mine := filter (fun r => (ts_year (fst r) =? y)%Z) rows in
                 let ratios := map (year_ratio insolation mine) (seq 0 (List.length profiles)) in
                 Annual y (fquantile (qf 1 2) ratios) (fquantile low ratios) (fquantile high ratios))
              (zset (map (fun r => ts_year (fst r)) rows)))
    else Raise ValueError
  end.

(** ** _count_month_days, 844-853 *)

(** [pd.date_range(start, end)] and the days of it in a month. *)
Definition date_range (start finish : Z) : list Z :=
  map (fun k => (start + Z.of_nat k * ns_day)%Z) (seq 0 (Z.to_nat ((finish - start) / ns_day + 1))).
Definition count_month_days (start finish month : Z) : Z :=
  Z.of_nat (List.length (filter (fun t => (ts_month t =? month)%Z) (date_range start finish))).

(** ** monthly_soiling_rates, 937-1069 *)

(** 1005-1013. *)
Definition of_interest (min_interval_length : Z) (max_relative_slope_error : fl) (i : interval) : bool :=
  (min_interval_length <=? i_length i)%Z && i_valid i &&
  fle (fmul (fz 100) (fabs (fdiv (fsub (i_slope_high i) (i_slope_low i)) (i_slope i)))) max_relative_slope_error.

(** 1020-1030: samples of one month by interval. *)
Definition month_samples (reps : Z) (days : list Z) : list Z :=
  let total := fold_right Z.add 0%Z days in
  if (0 <? total)%Z then map (fun d => qceil (qz d / qz total * qz reps)) days else map (fun _ => 0%Z) days.

Record monthly : Type := Monthly { m_month : Z; m_median : fl; m_low : fl; m_high : fl; m_count : nat }.

(** 1036-1056: the random numbers of a month are given by interval and number. *)
Definition month_rates (u : nat -> nat -> Qc) (relevant : list (interval * Z)) : result (list fl) :=
  bind (map_result (fun p => map_result (fun k => uniform (u (fst p) k) (i_slope_low (fst (snd p))) (i_slope_high (fst (snd p))))
                                         (seq 0 (Z.to_nat (snd (snd p)))))
                   (combine (seq 0 (List.length relevant)) relevant))
       (fun l => Ok (List.concat l)).
Definition month_row (u : nat -> nat -> Qc) (confidence_level : Qc) (reps : Z) (intervals : list interval) (month : Z) : result monthly :=
  let days := map (fun i => count_month_days (i_start i) (i_end i) month) intervals in
  let relevant := filter (fun p => (0 <? snd p)%Z) (combine intervals (month_samples reps days)) in
  bind (month_rates u relevant) (fun rates =>
  match rates with
  | [] => Ok (Monthly month NaN NaN NaN (List.length relevant))
  | _ =>
    let '(low, high) := quantile_levels confidence_level in
    if qle 0 low && qle low 1 && qle 0 high && qle high 1 then
      Ok (Monthly month (fquantile (qf 1 2) rates) (fquantile low rates) (fquantile high rates) (List.length relevant))
    else Raise ValueError
  end).
Definition monthly_soiling_rates (u : nat -> nat -> nat -> Qc) (summary : list interval) (min_interval_length : Z) (max_relative_slope_error : fl)
    (reps : Z) (confidence_level : Qc) : result (list monthly) :=
  let intervals := filter (of_interest min_interval_length max_relative_slope_error) summary in
  map_result (fun m => month_row (u m) confidence_level reps intervals (Z.of_nat m)) (seq 1 12).
