(** rdtools/soiling.py: SRRAnalysis. *)

From Coq Require Import QArith Qcanon List ZArith Bool Arith String.
From Verif.Base Require Import QcExtra ISort Quantile Fl TimeSeries Calendar Rolling.
Import ListNotations.
Open Scope list_scope.
Open Scope Qc_scope.

(** ** SRRAnalysis.__init__, 60-80 *)

(** [pd.infer_freq] returns 'D' for at least three times one day apart, and raises
    ValueError (as the code does otherwise) for fewer than three. *)
Fixpoint daily_from (t : Z) (l : list Z) : bool :=
  match l with [] => true | u :: l' => (u =? t + ns_day)%Z && daily_from u l' end.
Definition inferred_daily (l : list Z) : bool :=
  (3 <=? List.length l)%nat && match l with [] => false | t :: l' => daily_from t l' end.
Definition srr_init (pm insolation : series) (precipitation : option series) : result unit :=
  if inferred_daily (times pm) && inferred_daily (times insolation) &&
     match precipitation with None => true | Some p => inferred_daily (times p) end
  then Ok tt else Raise ValueError.

(** ** _calc_daily_df, 82-213 *)

(** 137-139: rows from the first to the last valid one. *)
Fixpoint drop_missing (s : series) : series :=
  match s with [] => [] | r :: s' => if isnan (snd r) then drop_missing s' else s end.
Definition valid_part (s : series) : series := rev (drop_missing (rev (drop_missing s))).

(** 145-149: [df.loc[start : start + 364d, 'pi'].median()]. *)
Definition renorm_factor (recenter : bool) (s : series) : fl :=
  match s with
  | [] => NaN
  | (start, _) :: _ => if recenter then fmedian (vals (filter (fun r => (fst r <=? start + 364 * ns_day)%Z) s)) else fz 1
  end.

(** [ffill(limit=k)]: [last] is the latest value, [age] the number of missing values since. *)
Fixpoint ffill_from (k : nat) (last : fl) (age : nat) (l : list fl) : list fl :=
  match l with
  | [] => []
  | x :: l' => if isnan x then (if (age <? k)%nat then last else NaN) :: ffill_from k last (S age) l'
               else x :: ffill_from k x 0 l'
  end.
Definition ffill_limit (k : nat) (l : list fl) : list fl := ffill_from k NaN 0 l.
Definition bfill_limit (k : nat) (l : list fl) : list fl := rev (ffill_limit k (rev l)).

Definition at_row (l : list fl) (i : nat) : fl := nth i l NaN.
(** 154-161: a valid row, not the last (first) one, next to which nothing was filled in. *)
Definition outage_begins (k : nat) (l : list fl) (i : nat) : bool :=
  notnan (at_row l i) && isnan (at_row (bfill_limit k l) (S i)) && (S i <? List.length l)%nat.
Definition outage_ends (k : nat) (l : list fl) (i : nat) : bool :=
  notnan (at_row l i) && (0 <? i)%nat && isnan (at_row (ffill_limit k l) (i - 1)).

(** 165-171: rolling median of the filled values, and its steps. *)
Definition roll_medians (k : nat) (index : list Z) (l : list fl) : list fl :=
  vals (rolling_median (in_center (ByRows k)) k (combine index (ffill_limit k l))).
Definition diffs (l : list fl) : list fl :=
  map (fun i => match i with O => NaN | S j => fsub (at_row l i) (at_row l j) end) (seq 0 (List.length l)).
(** 172-175. *)
Definition clean_limit (given : option fl) (outlier_factor : fl) (delta : list fl) : fl :=
  match given with
  | Some x => x
  | None => let d := map fabs delta in
            let q75 := fquantile (qf 3 4) d in
            fadd q75 (fmul outlier_factor (fsub q75 (fquantile (qf 1 4) d)))
  end.

(** 183-184: rain on the day, the day before or the day after. *)
Definition near (b : list bool) (i : nat) : bool :=
  existsb (fun j => nth j b false) [(i - 1)%nat; i; S i].

(** 180-198. *)
Definition combine_events (criterion : string) (detected rain : list bool) : result (list bool) :=
  let both f := Ok (map f (seq 0 (List.length detected))) in
  if String.eqb criterion "precip_and_shift" then both (fun i => nth i detected false && near rain i)
  else if String.eqb criterion "precip_or_shift" then both (fun i => nth i detected false || nth i rain false)
  else if String.eqb criterion "precip" then both (fun i => nth i rain false)
  else if String.eqb criterion "shift" then Ok detected
  else Raise ValueError.

(** 205: [cumsum]. *)
Fixpoint count_from (n : Z) (l : list bool) : list Z :=
  match l with [] => [] | b :: l' => let n' := if b then (n + 1)%Z else n in n' :: count_from n' l' end.

(** A row of [daily_df]; the columns not used later are left out. *)
Record day_row : Type := DayRow {
  d_date : Z; d_day : Z; d_insol : fl; d_pi_norm : fl; d_delta : fl; d_event : bool; d_run : Z }.

Definition fill0 (x : fl) : fl := if isnan x then fz 0 else x.

(** [df.join]: values of another column at the dates of the first. *)
Definition joined (s : series) (index : list Z) : list fl := map (lookup s) index.

Definition calc_daily_df (pm insolation : series) (precipitation : option series) (day_scale : nat) (clean_threshold : option fl)
    (recenter : bool) (clean_criterion : string) (precip_threshold outlier_factor : fl) : result (fl * list day_row) :=
  let s := valid_part pm in
  match s with
  | [] => Raise IndexError                                                           (* 137: index[0] *)
  | _ =>
    let index := times s in
    let n := List.length s in
    let renorm := renorm_factor recenter s in
    let pi_norm := map (fun x => fdiv x renorm) (vals s) in                          (* 151 *)
    if (day_scale =? 0)%nat then Raise ValueError else                               (* 154: limit *)
    let delta := diffs (roll_medians day_scale index pi_norm) in
    let limit := clean_limit clean_threshold outlier_factor delta in
    let detected := map (fun x => fgt x limit) delta in                              (* 177 *)
    let precip := match precipitation with None => map (fun _ => fz 0) index | Some p => joined p index end in
    let rain := map (fun x => fgt x precip_threshold) precip in                      (* 178 *)
    bind (combine_events clean_criterion detected rain) (fun clean =>
    let event := map (fun i => nth i clean false || outage_begins day_scale pi_norm i || outage_ends day_scale pi_norm i)
                     (seq 0 n) in                                                    (* 200 *)
    let run := count_from 0 event in
    Ok (renorm,
        map (fun i => DayRow (nth i index 0%Z) (Z.of_nat i) (fill0 (at_row (joined insolation index) i))
                             (fill0 (at_row pi_norm i)) (fill0 (at_row delta i)) (nth i event false) (nth i run 0%Z))
            (seq 0 n)))
  end.

(** ** _calc_result_df, 215-348 *)

Record interval : Type := Interval {
  i_start : Z; i_end : Z; i_length : Z; i_run : Z; i_slope : fl; i_slope_low : fl; i_slope_high : fl; i_max_neg_step : fl;
  i_start_loss : fl; i_end_loss : fl; i_valid : bool }.

(** Python's [min] of a list. *)
Definition pymin (l : list fl) : fl :=
  match l with [] => NaN | x :: l' => fold_left (fun acc y => if flt y acc then y else acc) l' x end.

(** Slope, intercept and bounds of the slope. *)
Definition fit_function := list (Z * fl) -> fl * fl * fl * fl.

(** 247-282 for one run. *)
Definition fit_interval (fit : fit_function) (min_interval_length : Z) (rows : list day_row) (r : Z) : result interval :=
  match rows with
  | [] => Raise IndexError
  | first :: _ =>
    let last := List.last rows first in
    let length := (d_day last - d_day first)%Z in
    let positive := filter (fun d => fgt (d_pi_norm d) (fz 0)) rows in
    let used := match positive with [] => rows | _ => positive end in
    let pi := map d_pi_norm used in
    let step := pymin (map d_delta used) in
    if (min_interval_length <? Z.of_nat (List.length used))%Z && fgt (fsum pi) (fz 0) then
      let '(slope, intercept, low, high) := fit (map (fun d => (d_day d, d_pi_norm d)) used) in
      let poly x := fadd (fmul slope (fz x)) intercept in
      Ok (Interval (d_date first) (d_date last) length r slope low (if flt high (fz 0) then high else fz 0) step
                   (poly (d_day first)) (poly (d_day last)) true)
    else Ok (Interval (d_date first) (d_date last) length r (fz 0) (fz 0) (fz 0) step (fmean pi) (fmean pi) false)
  end.

(** 290-303. *)
Definition rejected (max_relative_slope_error max_negative_step : fl) (i : interval) : bool :=
  let slope_err := fdiv (fsub (i_slope_high i) (i_slope_low i)) (fabs (i_slope i)) in
  fgt (i_slope i) (fz 0) || fge slope_err (fdiv max_relative_slope_error (fz 100)) ||
  fle (i_max_neg_step i) (fmul (fz (-1)) max_negative_step).
Definition flatten (bad : interval -> bool) (i : interval) : interval :=
  if bad i then Interval (i_start i) (i_end i) (i_length i) (i_run i) (fz 0) (fz 0) (fz 0) (i_max_neg_step i) (i_start_loss i) (i_end_loss i) false
  else i.

(** [np.clip(x, 0, 1)]. *)
Definition clip01 (x : fl) : fl := if isnan x then NaN else if flt x (fz 0) then fz 0 else if fgt x (fz 1) then fz 1 else x.

(** 306-312: [next] is the start loss of the next valid interval. *)
Fixpoint recoveries (l : list interval) : list fl :=
  match l with
  | [] => []
  | i :: l' =>
    (if i_valid i then
       match filter i_valid l' with
       | j :: _ => clip01 (fsub (clip01 (i_start_loss j)) (i_end_loss i))
       | [] => NaN
       end
     else NaN) :: recoveries l'
  end.

(** 241-245. *)
Definition runs_of (trim : bool) (rows : list day_row) : list Z :=
  let r := zset (map d_run rows) in
  if trim then removelast (tl r) else r.

Fixpoint map_result {A B} (f : A -> result B) (l : list A) : result (list B) :=
  match l with [] => Ok [] | x :: l' => bind (f x) (fun y => bind (map_result f l') (fun ys => Ok (y :: ys))) end.

(** A row of [analyzed_daily_df]. *)
Record analyzed : Type := Analyzed {
  a_date : Z; a_insol : fl; a_run : Z; a_days : Z; a_valid : bool; a_loss_perfect : fl; a_loss_inferred : fl }.

Definition fill1 (x : fl) : fl := if isnan x then fz 1 else x.
(** 316-345: rows of the kept runs with their interval. *)
Definition analyze_row (table : list interval) (d : day_row) : list analyzed :=
  match filter (fun i => (i_run i =? d_run d)%Z) table with
  | [] => []
  | i :: _ =>
    let days := ((d_date d - i_start i) / ns_day)%Z in
    let at_ start := fill1 (fadd start (fmul (fz days) (i_slope i))) in
    [Analyzed (d_date d) (d_insol d) (d_run d) days (i_valid i) (at_ (fz 1)) (at_ (i_start_loss i))]
  end.

Record srr_intervals : Type := SrrIntervals { s_table : list (interval * fl); s_daily : list analyzed }.

Definition calc_result_df (fit : fit_function) (rows : list day_row) (trim : bool) (max_relative_slope_error max_negative_step : fl)
    (min_interval_length : Z) : result srr_intervals :=
  bind (map_result (fun r => fit_interval fit min_interval_length (filter (fun d => (d_run d =? r)%Z) rows) r) (runs_of trim rows)) (fun fits =>
  match fits with
  | [] => Raise NoValidIntervalError                                                 (* 286 *)
  | _ =>
    let table := map (flatten (rejected max_relative_slope_error max_negative_step)) fits in
    match filter i_valid table with
    | [] => Raise NoValidIntervalError                                               (* 315 *)
    | _ => Ok (SrrIntervals (combine table (recoveries table)) (flat_map (analyze_row table) rows))
    end
  end).

(** ** scipy.stats.theilslopes as used in 271 *)

(** Slopes through all pairs of points with increasing [x]. *)
Definition pair_slopes (l : list (Z * Qc)) : list Qc :=
  flat_map (fun p => flat_map (fun r => if (fst p <? fst r)%Z then [(snd r - snd p) / qz (fst r - fst p)] else []) l) l.
(** numpy's rounding to the nearest integer, halves to even. *)
Definition round_even (q : Qc) : Z :=
  let k := qfloor q in
  let f := q - qz k in
  if qlt f (qf 1 2) then k else if qlt (qf 1 2) f then (k + 1)%Z else if Z.even k then k else (k + 1)%Z.
(** [margin] stands for the normal quantile times the standard deviation of Kendall's S,
    both non-negative. *)
Definition theilslopes (margin : list (Z * Qc) -> Qc) (l : list (Z * Qc)) : fl * fl * fl * fl :=
  match pair_slopes l with
  | [] => (NaN, NaN, NaN, NaN)
  | slopes =>
    let sorted := qsort slopes in
    let nt := Z.of_nat (List.length slopes) in
    let slope := qmedian slopes in
    let intercept := qmedian (map snd l) - slope * qmedian (map (fun p => qz (fst p)) l) in
    let upper := Z.min (round_even ((qz nt + margin l) / qz 2)) (nt - 1) in
    let lower := Z.max (round_even ((qz nt - margin l) / qz 2) - 1) 0 in
    (Fin slope, Fin intercept, Fin (nth (Z.to_nat lower) sorted 0), Fin (nth (Z.to_nat upper) sorted 0))
  end.

(** The fit of 271 for finite values (infinite ones are left to the general [fit_function]). *)
Definition theil_fit (margin : list (Z * Qc) -> Qc) : fit_function := fun l =>
  if forallb (fun p => isfin (snd p)) l
  then theilslopes margin (flat_map (fun p => match snd p with Fin q => [(fst p, q)] | _ => [] end) l)
  else (NaN, NaN, NaN, NaN).

(** ** _calc_monte, 350-509 *)

(** numpy's [uniform]: [u] is a draw from [0, 1). *)
Definition uniform (u : Qc) (low high : fl) : result fl :=
  match low, high with
  | Fin a, Fin b => Ok (Fin (a + (b - a) * u))
  | _, _ => Raise OverflowError
  end.

(** Random numbers of one realisation: slopes by interval, cleanings by valid interval
    (uniform or standard normal), levels by group visited. *)
Record draws : Type := Draws { dr_slope : nat -> Qc; dr_clean : nat -> Qc; dr_level : nat -> Qc }.

Definition interval_slopes (u : nat -> Qc) (table : list interval) : result (list fl) :=
  map_result (fun p => uniform (u (fst p)) (i_slope_low (snd p)) (i_slope_high (snd p))) (combine (seq 0 (List.length table)) table).
Definition run_losses (table : list interval) (slopes : list fl) : list fl :=
  map (fun p => fmul (snd p) (fz (i_length (fst p)))) (combine table slopes).

(** 412-419: number of valid intervals so far. *)
Fixpoint groups_from (g : Z) (table : list interval) : list Z :=
  match table with [] => [] | i :: t' => let g' := if i_valid i then (g + 1)%Z else g in g' :: groups_from g' t' end.

Inductive clean_method : Type := HalfNorm | RandomClean.

(** 432-446: starts and ends of the valid intervals ([None] for the others); [k] counts
    the valid intervals. *)
Definition next_level (m : clean_method) (z : Qc) (ending recovery : fl) : result fl :=
  match m with
  | HalfNorm => let x := clip01 (fadd ending (fill1 recovery)) in
                Ok (fsub (fz 1) (fabs (fmul (Fin z) (fdiv (fsub (fz 1) x) (fz 3)))))
  | RandomClean => uniform z ending (fz 1)
  end.
Fixpoint valid_levels (m : clean_method) (z : nat -> Qc) (k : nat) (start : fl) (l : list (interval * fl * fl))
    : result (list (option (fl * fl))) :=
  match l with
  | [] => Ok []
  | (i, recovery, loss) :: l' =>
    if i_valid i then
      let ending := fadd start loss in
      bind (next_level m (z k) ending recovery) (fun start' =>
      bind (valid_levels m z (S k) start' l') (fun rest => Ok (Some (start, ending) :: rest)))
    else bind (valid_levels m z k start l') (fun rest => Ok (None :: rest))
  end.

(** 456-459, 464-467: previous end and next start. *)
Fixpoint previous_ends (acc : fl) (l : list (option (fl * fl))) : list fl :=
  match l with [] => [] | x :: l' => let acc' := match x with Some (_, e) => e | None => acc end in acc' :: previous_ends acc' l' end.
Fixpoint next_starts (l : list (option (fl * fl))) : list fl :=
  match l with
  | [] => []
  | x :: l' => let rest := next_starts l' in
               match x with Some (s, _) => s :: rest | None => (match rest with y :: _ => y | [] => fz 1 end) :: rest end
  end.

(** 468-482: one level per group, concatenated in the order in which the groups are visited;
    [rows] are group, previous end and next start of the invalid intervals. *)
Fixpoint group_levels (u : nat -> Qc) (k : nat) (order : list Z) (rows : list (Z * (fl * fl))) : result (list fl) :=
  match order with
  | [] => Ok []
  | g :: order' =>
    match filter (fun r => (fst r =? g)%Z) rows with
    | [] => Raise IndexError
    | (_, (low, high)) :: others =>
      bind (uniform (u k) low high) (fun level =>
      bind (group_levels u (S k) order' rows) (fun rest => Ok (level :: map (fun _ => level) others ++ rest)))
    end
  end.

(** Start levels in row order: own start, or the next of the levels. *)
Fixpoint place_levels (l : list (option (fl * fl))) (levels : list fl) : list fl :=
  match l with
  | [] => []
  | Some (s, _) :: l' => s :: place_levels l' levels
  | None :: l' => match levels with x :: levels' => x :: place_levels l' levels' | [] => NaN :: place_levels l' [] end
  end.

(** [visit] is the iteration order of a set with the given elements. *)
Definition random_starts (m : clean_method) (visit : list Z -> list Z) (d : draws) (table : list (interval * fl)) (losses : list fl)
    : result (list fl) :=
  let rows := map (fun p => (fst (fst p), snd (fst p), snd p)) (combine table losses) in
  bind (valid_levels m (dr_clean d) 0 (fz 1) rows) (fun levels =>
  let info := combine (groups_from 0 (map fst table)) (combine (previous_ends (fz 1) levels) (next_starts levels)) in
  let invalid := map snd (filter (fun p => negb (i_valid (fst (fst p)))) (combine table info)) in
  bind (group_levels (dr_level d) 0 (visit (map fst invalid)) invalid) (fun fills => Ok (place_levels levels fills))).

Definition starts_of (method : string) (visit : list Z -> list Z) (d : draws) (table : list (interval * fl)) (losses : list fl)
    : result (list fl) :=
  if String.eqb method "half_norm_clean" then random_starts HalfNorm visit d table losses
  else if String.eqb method "random_clean" then random_starts RandomClean visit d table losses
  else if String.eqb method "perfect_clean" then Ok (map (fun _ => fz 1) table)
  else Raise ValueError.

(** 491-505: the profile and its insolation-weighted mean. *)
Definition profile_row (table : list (interval * (fl * fl))) (a : analyzed) : fl :=
  match filter (fun p => (i_run (fst p) =? a_run a)%Z) table with
  | [] => NaN
  | (i, (start, slope)) :: _ => fadd start (fmul (fz ((a_date a - i_start i) / ns_day)) slope)
  end.
Definition weighted_ratio (loss insol : list fl) : fl :=
  let p := combine loss insol in
  let soil x := fmul (fst x) (snd x) in
  fdiv (fsum (map soil p)) (fsum (map snd (filter (fun x => notnan (soil x)) p))).

Definition realization (method : string) (visit : list Z -> list Z) (s : srr_intervals) (d : draws) : result (list fl * fl) :=
  let table := map fst (s_table s) in
  bind (interval_slopes (dr_slope d) table) (fun slopes =>
  bind (starts_of method visit d (s_table s) (run_losses table slopes)) (fun starts =>
  let loss := map (profile_row (combine table (combine starts slopes))) (s_daily s) in
  Ok (loss, weighted_ratio loss (map a_insol (s_daily s))))).
Definition calc_monte (method : string) (visit : list Z -> list Z) (s : srr_intervals) (d : list draws) : result (list (list fl * fl)) :=
  map_result (realization method visit s) d.

(** ** run, 511-680 *)

Record srr_result : Type := SrrResult {
  sr_median : fl; sr_low : fl; sr_high : fl; sr_exceedance : fl; sr_renorm : fl; sr_profiles : list (list fl);
  sr_intervals : list interval; sr_perfect : list (Z * fl) }.

(** 651-657; no data is an IndexError. *)
Definition srr_percentiles (losses : list fl) (confidence_level exceedance_prob : Qc) : result (fl * fl * fl * fl) :=
  let half_ci := confidence_level / qz 2 in
  bind (np_percentile (qz 50) losses) (fun median =>
  bind (np_percentile (qz 50 - half_ci) losses) (fun low =>
  bind (np_percentile (qz 50 + half_ci) losses) (fun high =>
  bind (np_percentile (qz 100 - exceedance_prob) losses) (fun exceedance =>
  match losses with [] => Raise IndexError | _ => Ok (median, low, high, exceedance) end)))).

Definition srr_run (fit : fit_function) (visit : list Z -> list Z) (pm insolation : series) (precipitation : option series) (d : list draws)
    (day_scale : nat) (clean_threshold : option fl) (trim : bool) (method : string) (clean_criterion : string) (precip_threshold : fl)
    (min_interval_length : Z) (exceedance_prob confidence_level : Qc) (recenter : bool)
    (max_relative_slope_error max_negative_step outlier_factor : fl) : result srr_result :=
  bind (calc_daily_df pm insolation precipitation day_scale clean_threshold recenter clean_criterion precip_threshold outlier_factor) (fun df =>
  bind (calc_result_df fit (snd df) trim max_relative_slope_error max_negative_step min_interval_length) (fun s =>
  bind (calc_monte method visit s d) (fun runs =>
  bind (srr_percentiles (map snd runs) confidence_level exceedance_prob) (fun q =>
  let '(median, low, high, exceedance) := q in
  Ok (SrrResult median low high exceedance (fst df) (map fst runs) (map fst (s_table s))
        (map (fun a => (a_date a, a_loss_perfect a)) (filter a_valid (s_daily s)))))))).

(** soiling_srr, 683-841. *)
Definition soiling_srr (fit : fit_function) (visit : list Z -> list Z) (pm insolation : series) (d : list draws) (precipitation : option series)
    (day_scale : nat) (clean_threshold : option fl) (trim : bool) (method : string) (clean_criterion : string) (precip_threshold : fl)
    (min_interval_length : Z) (exceedance_prob confidence_level : Qc) (recenter : bool)
    (max_relative_slope_error max_negative_step outlier_factor : fl) : result srr_result :=
  bind (srr_init pm insolation precipitation) (fun _ =>
  srr_run fit visit pm insolation precipitation d day_scale clean_threshold trim method clean_criterion precip_threshold
    min_interval_length exceedance_prob confidence_level recenter max_relative_slope_error max_negative_step outlier_factor).
