(** Model of pvwatts_dc_power, normalize_with_expected_power, normalize_with_pvwatts,
    _delta_index, irradiance_rescale and _check_series_frequency
    (/repo/rdtools/normalization.py:15-335) and of aggregation_insol
    (/repo/rdtools/aggregation.py:4-28).

    Simplifications: frequencies are fixed widths in nanoseconds; indexes are strictly
    increasing and either all naive or all in the same time zone with days starting at
    multiples of 24 h; names and warnings are not modelled. *)

From Coq Require Import QArith Qcanon List ZArith Bool.
From Verif.Base Require Import QcExtra ISort Quantile Fl TimeSeries Calendar Rolling.
From Verif.Model Require Import Interpolation Energy.
Import ListNotations.
Open Scope Qc_scope.

(** Column arithmetic: rows are matched by timestamp. *)
Definition zip_aligned (f : fl -> fl -> fl) (a b : series) : series :=
  map (fun r => (fst r, f (fst (snd r)) (snd (snd r)))) (align a b).

(** normalization.py:74-119. *)
Definition pvwatts_dc_power (poa_global : series) (power_dc_rated : fl) (temperature_cell : option series)
    (poa_global_ref temperature_cell_ref : fl) (gamma_pdc : option fl) : series :=
  let power_dc := on_values (fun g => fdiv (fmul power_dc_rated g) poa_global_ref) poa_global in    (* 110 *)
  match temperature_cell, gamma_pdc with
  | Some temp, Some gamma =>
    let temperature_factor :=                                                                     (* 113-115 *)
      on_values (fun t => fadd (Fin 1) (fmul gamma (fsub t temperature_cell_ref))) temp in
    zip_aligned fmul power_dc temperature_factor                                                  (* 116 *)
  | _, _ => power_dc
  end.

(** normalization.py:308-335: [freq] is the frequency of the index, [infer] is
    [pd.infer_freq]. *)
Definition check_series_frequency (infer : list Z -> option Z) (freq : option Z) (s : series) : result Z :=
  match freq with
  | Some w => Ok w
  | None => match infer (times s) with Some w => Ok w | None => Raise ValueError end
  end.

(** normalization.py:178-210, the second result: mean step in hours. *)
Definition mean_step (freq : option Z) (s : series) : fl :=
  let deltas := match freq with
                | None => time_diffs (times s)
                | Some w => map (fun _ => fz w) s
                end in
  fmean (map (fun d => fdiv d (fz 3600000000000)) deltas).

Inductive pv_kind : Type := PvPower | PvEnergy | PvOther.

(** normalization.py:15-71.  [pv_freq] and [model_freq] are the frequencies carried by the
    indexes of [pv] and [power_expected]; the energies computed at line 46 carry [freq]. *)
Definition normalize_with_expected_power (infer : list Z -> option Z) (pv_freq model_freq : option Z)
    (pv power_expected poa_global : series) (pv_input : pv_kind) : result (series * series) :=
  bind (check_series_frequency infer pv_freq pv) (fun freq =>                                     (* 43 *)
  bind (match pv_input with                                                                       (* 45-51 *)
        | PvPower => bind (energy_from_power pv_freq pv (Some freq) None RightLabeled)
                          (fun e => Ok (e, Some freq))
        | PvEnergy => Ok (pv, pv_freq)
        | PvOther => Raise ValueError
        end) (fun er =>
  let energy := fst er in
  let slower := fgt (mean_step model_freq power_expected) (mean_step (snd er) energy) in          (* 53-57 *)
  bind (if slower then interpolate true true power_expected (TIndex (times pv)) None
        else Ok power_expected) (fun power =>                                                     (* 58 *)
  bind (if slower then interpolate true true poa_global (TIndex (times pv)) None
        else Ok poa_global) (fun poa =>                                                           (* 59 *)
  bind (energy_from_power None power (Some freq) None RightLabeled) (fun energy_expected =>       (* 61 *)
  bind (energy_from_power None poa (Some freq) None RightLabeled) (fun insolation =>              (* 62 *)
  let normalized := zip_aligned fdiv energy energy_expected in                                    (* 64 *)
  let union := zset (times normalized ++ times insolation) in                                     (* 66 *)
  Ok (reindex normalized union, reindex insolation union))))))).                                  (* 67-71 *)

(** normalization.py:122-175. *)
Definition normalize_with_pvwatts (infer : list Z -> option Z) (energy_freq poa_freq : option Z)
    (energy : series) (poa_global : series) (power_dc_rated : fl) (temperature_cell : option series)
    (poa_global_ref temperature_cell_ref : fl) (gamma_pdc : option fl) : result (series * series) :=
  let power_dc := pvwatts_dc_power poa_global power_dc_rated temperature_cell poa_global_ref
                    temperature_cell_ref gamma_pdc in
  normalize_with_expected_power infer energy_freq poa_freq energy power_dc poa_global PvEnergy.

(** ** irradiance_rescale, normalization.py:216-305 *)

(** Matched rows: (measured, simulated). *)
Definition pairs_of (irrad irrad_sim : series) : list (fl * fl) := map snd (align irrad irrad_sim).

(** The clear sky index of a row, normalization.py:263 and 291. *)
Definition csi_of (fact : fl) (p : fl * fl) : fl := fdiv (fst p) (fmul fact (snd p)).
Definition csi_ok (fact : fl) (p : fl * fl) : bool :=
  fge (csi_of fact p) (ff 8 10) && fle (csi_of fact p) (ff 12 10).

(** normalization.py:264. *)
Definition clear_rows (guess : fl) (rows : list (fl * fl)) : list (fl * fl) :=
  filter (fun p => csi_ok guess p && fgt (fst p) (fz 200)) rows.

(** The square of the RMSE, normalization.py:251-259; the optimiser sees its root. *)
Definition mean_square (rows : list (fl * fl)) (fact : fl) : fl :=
  fmean (map (fun p => let d := fsub (fmul fact (snd p)) (fst p) in fmul d d) rows).

(** normalization.py:288-296. *)
Definition mean_square_single (rows : list (fl * fl)) (fact : fl) : fl :=
  mean_square (filter (csi_ok fact) rows) fact.

(** normalization.py:271-272, 298-299.  [np.percentile] of no data raises IndexError. *)
Definition percentile90 (s : series) : result fl :=
  match dropna (vals s) with [] => Raise IndexError | l => np_percentile (qz 90) l end.
Definition first_guess (irrad irrad_sim : series) : result fl :=
  bind (percentile90 irrad) (fun a => bind (percentile90 irrad_sim) (fun b => Ok (fdiv a b))).

(** normalization.py:277-284, [remaining] iterations left.  [optimise] is
    [scipy.optimize.minimize(.., method='Nelder-Mead')['x'][0]]. *)
Fixpoint rescale_loop (optimise : (fl -> fl) -> fl -> fl) (rows : list (fl * fl)) (threshold : fl)
    (remaining : nat) (factor prev_factor : fl) : result fl :=
  if fgt (fabs (fsub factor prev_factor)) threshold then
    match remaining with
    | O => Raise ConvergenceError
    | S n => rescale_loop optimise rows threshold n
               (optimise (mean_square (clear_rows factor rows)) factor) factor
    end
  else Ok factor.

Inductive rescale_method : Type := Iterative | SingleOpt | OtherMethod.

Definition irradiance_rescale (optimise : (fl -> fl) -> fl -> fl) (irrad irrad_sim : series)
    (max_iterations : nat) (method : rescale_method) (threshold : fl) : result series :=
  let rows := pairs_of irrad irrad_sim in
  match method with
  | Iterative =>
    bind (first_guess irrad irrad_sim) (fun guess =>
    bind (rescale_loop optimise rows threshold max_iterations guess (Fin 1)) (fun factor =>
    Ok (on_values (fmul factor) irrad_sim)))
  | SingleOpt =>
    bind (first_guess irrad irrad_sim) (fun guess =>
    let factor := optimise (mean_square_single rows) guess in
    Ok (on_values (fmul factor) irrad_sim))
  | OtherMethod => Raise ValueError
  end.

(** ** aggregation_insol *)

(** [Series.resample(width, origin='start_day').sum()]: bins closed and labelled on the
    left, counted from midnight of the day of the first row; an empty bin sums to 0. *)
Definition start_day (t : Z) : Z := (ns_day * (t / ns_day))%Z.
Definition bin_start (origin width t : Z) : Z := (origin + width * ((t - origin) / width))%Z.
Definition bin_starts (first width last : Z) : list Z :=
  let b0 := bin_start (start_day first) width first in
  map (fun k => (b0 + width * Z.of_nat k)%Z) (seq 0 (S (Z.to_nat ((last - b0) / width)))).
Definition resample_day_sum (s : series) (width : Z) : series :=
  match s with
  | [] => []
  | (t0, _) :: _ =>
    map (fun b => (b, fsum (vals (filter (fun r => (bin_start (start_day t0) width (fst r) =? b)%Z) s))))
        (bin_starts t0 width (fst (List.last s (t0, NaN))))
  end.

(** aggregation.py:25-26. *)
Definition aggregation_insol (energy_normalized insolation : series) (width : Z) : series :=
  zip_aligned fdiv (resample_day_sum (zip_aligned fmul insolation energy_normalized) width)
                   (resample_day_sum insolation width).
