(** Model of the filters of /repo/rdtools/filtering.py other than the clipping ones.
    A mask is a list of (timestamp, boolean) rows. *)

From Coq Require Import QArith Qcanon List ZArith Bool Arith String.
From Verif.Base Require Import QcExtra ISort Quantile Fl TimeSeries Rolling.
From Verif.Model Require Import Utilities.
Import ListNotations.
Open Scope string_scope.
Open Scope list_scope.
Open Scope Qc_scope.

(** filtering.py:55-57, 79, 101-103: [(x > low) & (x < high)]. *)
Definition between (low high : fl) (x : fl) : bool := fgt x low && flt x high.

(** filtering.py:28-57. *)
Definition normalized_filter (low high : option fl) (s : series) : mask :=
  where_ (between (match low with Some l => l | None => NInf end)
                  (match high with Some h => h | None => PInf end)) s.

(** filtering.py:60-79. *)
Definition poa_filter (low high : fl) (s : series) : mask := where_ (between low high) s.

(** filtering.py:82-103. *)
Definition tcell_filter (low high : fl) (s : series) : mask := where_ (between low high) s.

(** filtering.py:143-164; the quotient aligns the two indexes. *)
Definition csi_filter (threshold : fl) (measured clearsky : series) : mask :=
  map (fun r => let csi := fdiv (fst (snd r)) (snd (snd r)) in
                (fst r, fge csi (fsub (Fin 1) threshold) && fle csi (fadd (Fin 1) threshold)))
      (align measured clearsky).

(** filtering.py:335-355. *)
Definition quantile_clip_filter (quantile : Qc) (power : series) : mask :=
  let v := robust_quantile quantile (vals power) in
  where_ (fun x => flt x (fmul v (ff 99 100))) power.

(** filtering.py:972-993. *)
Definition insolation_filter (quantile : Qc) (insolation : series) : mask :=
  let limit := fquantile quantile (vals insolation) in
  where_ (fun x => fge x limit) insolation.

(** ** Windows.  The index is strictly increasing, so that the reversed columns of the code
    line up again with the others; time spans are whole nanoseconds. *)

(** filtering.py:949-969.  [fillna(0)] on both distances. *)
Definition zero_if_nan (x : fl) : fl := if isnan x then Fin 0 else x.
Definition fmin (x y : fl) : fl := if flt y x then y else x.
Definition two_way_window_filter (roll_period : span) (threshold : fl) (s : series) : mask :=
  let q := fquantile (qf 99 100) (vals s) in
  let s := on_values (fun x => fdiv x q) s in
  let back := rolling_median (in_back roll_period) 5 s in
  let fwd := rolling_median (in_fwd roll_period) 5 s in
  let back_dif := on_values zero_if_nan (zip_with (fun x m => fabs (fsub x m)) s back) in
  let fwd_dif := on_values zero_if_nan (zip_with (fun x m => fabs (fsub x m)) s fwd) in
  where_ (fun d => flt d threshold) (zip_with fmin back_dif fwd_dif).

(** filtering.py:996-1023; 1.4826 is line 1018. *)
Definition hampel_filter (k : span) (t0 : Qc) (s : series) : mask :=
  let med := rolling_median (in_center k) 1 s in
  let difference := zip_with (fun m x => fabs (fsub m x)) med s in
  let mad := rolling_median (in_center k) 1 difference in
  map (fun p => (fst (fst p), fle (snd (fst p)) (fmul (Fin (t0 * qf 7413 5000)) (snd (snd p)))))
      (combine difference mad).

(** filtering.py:1026-1033: the lower fence ignores [k]. *)
Definition tukey_fence (k : Qc) (s : series) : fl * fl :=
  let p25 := fquantile (qf 1 4) (vals s) in
  let p75 := fquantile (qf 3 4) (vals s) in
  let iqr := fsub p75 p25 in
  (fsub p25 (fmul (ff 3 2) iqr), fadd (fmul (Fin k) iqr) p75).

(** filtering.py:1036-1074. *)
Definition directional_tukey_filter (roll_period : span) (k : Qc) (s : series) : mask :=
  let back_dif := zip_with fsub s (rolling_median (in_back roll_period) 5 s) in
  let fwd_dif := zip_with fsub s (rolling_median (in_fwd roll_period) 5 s) in
  let (back_lower, back_upper) := tukey_fence k back_dif in
  let (fwd_lower, fwd_upper) := tukey_fence k fwd_dif in
  map (fun p => (fst (fst p), between fwd_lower fwd_upper (snd (snd p)) ||
                              between back_lower back_upper (snd (fst p))))
      (combine back_dif fwd_dif).

(** ** Sun position and detector *)

(** filtering.py:1077-1109; [hour_angle] is pvlib's result for a timestamp. *)
Definition hour_angle_filter (hour_angle : Z -> fl) (low high : fl) (s : series) : mask :=
  map (fun r => (fst r, fge (hour_angle (fst r)) low && fle (hour_angle (fst r)) high)) s.

(** [interp1d(x, y, fill_value=(y[0], y[-1]), bounds_error=False)] on a table of points
    with increasing x. *)
Fixpoint interp_table (table : list (Qc * Qc)) (x : Qc) : Qc :=
  match table with
  | [] => 0
  | [(_, y)] => y
  | (x0, y0) :: (((x1, y1) :: _) as rest) =>
    if qle x x0 then y0
    else if qle x x1 then y0 + (y1 - y0) / (x1 - x0) * (x - x0)
    else interp_table rest x
  end.

(** filtering.py:233-238. *)
Definition windows_table : list (Qc * Qc) := [(qz 1, qz 50); (qz 5, qz 60); (qz 15, qz 90); (qz 30, qz 120)].
Definition max_diffs_table : list (Qc * Qc) := [(qz 1, qz 60); (qz 5, qz 65); (qz 15, qz 75); (qz 30, qz 90)].
Definition var_diffs_table : list (Qc * Qc) :=
  [(qz 1, qf 5 1000); (qz 5, qf 1 100); (qz 15, qf 32 1000); (qz 30, qf 7 100)].
Definition slope_devs_table : list (Qc * Qc) := [(qz 1, qz 50); (qz 5, qz 60); (qz 15, qz 75); (qz 30, qz 96)].

Record clearsky_params : Type := mk_clearsky_params {
  p_window_length : Qc; p_mean_diff : Qc; p_max_diff : Qc; p_lower_line : Qc; p_upper_line : Qc;
  p_var_diff : Qc; p_slope_dev : Qc }.

(** filtering.py:232-272: what is handed to the detector.  [freq] is the index frequency in
    nanoseconds (a frequency without fixed length raises; not modelled). *)
Definition detector_params (lookup_parameters : bool) (freq : option Z) (p : clearsky_params) : clearsky_params :=
  match lookup_parameters, freq with
  | true, Some nanos =>
    let minutes := qz nanos / qz 1000000000 / qz 60 in
    mk_clearsky_params (interp_table windows_table minutes) (p_mean_diff p)
      (interp_table max_diffs_table minutes) (p_lower_line p) (p_upper_line p)
      (interp_table var_diffs_table minutes) (interp_table slope_devs_table minutes)
  | _, _ => p
  end.

(** filtering.py:167-292.  [detect] is pvlib's detect_clearsky; its last argument is
    [return_components], overwritten in the keyword arguments at line 277. *)
Definition pvlib_clearsky_filter {K : Type}
    (detect : list (Z * (fl * fl)) -> clearsky_params -> bool -> K -> result mask)
    (lookup_parameters : bool) (freq : option Z) (p : clearsky_params) (kwargs : K)
    (measured clearsky : series) : result mask :=
  detect (align measured clearsky) (detector_params lookup_parameters freq p) false kwargs.

(** ** Dispatch on a name, filtering.py:106-140 and 295-332.  The arguments are the results
    of the named filters. *)
Definition clearsky_filter (model : string) (csi pvlib : result mask) : result mask :=
  if String.eqb model "csi" then csi
  else if String.eqb model "pvlib" then pvlib
  else Raise ValueError.
Definition clip_filter (model : string) (quantile xgboost logic : result mask) : result mask :=
  if String.eqb model "quantile" then quantile
  else if String.eqb model "xgboost" then xgboost
  else if String.eqb model "logic" then logic
  else Raise ValueError.
