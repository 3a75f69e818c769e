(** rdtools/clearsky_temperature.py.

    Simplifications: the time zone has a fixed offset from UTC, so that times are local clock
    times in nanoseconds; the frequency of the times, given or inferred, is a fixed width;
    [turn x] stands for [cos(2 pi x)] and [weights] for the Gaussian window, whose length is
    [window_size].  Warnings are not modelled. *)

From Coq Require Import QArith Qcanon List ZArith Bool Arith.
From Verif.Base Require Import QcExtra ISort Quantile Fl TimeSeries Calendar.
From Verif.Model Require Import Soiling.
Import ListNotations.
Open Scope list_scope.
Open Scope Qc_scope.

Definition grid : Type := list (list (list fl)).
Definition columns (data : grid) : Z := Z.of_nat (length data).
Definition rows (data : grid) : Z := Z.of_nat (length (nth 0 data [])).
Definition cell (data : grid) (x y : Z) (k : nat) : fl := nth k (nth (Z.to_nat y) (nth (Z.to_nat x) data []) []) NaN.

(** [numpy.arange(a, b)] *)
Definition arange (a b : Z) : list Z := map (fun n => (a + Z.of_nat n)%Z) (seq 0 (Z.to_nat (b - a))).

(** 128-146. *)
Definition get_pixel_value (data : grid) (i j : Z) (k : nat) (radius : Z) : fl :=
  let values := flat_map (fun x =>
    if (x <? 0)%Z || (columns data <=? x)%Z then [] else flat_map (fun y =>
    if (y <? 0)%Z || (rows data <=? y)%Z then [] else
    let value := cell data x y k in if isnan value then [] else [value])
    (arange (j - radius) (j + radius + 1))) (arange (i - radius) (i + radius + 1)) in
  match values with [] => NaN | _ => fmedian values end.

(** 149-156: [turn] of a part of the day. *)
Definition get_temperature (turn : Qc -> Qc) (hour_of_day : Qc) (night day : fl) (solar_noon_offset : Qc) : fl :=
  let hour_offset := qz 8 + solar_noon_offset in
  let t_diff := fsub day night in
  let t_ave := fdiv (fadd day night) (fz 2) in
  let v := turn ((hour_of_day + hour_offset) / qz 24) in
  fadd (fmul (fmul (fmul t_diff (ff 1 2)) (Fin v)) (ff 7 10)) t_ave.

(** 76-80. *)
Definition lon_index (lons : Z) (longitude : Qc) : Z :=
  let lon_temp := longitude - qz 180 in
  let lon_temp := if qlt lon_temp 0 then lon_temp + qz 360 else lon_temp in
  round_even (qz lons * lon_temp / qz 360).
Definition lat_index (lats : Z) (latitude : Qc) : Z := round_even (qz lats * (qz 90 - latitude) / qz 180).

(** [rolling(window, win_type, min_periods=1, center=True).mean()]: infinite values count as missing. *)
Definition row_at (l : list fl) (j : Z) : fl := if (0 <=? j)%Z then nth (Z.to_nat j) l NaN else NaN.
Definition rolling_weighted (weights : list Qc) (l : list fl) : list fl :=
  let n := length weights in
  map (fun p =>
    let terms := flat_map (fun i =>
      match row_at l (Z.of_nat p + Z.of_nat ((n - 1) / 2) - Z.of_nat (n - 1) + Z.of_nat i) with
      | Fin v => [(nth i weights 0, v)] | _ => [] end) (seq 0 n) in
    let total := qsum (map fst terms) in
    match terms with
    | [] => NaN
    | _ => if qeq total 0 then NaN else Fin (qsum (map (fun t => fst t * snd t) terms) / total)
    end) (seq 0 (length l)).

(** [reindex(method='nearest')] *)
Definition nearest (s : series) (t : Z) : fl :=
  match last_such (fun r => (fst r <=? t)%Z) s, find (fun r => (t <=? fst r)%Z) s with
  | Some l, Some r => if (t - fst l <? fst r - t)%Z then snd l else snd r
  | Some l, None => snd l
  | None, Some r => snd r
  | None, None => NaN
  end.

(** 63-66, 82-83 and 97-104 for one column; days from [first] to [last], [table] by month. *)
Definition column (weights : list Qc) (freq first last : Z) (table : list fl) : series :=
  let days := arange first (last + 1) in
  let daily := map (fun d => nth (Z.to_nat (d_month (civil_of_day d) - 1)) table NaN) days in        (* 97-99 *)
  let smoothed := combine (map (fun d => (d * ns_day)%Z) days) (rolling_weighted weights daily) in (* 101-102 *)
  let points := map (fun k => (first * ns_day + freq * Z.of_nat k)%Z) (seq 0 (S (Z.to_nat ((last - first) * ns_day / freq)))) in
  interp_index (reindex smoothed points).                                                          (* 104 *)

(** 13-125. *)
Definition get_clearsky_tamb (turn : Qc -> Qc) (weights : list Qc) (day night : grid) (freq : Z) (utc_offset : Qc)
    (times : list Z) (latitude longitude : Qc) : result series :=
  match times with
  | [] => Raise IndexError
  | t0 :: _ =>
    let buffer := Z.of_nat (length weights) in                                                     (* 50 *)
    let first := (ts_day t0 - buffer)%Z in                                                         (* 63-64 *)
    let last := (ts_day (List.last times t0) + buffer)%Z in
    let i := lon_index (columns day) longitude in
    let j := lat_index (rows day) latitude in
    let ave_day := map (fun k => get_pixel_value day i j k 0) (seq 0 12) in                        (* 85-95 *)
    let ave_night := map (fun k => get_pixel_value night i j k 0) (seq 0 12) in
    let days := column weights freq first last ave_day in
    let nights := column weights freq first last ave_night in
    let solar_noon_offset := longitude / qz 180 * qz 12 - utc_offset in                            (* 109-114 *)
    Ok (map (fun t =>
      let hour_of_day := qz (t mod ns_day / 3600000000000) + qz (t mod 3600000000000 / 60000000000) / qz 60 in (* 116 *)
      (t, get_temperature turn hour_of_day (nearest nights t) (nearest days t) solar_noon_offset)) times)
  end.
