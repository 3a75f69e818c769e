(** Model of interpolate and _interpolate_series, /repo/rdtools/normalization.py:533-688.

    Simplifications: the source index is sorted without duplicates and the target index
    has no duplicates; warnings and names are not modelled; [max_timedelta] is an exact
    number of nanoseconds. *)

From Coq Require Import QArith Qcanon List ZArith Bool Arith.
From Verif.Base Require Import QcExtra Fl TimeSeries.
Import ListNotations.
Open Scope Qc_scope.

(** normalization.py:575-580: rows with a value and the step leading to each. *)
Definition gap_sizes (df : series) : series := combine (times df) (time_diffs (times df)).

(** normalization.py:585-588. *)
Definition gap_limit (df : series) (max_timedelta : option Qc) : fl :=
  match max_timedelta with
  | None => fmul (fz 2) (fmedian (time_diffs (times df)))
  | Some m => Fin m
  end.

(** normalization.py:568-621. *)
Definition interpolate_series (s : series) (target : list Z) (max_timedelta : option Qc) : series :=
  let df := available s in
  let limit := gap_limit df max_timedelta in
  let union := zset (times df ++ target) in                                     (* 598-602 *)
  let gap1 := bfill (reindex (gap_sizes df) union) in                           (* 605 *)
  let gap2 := map (fun r => (fst r, if existsb (Z.eqb (fst r)) (times df) then fz 0 else snd r)) gap1 in
  let df_valid := filter (fun r => fle (lookup gap2 (fst r)) limit) (reindex df union) in   (* 609 *)
  let interpolated := interp_index df_valid in                                  (* 610-611 *)
  map (fun t => (t, lookup interpolated t)) target.                             (* 613-619 *)

(** A target: an index, a fixed frequency (width in ns), or anything else. *)
Inductive itarget : Type := TIndex (l : list Z) | TFreq (width : Z) | TOther.

(** [pd.date_range(first, last, freq=width)]. *)
Definition date_range (first last width : Z) : list Z :=
  map (fun k => (first + width * Z.of_nat k)%Z) (seq 0 (Z.to_nat ((last - first) / width + 1))).

(** normalization.py:662-667.  An empty index has no minimum and [date_range] raises
    ValueError; any other kind of target leaves [target_index] unbound. *)
Definition target_index (index : list Z) (t : itarget) : result (list Z) :=
  match t with
  | TIndex l => Ok l
  | TFreq w =>
    match index with
    | [] => Raise ValueError
    | t0 :: _ => Ok (date_range t0 (List.last index t0) w)
    end
  | TOther => Raise UnboundLocalError
  end.

(** normalization.py:624-688 for a Series; [tz_source] and [tz_target] tell whether the
    indexes are time-zone aware (a frequency target takes the awareness of the source). *)
Definition interpolate (tz_source tz_target : bool) (s : series) (target : itarget)
    (max_timedelta : option Qc) : result series :=
  bind (target_index (times s) target) (fun idx =>
  if xorb tz_source (match target with TFreq _ => tz_source | _ => tz_target end) then Raise ValueError
  else Ok (interpolate_series s idx max_timedelta)).

(** normalization.py:677-684 for a DataFrame: column by column ([pd.concat] of nothing
    raises ValueError). *)
Definition interpolate_frame (tz_source tz_target : bool) (index : list Z) (cols : list (list fl))
    (target : itarget) (max_timedelta : option Qc) : result (list series) :=
  bind (target_index index target) (fun idx =>
  if xorb tz_source (match target with TFreq _ => tz_source | _ => tz_target end) then Raise ValueError
  else match cols with
       | [] => Raise ValueError
       | _ => Ok (map (fun c => interpolate_series (combine index c) idx max_timedelta) cols)
       end).
