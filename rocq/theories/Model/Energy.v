(** Model of energy_from_power and _aggregate, /repo/rdtools/normalization.py:341-530.

    Only fixed frequencies are modelled ([target] is a width in nanoseconds); the
    conversion of the limit through seconds (line 493: [total_seconds() * 10.0**9]) is
    taken as exact.  The index is strictly increasing. *)

From Coq Require Import QArith Qcanon List ZArith Bool.
From Verif.Base Require Import QcExtra ISort Quantile Fl TimeSeries.
From Verif.Model Require Import Interpolation.
Import ListNotations.
Open Scope Qc_scope.

Inductive power_type : Type := RightLabeled | Instantaneous | OtherType.

(** normalization.py:341-349. *)
Definition t_step_nanoseconds (s : series) : series := combine (times s) (time_diffs (times s)).

(** normalization.py:505-507, [t_diffs / 10**9 / 3600.0]. *)
Definition in_hours (ns : Z) : fl := fdiv (fdiv (fz ns) (fz 1000000000)) (fz 3600).

(** normalization.py:487-502: [av] are the rows with a value; slicing by label includes
    the end, so the first such row itself is masked when rows without value precede it. *)
Definition gap_mask (av : series) (union : list Z) (limit : Qc) (t : Z) : bool :=
  fgt (lookup_bfill (gap_sizes av) t) (Fin limit) ||
  match av, union with
  | (a0, _) :: _, u0 :: _ => negb (a0 =? u0)%Z && (t <=? a0)%Z
  | _, _ => false
  end.

(** normalization.py:504, 510, 516. *)
Definition filled (pt : power_type) (av : series) (union : list Z) : series :=
  match pt with
  | Instantaneous => interp_index (reindex av union)
  | _ => bfill (reindex av union)
  end.

(** normalization.py:513, 519: what the step ending at [(t, v)] contributes. *)
Definition step_energy (pt : power_type) (prev cur : Z * fl) : fl :=
  let h := in_hours (fst cur - fst prev) in
  match pt with
  | Instantaneous => fmul (fdiv (fadd (snd cur) (snd prev)) (fz 2)) h
  | _ => fmul (snd cur) h
  end.
Fixpoint step_energies (pt : power_type) (prev : Z * fl) (l : series) : series :=
  match l with
  | [] => []
  | r :: l' => (fst r, step_energy pt prev r) :: step_energies pt r l'
  end.

(** normalization.py:453-530.  Without any value [time_series.index[0]] raises
    IndexError, before the series type is looked at. *)
Definition aggregate (s : series) (width : Z) (limit : Qc) (pt : power_type) : result series :=
  match s, available s with
  | (t0, _) :: _, (_ :: _) as av =>
    let union := zset (times s ++ bin_labels t0 width (fst (List.last s (t0, NaN)))) in
    match pt with
    | OtherType => Raise ValueError
    | _ =>
      let masked := map (fun r => (fst r, if gap_mask av union limit (fst r) then NaN else snd r))
                        (filled pt av union) in
      match masked with
      | [] => Raise IndexError
      | r0 :: l => Ok (tl (resample_sum ((fst r0, NaN) :: step_energies pt r0 l) width))
      end
    end
  | _, _ => Raise IndexError
  end.

(** normalization.py:400-403, 408-415: median step, target width and limit. *)
Definition median_step (s : series) : fl := fmedian (vals (t_step_nanoseconds s)).

(** normalization.py:352-450.  [freq] is [power.index.freq] as a width.  The default
    width is [int(median)] and [to_timedelta] truncates a fractional limit, which is
    compared with whole nanoseconds only. *)
Definition energy_from_power (freq : option Z) (power : series) (target : option Z)
    (max_timedelta : option Qc) (pt : power_type) : result series :=
  match power with
  | [] | [_] =>
    match pt with
    | Instantaneous => Raise ValueError
    | _ =>
      match (match target with Some w => Some w | None => freq end) with
      | None => Raise ValueError
      | Some w => Ok (map (fun r => (fst r, fdiv (fdiv (fmul (snd r) (fz w)) (fz 1000000000)) (fz 3600))) power)
      end
    end
  | _ =>
    match median_step power with
    | Fin median =>
      let width := match target with Some w => w | None => qfloor median end in
      let limit := match max_timedelta with Some m => m | None => median end in
      bind (if qle (qz width) median
            then interpolate true true power (TFreq width) (Some (qz (qfloor limit)))
            else Ok power) (fun p =>
      bind (aggregate p width (qz (qfloor limit)) pt) (fun energy =>
      Ok (map (fun r => (fst r, if fgt (lookup_bfill (t_step_nanoseconds power) (fst r)) (Fin limit)
                                then NaN else snd r)) energy)))
    | _ => Raise ValueError    (* not reached: two rows give a step *)
    end
  end.
