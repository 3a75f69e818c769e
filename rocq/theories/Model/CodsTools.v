(** rdtools/soiling.py: helper functions of CODSAnalysis. *)

From Coq Require Import QArith Qcanon List ZArith Bool Arith String.
From Verif.Base Require Import QcExtra ISort Quantile Fl TimeSeries Calendar Rolling.
From Verif.Model Require Import Soiling.
Import ListNotations.
Open Scope list_scope.
Open Scope Qc_scope.

(** ** _collapse_cleaning_events, 2432-2487 *)

(** 2452-2457 give the series a numeric index; rows are positions here.  (The caller's own
    series is reindexed in place too; that side effect is not modelled.) *)

(** [idxmax] of booleans over the labels [lo], ..., [hi - 1]: the first True, else the first
    label; ValueError for no labels (2467). *)
Definition first_true (l : list bool) (lo hi : nat) : result nat :=
  if (lo <? hi)%nat
  then Ok match find (fun i => nth i l false) (seq lo (hi - lo)) with Some i => i | None => lo end
  else Raise ValueError.
(** [.loc[start:].idxmin()], 2471. *)
Definition first_false (l : list bool) (start hi : nat) : nat :=
  match find (fun i => negb (nth i l false)) (seq start (hi - start)) with Some i => i | None => start end.

(** [metric.loc[lo:hi].idxmax()], 2474: the first largest value that is not missing. *)
Definition better (m : list fl) (best : option nat) (i : nat) : option nat :=
  if isnan (at_row m i) then best
  else match best with
       | None => Some i
       | Some b => if flt (at_row m b) (at_row m i) then Some i else best
       end.
(** With missing values only, [idxmax] is NaN, the assignment 2480 adds a row and the final
    constructor (2487) fails; that is ValueError here at once (later islands could meet a KeyError first). *)
Definition peak_day (m : list fl) (lo hi : nat) : result nat :=
  match fold_left (better m) (seq lo (S hi - lo)) None with Some i => Ok i | None => Raise ValueError end.

(** [.loc[lo:hi] = False]. *)
Definition clear (lo hi : nat) (l : list bool) : list bool :=
  map (fun r => if (lo <=? fst r)%nat && (fst r <=? hi)%nat then false else snd r) (combine (seq 0 (List.length l)) l).
Definition mark (k : nat) (l : list bool) : list bool :=
  map (fun r => if (fst r =? k)%nat then true else snd r) (combine (seq 0 (List.length l)) l).

(** 2469-2485; [fuel] bounds the number of rounds ([collapse_enough]: it is never used up).
    [dummy] keeps all rows, but only those from [f] to [hi - 1] are looked at (2463). *)
Fixpoint collapse_loop (fuel f hi : nat) (metric : list fl) (start : nat) (dummy out : list bool) : result (list bool) :=
  match fuel with
  | O => Ok out
  | S fuel' =>
      if (start =? 0)%nat then Ok out
      else
        let stop := first_false dummy start hi in
        if (start <? stop)%nat then
          let last := (stop - 1)%nat in
          bind (peak_day metric (start - f) (last + f)) (fun day =>
          let out' := mark day (clear (start - f) (last + f) out) in
          let dummy' := clear (start - f) (last + f) dummy in
          bind (first_true dummy' f hi) (fun next =>
          collapse_loop fuel' f hi metric (if (next =? f)%nat then O else next) dummy' out'))
        else Ok out
  end.

(** 2461: the metric must have as many values as there are rows. *)
Definition collapse_cleaning_events (f : nat) (events : list bool) (metric : list fl) : result (list bool) :=
  let n := List.length events in
  if negb (List.length metric =? n)%nat then Raise ValueError
  else
    (** 2463: [iloc[f:-f]]; for f = 0 that is [iloc[0:0]]. *)
    let hi := if (f =? 0)%nat then O else (n - f)%nat in
    bind (first_true events f hi) (fun start =>
    collapse_loop (S n) f hi metric start events (repeat false n)).

(** ** Detection of shifts, 2490-2517 *)

(** [ffill()] and [bfill()] without limit. *)
Definition fill_forward (l : list fl) : list fl := ffill_limit (List.length l) l.
Definition fill_backward (l : list fl) : list fl := bfill_limit (List.length l) l.
Definition fill (forward : bool) (l : list fl) : list fl := if forward then fill_forward l else fill_backward l.

(** [rolling(w, center=True).median()]; rows are numbered. *)
Definition numbered (l : list fl) : series := combine (map Z.of_nat (seq 0 (List.length l))) l.
Definition centered_medians (w : nat) (l : list fl) : list fl := vals (rolling_median (in_center (ByRows w)) w (numbered l)).

(** _rolling_median_ce_detection, 2490-2502: events and rolling median. *)
Definition ce_detection (forward : bool) (w : nat) (tuner : fl) (y : list fl) : list bool * list fl :=
  let rm := centered_medians w (fill forward y) in
  let d := map fabs (diffs rm) in
  let q3 := fquantile (qf 3 4) d in
  let q1 := fquantile (qf 1 4) d in
  let limit := fadd q3 (fmul tuner (fsub q3 q1)) in
  (map (fun x => fgt x limit) (diffs rm), rm).

(** _soiling_event_detection, 2505-2517. *)
Definition soiling_detection (forward : bool) (tuner : fl) (y : list fl) : list bool :=
  let rm := centered_medians 9 (fill forward y) in
  let d := map fabs (diffs rm) in
  let q3 := fquantile (qf 99 100) d in
  let q1 := fquantile (qf 1 100) d in
  let limit := fsub q1 (fmul tuner (fsub q3 q1)) in
  map (fun x => flt x limit) (diffs rm).

(** ** _find_numeric_outliers, 2589-2612 *)

(** [np.quantile] of nothing raises IndexError, which is caught (2594); then [Q3] is unbound. *)
Definition np_quantile (q : Qc) (l : list fl) : fl := if existsb isnan l then NaN else fquantile q l.
Inductive outliers : Type := Upper (above : list bool) | Lower (below : list bool) | Both (above below : list bool) | Neither.
Definition find_numeric_outliers (multiplier : fl) (where_out : string) (x : list fl) : result outliers :=
  match x with
  | [] => Raise UnboundLocalError
  | _ =>
    let q3 := np_quantile (qf 3 4) x in
    let q1 := np_quantile (qf 1 4) x in
    let iqr := fsub q3 q1 in
    let above := map (fun v => fgt v (fadd q3 (fmul multiplier iqr))) x in
    let below := map (fun v => flt v (fsub q1 (fmul multiplier iqr))) x in
    if String.eqb where_out "upper" then Ok (Upper above)
    else if String.eqb where_out "lower" then Ok (Lower below)
    else if String.eqb where_out "both" then Ok (Both above below)
    else Ok Neither                                                                 (* falls off the end: None *)
  end.

(** ** _force_periodicity, 2554-2586 *)

(** Position of a slice bound [k] in a sequence of [n] rows. *)
Definition slice_bound (n k : Z) : Z := if (k <? 0)%Z then Z.max 0 (n + k) else Z.min n k.
(** 2568: [int((len - 365) / 2)] rounds towards zero. *)
Definition remove_length (n : Z) : Z := Z.min 180 (Z.quot (n - 365) 2).
(** 2570-2571. *)
Definition trim_edges (s : series) : series :=
  let n := Z.of_nat (List.length s) in
  let r := remove_length n in
  map (fun x => let i := Z.of_nat (fst x) in
                (fst (snd x), if (i <? slice_bound n r)%Z || (slice_bound n (- r) <=? i)%Z then NaN else snd (snd x)))
      (combine (seq 0 (List.length s)) s).
(** Midnight of day [d] (from 0) of a year. *)
Definition year_day (y d : Z) : Z := ((day_of_civil (mkdate y 1 1) + d) * ns_day)%Z.
Definition midnight (t : Z) : Z := (ts_day t * ns_day)%Z.

(** 2573-2586.  A repeated date makes [reindex] fail. *)
Definition force_periodicity (s : series) (out_index : list Z) : result series :=
  let signal := trim_edges (map (fun r => (midnight (fst r), snd r)) s) in
  let years := zset (map ts_year (times signal)) in
  if negb (List.length (nodup Z.eq_dec (times signal)) =? List.length signal)%nat then Raise ValueError
  else
    let median d := fmedian (map (fun y => lookup signal (year_day y d)) years) in
    Ok (map (fun t => let d := (ts_doy t - 1)%Z in (t, if (d <? 365)%Z then median d else NaN)) out_index).

(** ** _make_seasonal_samples, 2520-2551 *)

(** 2534-2540: the median over the years of the values on a day of the year. *)
Definition on_doy (s : series) (d : Z) : list fl := vals (filter (fun r => (ts_doy (fst r) =? d)%Z) s).
Definition shifted_doy (shift t : Z) : Z := ((ts_doy t - shift) mod 365 + 1)%Z.
(** 2541-2550 for one multiplier and shift; [pivot] fails on repeated days. *)
Definition same_days (s : series) : bool :=
  (List.length (nodup Z.eq_dec (map (fun r => ts_day (fst r)) s)) <? List.length s)%nat.
Definition seasonal_sample (s : series) (multiplier : fl) (shift : Z) : series :=
  map (fun r => (fst r, fadd (fmul multiplier (fsub (fmedian (on_doy s (shifted_doy shift (fst r)))) (fmean (vals s)))) (fz 1))) s.

(** All samples; [draw i j] gives multiplier and shift of sample [j] of signal [i].  All signals
    are on the index of the first one (as components of the same input are). *)
Definition seasonal_samples (signals : list series) (sample_nr : nat) (draw : nat -> nat -> fl * Z) : result (list series) :=
  match signals with
  | [] => Raise IndexError
  | _ =>
    if existsb same_days signals then Raise ValueError
    else Ok (flat_map (fun p => map (fun j => let '(m, sh) := draw (fst p) j in seasonal_sample (snd p) m sh) (seq 0 sample_nr))
                      (combine (seq 0 (List.length signals)) signals))
  end.
