(** Model of the clipping filters, /repo/rdtools/filtering.py:358-925.

    Simplifications: the index is a time index without duplicates (so the check at 383-384
    passes and 592-596 changes nothing), the warnings at 387-395 and 442-452 are not modelled;
    [roll_periods] is at least 1; the ratio of standard deviation to mean is compared through
    squares.  For the xgboost filter the feature frame and the classifier (828-877) are one
    argument, a function from the series to labelled predictions; ClipFeatures.v has the frame. *)

From Coq Require Import QArith Qcanon List ZArith Bool Arith.
From Verif.Base Require Import QcExtra ISort Quantile Fl TimeSeries Calendar Rolling.
From Verif.Model Require Import Utilities Interpolation Normalization.
Import ListNotations.
Open Scope Qc_scope.

(** ** pandas pieces *)

(** [max()] and [min()] skip missing values. *)
Definition fmax2 (x y : fl) : fl := if isnan x then y else if isnan y then x else if fle x y then y else x.
Definition fmin2 (x y : fl) : fl := if isnan x then y else if isnan y then x else if fle x y then x else y.
Definition fmaximum (l : list fl) : fl := fold_right fmax2 NaN l.
Definition fminimum (l : list fl) : fl := fold_right fmin2 NaN l.

(** [mode()[0]]: the smallest of the most frequent values. *)
Definition count_of (x : Z) (l : list Z) : nat := length (filter (Z.eqb x) l).
Definition most_frequent (l : list Z) : list Z :=
  filter (fun x => forallb (fun y => (count_of y l <=? count_of x l)%nat) l) l.
Definition mode (l : list Z) : Z :=
  match most_frequent l with [] => 0%Z | x :: m => fold_right Z.min x m end.
Fixpoint steps (l : list Z) : list Z :=
  match l with
  | a :: ((b :: _) as l') => (b - a)%Z :: steps l'
  | _ => []
  end.

(** [reindex(.., method='ffill')] at one time: the value of the last row at or before it. *)
Definition last_at {A} (default : A) (l : list (Z * A)) (t : Z) : A :=
  match find (fun r => (fst r <=? t)%Z) (rev l) with Some r => snd r | None => default end.

(** [resample(width).agg(f)] with bins from the midnight before the first row. *)
Definition resample_agg {A} (f : list fl -> A) (width : Z) (s : series) : list (Z * A) :=
  match s with
  | [] => []
  | (t0, _) :: _ =>
    map (fun b => (b, f (vals (filter (fun r => (bin_start (start_day t0) width (fst r) =? b)%Z) s))))
        (bin_starts t0 width (fst (List.last s (t0, NaN))))
  end.

Definition minutes (n : Z) : Z := (n * 60000000000)%Z.

(** ** _format_clipping_time_series, 358-421 *)

Inductive mounting : Type := Fixed | Tracking | OtherMounting.
Definition format_clipping (s : series) (m : mounting) : result unit :=
  match m with
  | OtherMounting => Raise ValueError                                                 (* 398-402 *)
  | _ =>
    if negb (same_index (isort Z.leb (times s)) (times s)) then Raise IndexError      (* 405-409 *)
    else if (length s <=? 10)%nat then Raise PlainException                           (* 412-413 *)
    else Ok tt
  end.

(** ** _calculate_max_rolling_range, 456-483 *)

(** Windows of [n] values starting at each row; incomplete ones and ones with missing values
    give no range. *)
Fixpoint tails {A} (l : list A) : list (list A) :=
  match l with [] => [] | _ :: l' => l :: tails l' end.
Definition window_range (n : nat) (l : list fl) : fl :=
  let w := map noninf (firstn n l) in
  if (length w =? n)%nat && forallb notnan w then
    let hi := fmaximum w in
    let lo := fminimum w in
    fmul (fdiv (fsub hi lo) (fdiv (fadd hi lo) (fz 2))) (fz 100)
  else NaN.
Definition max_rolling_range (n : nat) (s : series) : list fl := map (window_range n) (tails (vals s)).

(** ** _apply_overall_clipping_threshold, 486-524 *)

(** 514-521. *)
Definition overall_rule (power clipped : list fl) : bool :=
  let q := robust_quantile q99 power in
  let qc := robust_quantile q99 clipped in
  flt (fabs (fdiv (fsub q qc) (fdiv (fadd q qc) (fz 2)))) (ff 5 1000) &&
  qlt (qz 4) (qz (Z.of_nat (length clipped)) / qz (Z.of_nat (length power)) * qz 100).

(** ** logic_clip_filter, 527-702 *)

(** 599-601: standard deviation over mean below 0.1.  Fewer than two values, an infinite
    value or a zero mean never qualify; a negative mean always does. *)
Definition frozen (l : list fl) : bool :=
  let v := finvals l in
  let n := Z.of_nat (length v) in
  if existsb (fun x => match x with PInf | NInf => true | _ => false end) l then false
  else if (n <? 2)%Z then false
  else
    let m := qsum v / qz n in
    let var := qsum (map (fun x => (x - m) * (x - m)) v) / qz (n - 1) in
    if qlt 0 m then qlt (qz 100 * var) (m * m) else qlt m 0.

(** 599-604. *)
Definition clean (s : series) : series :=
  let daily := resample_agg frozen ns_day s in
  map (fun r => (fst r, if last_at false daily (fst r) then NaN else snd r)) s.

(** 609-613. *)
Definition regularise (freq : Z) (s : series) : result series :=
  if (minutes 10 <=? freq)%Z then interpolate true true s (TFreq freq) None
  else Ok (resample_agg fmedian (minutes 15) s).

(** 616-622. *)
Definition default_periods (m : mounting) (freq : Z) : nat :=
  match m with
  | Tracking => if ((if (minutes 10 <=? freq)%Z then freq else minutes 15) <? minutes 30)%Z then 5%nat else 3%nat
  | _ => 3%nat
  end.

(** 624-627. *)
Definition drop_low (s : series) : series :=
  let daily := resample_agg (fun l => fmul (ff 1 10) (fmaximum l)) ns_day s in
  map (fun r => (fst r, if flt (snd r) (last_at NaN daily (fst r)) then NaN else snd r)) s.

(** 629-635: a row counts when one of the last [n] windows is flat. *)
Definition flat_rows (n : nat) (cutoff : fl) (s : series) : list bool :=
  map (fun x => flt x cutoff) (max_rolling_range n s).
Definition clipping_rows (n : nat) (cutoff : fl) (s : series) : list (Z * bool) :=
  let flat := flat_rows n cutoff s in
  map (fun r => (fst (snd r), (n <=? S (fst r))%nat && existsb (fun b => b) (firstn n (skipn (S (fst r) - n) flat))))
      (combine (seq 0 (length s)) s).

(** 678-695: the rows between the levels of their day. *)
Definition in_levels (lo hi x : fl) : bool :=
  let diff := fdiv (fsub hi lo) hi in
  let lim := ff 25 1000 in
  let up := ff 10025 10000 in
  let down := ff 9975 10000 in
  (fle lo x && fle x hi && fle diff lim) ||
  (fle x (fmul hi up) && fge x (fmul hi down) && fgt diff lim) ||
  (fle x (fmul lo up) && fge x (fmul lo down) && fgt diff lim).

(** 645-675: the levels of each day. *)
Definition day_levels (freq : Z) (clip_pwr : series) : list (Z * (fl * fl)) :=
  resample_agg (fun l => if (minutes 10 <=? freq)%Z then (fminimum l, fmaximum l)
                         else (robust_quantile (qf 75 1000) l, robust_quantile q99 l)) ns_day clip_pwr.

(** 641-644 and 665-667: the power on the rows found to be clipped. *)
Definition detected_power (detected : list (Z * bool)) (s : series) : series :=
  map (fun r => (fst r, if last_at false detected (fst r) then snd r else NaN)) s.

Definition level_mask (freq : Z) (detected : list (Z * bool)) (s : series) : mask :=
  let levels := day_levels freq (detected_power detected s) in
  map (fun r => let lv := last_at (NaN, NaN) levels (fst r) in (fst r, in_levels (fst lv) (snd lv) (snd r))) s.

(** The rows found to be clipped, 584-635. *)
Definition detect (s : series) (m : mounting) (cutoff : fl) (roll_periods : option nat) : result (list (Z * bool)) :=
  let freq := mode (steps (times s)) in
  bind (regularise freq (clean s)) (fun regular =>
  let n := match roll_periods with Some n => n | None => default_periods m freq end in
  Ok (clipping_rows n cutoff (drop_low regular))).

Definition logic_clip_filter (s : series) (m : mounting) (cutoff : fl) (roll_periods : option nat) : result mask :=
  bind (format_clipping s m) (fun _ =>
  bind (detect s m cutoff roll_periods) (fun detected =>
  let final := level_mask (mode (steps (times s))) detected s in                               (* 640-698 *)
  let clipped := map (fun p => snd (fst p)) (filter (fun p => snd (snd p)) (combine s final)) in
  let cleaned := vals (clean s) in
  let overall := overall_rule cleaned clipped in                                              (* 699-702 *)
  let q := robust_quantile q99 cleaned in
  Ok (map (fun p => (fst (fst p), negb (snd (fst p) || (overall && fge (snd p) q)))) (combine final cleaned)))).

(** ** xgboost_clip_filter, 783-925 *)

(** 724-725. *)
Definition scaled (l : list fl) : list fl :=
  let lo := fminimum l in
  let diff := fsub (fmaximum l) lo in
  map (fun x => fdiv (fsub x lo) diff) l.

(** 878-925.  [predicted] are the labelled predictions of the classifier. *)
Definition xgboost_post (freq : Z) (predicted : list (Z * bool)) (s : series) : mask :=
  let sv := combine (times s) (scaled (vals s)) in                                            (* 883-884 *)
  let daily_max := resample_agg fmaximum ns_day sv in                                         (* 749 *)
  let clipping := filter (fun r => last_at false predicted (fst r)) sv in                     (* 878-887 *)
  let hi := resample_agg fmaximum ns_day clipping in                                          (* 890 *)
  let lo := resample_agg fminimum ns_day clipping in                                          (* 891 *)
  map (fun r =>
    let x := snd r in
    let top := last_at NaN hi (fst r) in
    let bottom := last_at NaN lo (fst r) in
    let percent := fdiv x (fadd (last_at NaN daily_max (fst r)) (ff 1 100000)) in             (* 752 *)
    let clip :=
      if (freq <? 5)%Z
      then fle (fmax2 bottom (fmul top (ff 96 100))) x && fge percent (ff 9 10) &&
           fle x (fmul top (ff 10025 10000)) && fge x (ff 1 10)
      else fle bottom x && fge percent (ff 95 100) && fle x (fmul top (ff 10025 10000)) && fge x (ff 1 10) in
    (fst r, negb clip)) sv.

(** [classify] is the trained model with its features, fed the series at a fixed step. *)
Definition xgboost_clip_filter (classify : series -> mounting -> Z -> list (Z * bool)) (s : series) (m : mounting) : result mask :=
  bind (format_clipping s m) (fun _ =>
  let freq := (mode (steps (times s)) / minutes 1)%Z in                                       (* 820-822 *)
  bind (interpolate true true s (TFreq (minutes freq)) None) (fun regular =>                  (* 826 *)
  Ok (xgboost_post freq (classify regular m freq) s))).
