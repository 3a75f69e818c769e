(** Model of _calculate_xgboost_model_features, /repo/rdtools/filtering.py:705-780, and of the
    frame given to the classifier by xgboost_clip_filter, 828-876.

    The standard deviation column holds the variance.  The date of a row is its day number.  The
    trained classifier is a function from rows of sixteen numbers to booleans. *)

From Coq Require Import QArith Qcanon List ZArith Bool Arith.
From Verif.Base Require Import QcExtra ISort Quantile Fl TimeSeries Calendar Rolling.
From Verif.Model Require Import Clipping.
Import ListNotations.
Open Scope Qc_scope.

(** ** pandas pieces: [diff()], [shift(-1)] and [rolling(n, center=True)] with n >= 2 *)
Definition diff (l : list fl) : list fl := map (fun p => fsub (fst p) (snd p)) (combine l (NaN :: l)).
Definition shift_back (l : list fl) : list fl := match l with [] => [] | _ :: l' => l' ++ [NaN] end.
Definition rolling_center (n : nat) (f : list fl -> fl) (l : list fl) : list fl :=
  map (fun i => let last := (i + (n - 1) / 2)%nat in
                let w := map noninf (firstn n (skipn (S last - n) l)) in
                if (n <=? S last)%nat && (length w =? n)%nat && forallb notnan w then f w else NaN)
      (seq 0 (length l)).
Definition variance (w : list fl) : fl :=
  let v := finvals w in
  let m := qsum v / qz (Z.of_nat (length v)) in
  Fin (qsum (map (fun x => (x - m) * (x - m)) v) / qz (Z.of_nat (length v) - 1)).

(** 724-731. *)
Definition window_of (freq : Z) : nat := if (freq <? 10)%Z then 5%nat else if (freq <? 60)%Z then 3%nat else 2%nat.

(** 748-749. *)
Definition daily_max (s : series) : list fl :=
  map (fun r => fmaximum (vals (filter (fun u => (fst u / ns_day =? fst r / ns_day)%Z) s))) s.

(** One row per time, in the order of 850-865 without the two constant columns. *)
Definition features (freq : Z) (s : series) : list (list fl) :=
  let n := window_of freq in
  let x := scaled (vals s) in                                                                 (* 724-725 *)
  let average := rolling_center n fmean x in                                                  (* 732-734 *)
  let backward := diff x in                                                                   (* 736 *)
  let top := daily_max (combine (times s) x) in
  let columns :=
    [backward; diff (shift_back x);                                                           (* 737 *)
     diff average; diff (shift_back average);                                                 (* 739-742 *)
     x; average; top;
     map (fun p => fdiv (fst p) (fadd (snd p) (ff 1 100000))) (combine x top);                (* 752 *)
     max_rolling_range n (combine (times s) x);                                               (* 744-746 *)
     rolling_center n variance backward; rolling_center n fmean backward;                     (* 755-764 *)
     rolling_center n fmedian backward; rolling_center n fminimum backward; rolling_center n fmaximum backward] in
  map (fun i => map (fun c => nth i c NaN) columns) (seq 0 (length s)).

(** 828-866: the rows without missing values, with the sampling frequency and the mounting. *)
Definition model_frame (freq : Z) (m : mounting) (regular : series) : list (Z * list fl) :=
  let s := if (freq <? 5)%Z then resample_agg fmean (minutes 5) regular else regular in       (* 832-837 *)
  let shown := if (freq <? 5)%Z then 5%Z else freq in
  map (fun r => (fst r, firstn 4 (snd r) ++ [fz shown; match m with Tracking => fz 1 | _ => fz 0 end] ++ skipn 4 (snd r)))
      (filter (fun r => forallb notnan (snd r)) (combine (times s) (features freq s))).

(** 867-876. *)
Definition predictions (predict : list fl -> bool) (frame : list (Z * list fl)) : list (Z * bool) :=
  map (fun r => (fst r, predict (snd r))) frame.

(** 783-925. *)
Definition xgboost_filter (predict : list fl -> bool) (s : series) (m : mounting) : result mask :=
  xgboost_clip_filter (fun regular m freq => predictions predict (model_frame freq m regular)) s m.
