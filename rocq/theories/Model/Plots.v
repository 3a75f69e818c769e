(** The data shown in the figures of plotting.py.

    Each function gives what is handed to matplotlib or plotly: points, lines, bars.  Colours of
    the curves, transparency, axis limits, labels and titles are left out; numbers in annotations
    are given before they are formatted. *)

From Coq Require Import QArith Qcanon List ZArith Bool.
From Verif.Base Require Import QcExtra Fl TimeSeries Calendar Rolling.
From Verif.Model Require Import Clipping Utilities Bootstrap YearOnYear Soiling.
Import ListNotations.
Open Scope Qc_scope.

(** ** Histograms *)

Record bar : Type := Bar { b_left : Qc; b_right : Qc; b_height : nat }.
(** numpy.histogram, equal widths: the number of the bar of a value, the last one being closed. *)
Definition bar_number (lo hi : Qc) (bins : Z) (v : Qc) : Z := Z.min (bins - 1) (qfloor ((v - lo) * qz bins / (hi - lo))).
Definition edge (lo hi : Qc) (bins : Z) (k : nat) : Qc := lo + qz (Z.of_nat k) * (hi - lo) / qz bins.
Definition bars_between (lo hi : Qc) (bins : Z) (l : list Qc) : list bar :=
  map (fun k => Bar (edge lo hi bins k) (edge lo hi bins (S k)) (length (filter (fun v => (bar_number lo hi bins v =? Z.of_nat k)%Z) l)))
      (seq 0 (Z.to_nat bins)).
(** Axes.hist with a number of bins: from the least to the largest value that is not missing
    (half a unit more on both sides if they are equal; 0 to 1 without values); a number below one,
    an infinite value or missing values only make it fail. *)
Definition hist (bins : Z) (l : list fl) : result (list bar) :=
  if (bins <? 1)%Z then Raise ValueError else
  match l with
  | [] => Ok (bars_between 0 1 bins [])
  | _ => match fminimum l, fmaximum l with
         | Fin lo, Fin hi => Ok (if qeq lo hi then bars_between (lo - qf 1 2) (hi + qf 1 2) bins (finvals l) else bars_between lo hi bins (finvals l))
         | _, _ => Raise ValueError end
  end.

(** ** plotting.py:10-130 *)

(** The dictionary of degradation_year_on_year; [p_values] is None if there is no such key. *)
Record yoy_info : Type := YoyInfo { p_values : option series; p_renorm : fl; p_usage : list (Z * Z) }.
(** degradation.py:299-303, 346-351: with circular blocks the values are not in the dictionary,
    without uncertainty there is no dictionary. *)
Definition info_of (m : umethod) (o : yoy_out) : option yoy_info :=
  match m with
  | Simple => Some (YoyInfo (Some (yo_values o)) (yo_renorm o) (yo_usage o))
  | CircularBlock _ => Some (YoyInfo None (yo_renorm o) (yo_usage o))
  | NoUncertainty => None
  end.
Inductive color : Type := Chosen | Red | Green.
(** 112; a number without a colour makes scatter fail. *)
Definition color_of (u : Z) : option color := match u with 0%Z => Some Red | 1%Z => Some Green | 2%Z => Some Chosen | _ => None end.
Fixpoint all_colors (l : list Z) : result (list color) :=
  match l with
  | [] => Ok []
  | u :: l' => match color_of u with Some c => bind (all_colors l') (fun r => Ok (c :: r)) | None => Raise ValueError end
  end.
(** Axes.scatter: as many colours as points, or one, or none (nothing is visible). *)
Definition spread (n : nat) (c : list color) : result (list (option color)) :=
  if (length c =? n)%nat then Ok (map Some c)
  else match c with [] => Ok (repeat None n) | [x] => Ok (repeat (Some x) n) | _ => Raise ValueError end.

Record summary_figure : Type := SummaryFigure {
  m_points : list ((Z * fl) * option color); m_line : (Z * fl) * (Z * fl); m_bars : list bar; m_mark : fl; m_rate : fl; m_interval : fl * fl; m_count : option nat }.

Definition degradation_summary_plots (yoy_rd : fl) (yoy_ci : fl * fl) (info : yoy_info) (normalized_yield : series) (bins : option Z) (detailed : bool) : result summary_figure :=
  match p_values info with
  | None => Raise KeyError                                                                                (* 72 *)
  | Some values =>
    let n := Z.of_nat (length values) in
    let bins := Z.min (match bins with None => (n / 40)%Z | Some b => b end) n in                         (* 74-77 *)
    match normalized_yield with
    | [] => Raise IndexError                                                                              (* 83 *)
    | (start, _) :: _ =>
      let stop := fst (List.last normalized_yield (start, NaN)) in
      let years := qz ((stop - start) / ns_day)%Z / qf 36525 100 in                                       (* 85 *)
      bind (hist bins (vals values)) (fun bars =>                                                         (* 92 *)
      bind (if detailed then bind (all_colors (map snd (p_usage info))) (spread (length normalized_yield))
            else Ok (repeat (Some Chosen) (length normalized_yield))) (fun colors =>                      (* 110-117 *)
      Ok (SummaryFigure (combine (map (fun r => (fst r, fdiv (snd r) (p_renorm info))) normalized_yield) colors)
            ((start, Fin 1), (stop, fadd (Fin 1) (fdiv (fmul yoy_rd (Fin years)) (fz 100))))              (* 88-89, 119 *)
            bars yoy_rd yoy_rd yoy_ci (if detailed then Some (fcount (vals values)) else None))))         (* 93-104 *)
    end
  end.

(** ** plotting.py:434-510 *)

(** The rolling windows of pandas want an index in ascending or in descending order. *)
Fixpoint in_order (le : Z -> Z -> bool) (l : list Z) : bool :=
  match l with a :: (b :: _) as l' => le a b && in_order le l' | _ => true end.
(** [rolling('..d')], a positive number of days: the rows up to the current one less than so many days away. *)
Definition recent (days : Z) (i : nat) (t : Z) (j : nat) (u : Z) : bool := (j <=? i)%nat && (Z.abs (t - u) <? days * ns_day)%Z.
(** 469-474; [draw] gives the positions drawn for a number of values. *)
Definition bootstrap_percentile (draw : nat -> list (list nat)) (p : Qc) (w : list fl) : result fl :=
  np_percentile p (map (fun d => fmedian (map (fun i => nth i w NaN) d)) (draw (length w))).
(** [roller.apply(_bootstrap, ...)]; [draw] also depends on the row. *)
Definition rolling_percentile (draw : nat -> nat -> list (list nat)) (p : Qc) (days : Z) (s : series) : result (list fl) :=
  mapM (fun r => let w := window_values (recent days (fst r) (fst (snd r))) s in
                 if (Z.to_nat (days / 2) <=? fcount w)%nat then bootstrap_percentile (draw (fst r)) p w else Ok NaN)
       (combine (seq 0 (length s)) s).

Record trend_figure : Type := TrendFigure { t_band : option (list (Z * (fl * fl))); t_curve : series; t_level : fl }.
Definition degradation_timeseries_plot (draw_lower draw_upper : nat -> nat -> list (list nat)) (info : yoy_info) (rolling_days : Z) (include_ci : bool) : result trend_figure :=
  match p_values info with
  | None => Raise KeyError                                                                                (* 476-480 *)
  | Some values =>
    if negb (in_order Z.leb (times values) || in_order Z.geb (times values)) then Raise ValueError else   (* 487 *)
    bind (if include_ci
          then bind (rolling_percentile draw_lower (qf 25 10) rolling_days values) (fun lower =>          (* 490-492 *)
               bind (rolling_percentile draw_upper (qf 975 10) rolling_days values) (fun upper => Ok (Some (combine (times values) (combine lower upper)))))
          else Ok None) (fun band =>
    Ok (TrendFigure band (rolling_median (recent rolling_days) (Z.to_nat (rolling_days / 2)) values) (fmedian (vals values))))   (* 487, 499-500 *)
  end.

(** ** Soiling, plotting.py:133-286 *)

(** [l[:n]]. *)
Definition take_first {A} (n : Z) (l : list A) : list A := if (n <? 0)%Z then firstn (length l - Z.to_nat (- n)) l else firstn (Z.to_nat n) l.
Definition renormalized (y : series) (factor : fl) : series := on_values (fun v => fdiv v factor) y.
(** 133-196: the points and the profiles. *)
Definition soiling_monte_carlo_plot {A} (factor : fl) (stochastic_soiling_profiles : list A) (normalized_yield : series) (profiles : option Z) : series * list A :=
  (renormalized normalized_yield factor, match profiles with Some n => take_first n stochastic_soiling_profiles | None => stochastic_soiling_profiles end).
(** 198-249: the points and the soiling ratio. *)
Definition soiling_interval_plot (factor : fl) (soiling_ratio_perfect_clean normalized_yield : series) : series * series :=
  (renormalized normalized_yield factor, soiling_ratio_perfect_clean).
(** 252-286; without a number of bins matplotlib takes ten. *)
Definition soiling_rate_histogram (summary : list interval) (bins : option Z) : result (list bar) :=
  hist (match bins with Some n => n | None => 10%Z end) (map (fun i => fmul (fz 100) (i_slope i)) (filter i_valid summary)).
