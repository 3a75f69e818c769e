(** C67: what the summary of a degradation analysis shows *)

From Coq Require Import QArith Qcanon List ZArith Bool Arith Lia Permutation Sorted.
From Verif.Base Require Import QcExtra ISort Quantile Fl TimeSeries Calendar Rolling.
From Verif.Spec Require Import Stats Time YoY Plots.
From Verif.Model Require Import Utilities Bootstrap YearOnYear Clipping Plots.
From Verif.Proofs Require Import StatsP FlP YoYP YoYP2 YoYP3 PlotsP PlotsP2 PlotsP3.
Import ListNotations.
Open Scope list_scope.
Open Scope Qc_scope.
From Verif.Props Require Import YoYDemo.

Section Claims.
Context (infer : list Z -> option (Z -> Z)) (sortv : series -> series) (choice : nat -> list (list nat)) (starts : list (list nat)).


(** Points, line, bars and label of a figure. *)
Theorem C67_figure : forall rd ci info y bins detailed f, degradation_summary_plots rd ci info y bins detailed = Ok f ->
  exists values, p_values info = Some values /\ summary_shows rd ci values (p_renorm info) (map snd (p_usage info)) y bins detailed f.
Proof. exact summary_figure_spec. Qed.

(** When there is a figure. *)
Theorem C67_drawn : forall rd ci info y bins detailed, (exists f, degradation_summary_plots rd ci info y bins detailed = Ok f) <->
  exists values, p_values info = Some values /\ y <> [] /\ (exists n, bars_of_summary bins (length values) n /\ (1 <= n)%Z) /\ (exists q qs, numbers (vals values) (q :: qs)) /\
    (detailed = true -> Forall (fun u => u = 0 \/ u = 1 \/ u = 2)%Z (map snd (p_usage info)) /\ (length (p_usage info) = length y \/ (length (p_usage info) <= 1)%nat)).
Proof. exact summary_drawn. Qed.

(** Otherwise. *)
Theorem C67_errors : forall rd ci info y bins detailed e, degradation_summary_plots rd ci info y bins detailed = Raise e ->
  (e = KeyError <-> p_values info = None) /\ (e = IndexError <-> p_values info <> None /\ y = []) /\ (e = ValueError <-> p_values info <> None /\ y <> []).
Proof. exact summary_error. Qed.

(** Every number is in one bar. *)
Theorem C67_all_counted : forall bins l bars, hist bins l = Ok bars -> exists qs, numbers l qs /\ total bars = length qs.
Proof. exact hist_total. Qed.

(** The colour of a point of the series that was analysed: by its use at the end and at the start of pairs. *)
Theorem C67_color : forall rc ep cl y o info ci bins f, sorts_by_shifted sortv -> Sorted Z.lt (times y) ->
  degradation_year_on_year infer sortv choice starts rc ep cl Simple y = Ok o -> info_of Simple o = Some info ->
  degradation_summary_plots (yo_rate o) ci info y bins true = Ok f ->
  exists pick, partner_choice y pick /\ values_of_pairs y pick (yo_renorm o) (yo_values o) /\
  forall k t v, nth_error y k = Some (t, v) -> exists c, nth_error (m_points f) k = Some ((t, fdiv v (yo_renorm o)), Some c) /\
    let used_last := ends_pair (yo_values o) t in
    let used_first := exists dt, first_picked y pick t dt /\ ends_pair (yo_values o) dt in
    (c = Red <-> ~ used_last /\ ~ used_first) /\ (c = Chosen <-> used_last /\ used_first).
Proof. exact (run_point infer sortv choice starts). Qed.

(** The marked rate is the median of the numbers in the bars. *)
Theorem C67_rate : forall rc ep cl y o info ci bins detailed f,
  degradation_year_on_year infer sortv choice starts rc ep cl Simple y = Ok o -> info_of Simple o = Some info ->
  degradation_summary_plots (yo_rate o) ci info y bins detailed = Ok f ->
  exists qs rate, vals (yo_values o) = map Fin qs /\ total (m_bars f) = length qs /\ m_mark f = Fin rate /\ m_rate f = Fin rate /\ is_median qs rate /\
    (detailed = true -> m_count f = Some (length qs)).
Proof. exact (run_bars infer sortv choice starts). Qed.

(** By default there is no figure for less than 40 values. *)
Theorem C67_run_drawn : forall rc ep cl y o info ci bins detailed qs, NoDup (times y) -> sorts_by_shifted sortv ->
  degradation_year_on_year infer sortv choice starts rc ep cl Simple y = Ok o -> info_of Simple o = Some info -> vals (yo_values o) = map Fin qs ->
  (exists f, degradation_summary_plots (yo_rate o) ci info y bins detailed = Ok f) <-> match bins with Some b => (1 <= b)%Z | None => (40 <= length qs)%nat end.
Proof. exact (run_drawn infer sortv choice starts). Qed.

(** There is none for an analysis with circular blocks. *)
Theorem C67_blocks : forall L o info rd ci y bins detailed, info_of (CircularBlock L) o = Some info -> degradation_summary_plots rd ci info y bins detailed = Raise KeyError.
Proof. exact run_blocks. Qed.

(** The unit of the series does not matter. *)
Theorem C67_unit : forall k ep cl y o info o' info' ci bins detailed, 0 < k ->
  degradation_year_on_year infer sortv choice starts true ep cl Simple y = Ok o -> info_of Simple o = Some info ->
  degradation_year_on_year infer sortv choice starts true ep cl Simple (scale_series k y) = Ok o' -> info_of Simple o' = Some info' ->
  degradation_summary_plots (yo_rate o') ci info' (scale_series k y) bins detailed = degradation_summary_plots (yo_rate o) ci info y bins detailed.
Proof. exact (run_unit infer sortv choice starts). Qed.

End Claims.

Definition analysed (s : series) : yoy_out := match degradation_year_on_year demo_infer demo_sortv demo_choice [] false (qz 95) (qz 68) Simple s with Ok o => o | Raise _ => no_out end.
Definition info (s : series) : yoy_info := YoyInfo (Some (yo_values (analysed s))) (yo_renorm (analysed s)) (yo_usage (analysed s)).
Definition shown (s : series) (bins : option Z) : result summary_figure := degradation_summary_plots (yo_rate (analysed s)) (fz 0, fz 0) (info s) s bins true.

(** The colours follow the times of the analysis, which are sorted: in a series that is not sorted a point can have the colour of another one. *)
Theorem C67_unsorted_refuted : exists y o i f t v, NoDup (times y) /\
  degradation_year_on_year demo_infer demo_sortv demo_choice [] false (qz 95) (qz 68) Simple y = Ok o /\ info_of Simple o = Some i /\
  degradation_summary_plots (yo_rate o) (fz 0, fz 0) i y (Some 2%Z) true = Ok f /\ In (t, 1%Z) (yo_usage o) /\ In ((t, v), Some Chosen) (m_points f).
Proof.
  exists demo_input, (analysed demo_input), (info demo_input). destruct (shown demo_input (Some 2%Z)) as [f |] eqn:F; [| exfalso; vm_compute in F; discriminate F].
  exists f, (at_date 2012 2 29), (fdiv (ff 100 100) (Fin 1)). split; [exact demo_nodup |]. split; [vm_compute; reflexivity |]. split; [reflexivity |]. split; [exact F |].
  split; [vm_compute; left; reflexivity |]. unfold shown in F. vm_compute in F. injection F as <-. vm_compute. right. left. reflexivity.
Qed.

Definition sorted_input : series :=
  [(at_date 2012 2 29, ff 100 100); (at_date 2013 2 28, ff 95 100); (at_date 2013 3 5, ff 94 100); (at_date 2013 7 1, NaN); (at_date 2014 2 28, ff 90 100)].
Definition figure_of (s : series) (b : Z) : summary_figure := match shown s (Some b) with Ok f => f | Raise _ => SummaryFigure [] ((0%Z, NaN), (0%Z, NaN)) [] NaN NaN (NaN, NaN) None end.
Example C67_example :
  map snd (m_points (figure_of sorted_input 2)) = [Some Green; Some Chosen; Some Green; Some Red; Some Green] /\
  map b_height (m_bars (figure_of sorted_input 2)) = [1; 2]%nat /\ m_count (figure_of sorted_input 2) = Some 3%nat /\
  m_mark (figure_of sorted_input 2) = yo_rate (analysed sorted_input) /\
  (exists f, shown sorted_input (Some 2%Z) = Ok f) /\ shown sorted_input None = Raise ValueError /\
  hist 3 [fz 1; NaN; fz 4; fz 2; fz 1; fz 3] = Ok [Bar (qz 1) (qz 2) 2; Bar (qz 2) (qz 3) 1; Bar (qz 3) (qz 4) 2].
Proof.
  split; [vm_compute; reflexivity |]. split; [vm_compute; reflexivity |]. split; [vm_compute; reflexivity |]. split; [vm_compute; reflexivity |].
  split; [destruct (shown sorted_input (Some 2%Z)) as [f |] eqn:F; [exists f; reflexivity | exfalso; vm_compute in F; discriminate F] |].
  split; [vm_compute; reflexivity | vm_compute; reflexivity].
Qed.
Example C67_hypotheses : Sorted Z.lt (times sorted_input) /\ sorts_by_shifted demo_sortv /\
  degradation_year_on_year demo_infer demo_sortv demo_choice [] false (qz 95) (qz 68) Simple sorted_input = Ok (analysed sorted_input) /\
  info_of Simple (analysed sorted_input) = Some (info sorted_input) /\ 0 < qz 3 /\
  (exists o, degradation_year_on_year demo_infer demo_sortv demo_choice [] true (qz 95) (qz 68) Simple sorted_input = Ok o).
Proof.
  split; [repeat constructor |].
  split; [exact demo_sortv_ok |]. split; [vm_compute; reflexivity |]. split; [reflexivity |]. split; [reflexivity |].
  destruct (degradation_year_on_year demo_infer demo_sortv demo_choice [] true (qz 95) (qz 68) Simple sorted_input) as [o |] eqn:E; [exists o; reflexivity | exfalso; vm_compute in E; discriminate E].
Qed.
Example C67_leap_example : Sorted Z.lt (times leap_input) /\ ~ no_clash leap_input /\ map snd (m_points (figure_of leap_input 2)) = [Some Red; Some Green; Some Chosen; Some Green].
Proof. split; [repeat constructor |]. split; [exact leap_clash | vm_compute; reflexivity]. Qed.

Print Assumptions C67_figure.
Print Assumptions C67_drawn.
Print Assumptions C67_errors.
Print Assumptions C67_all_counted.
Print Assumptions C67_color.
Print Assumptions C67_rate.
Print Assumptions C67_run_drawn.
Print Assumptions C67_blocks.
Print Assumptions C67_unit.
Print Assumptions C67_unsorted_refuted.
