(** The degradation figures after a whole analysis. *)

From Coq Require Import QArith Qcanon List ZArith Bool String Lia Sorted Permutation.
From Verif.Base Require Import QcExtra Fl TimeSeries Calendar.
From Verif.Spec Require Import Stats Time YoY Plots TrendRuns TrendCalls TrendPlots.
From Verif.Model Require Import Bootstrap YearOnYear Normalization Plots TrendAnalysis TrendPlots.
From Verif.Proofs Require Import StatsP YoYP YoYP2 YoYP3 UncertaintyP PlotsP PlotsP2 PlotsP3 PlotsP4 TrendP4 TrendP5 TrendP10.
Import ListNotations.
Open Scope list_scope.

Lemma bins_sorted : forall first w last, (0 < w)%Z -> Sorted Z.lt (bin_starts first w last).
Proof.
  intros first w last W. unfold bin_starts. set (b := bin_start _ _ _). generalize (S (Z.to_nat ((last - b) / w))) as n. intros n. generalize 0%nat as k.
  induction n as [| n IH]; intros k; [constructor |]. cbn [seq map]. constructor; [apply IH |]. destruct n as [| n]; cbn [seq map]; constructor. nia.
Qed.

Section Run.
Context {P W T O YK SK SR : Type}.
Context (infer : list Z -> option (Z -> Z)) (sortv : series -> series) (choice : nat -> list (list nat)) (starts : list (list nat)).
Context (recenter : YK -> bool) (ep cl : YK -> Qc).
Local Notation env := (environment P W T O YK SK yoy_out SR).
Local Notation st := (state P W T O yoy_out SR).
Local Notation req := (@request YK SK).

Lemma as_freq_sorted : forall (E : env) s w, (0 < w)%Z -> Sorted Z.lt (times (as_freq E s w)).
Proof.
  intros E s w Hw. unfold as_freq. destruct s as [| [t0 v0] s]; [constructor |]. cbv zeta. set (l := bin_starts _ _ _). assert (Sorted Z.lt l) as S by (apply bins_sorted, Hw). clearbody l.
  set (y := (t0, v0) :: s) in *. clearbody y. destruct (_ && _)%bool eqn:E1.
  - apply andb_true_iff in E1. destruct E1 as [_ E1]. apply Nat.eqb_eq in E1. assert (times (combine l (vals y)) = l) as ->; [| exact S].
    assert (List.length l = List.length (vals y)) as L by (unfold vals; rewrite map_length; lia). clear - L. revert L. generalize (vals y) as v. induction l as [| a l IH]; intros [| b v] L; cbn in *; try reflexivity; try discriminate. unfold times in *. cbn. rewrite IH; [reflexivity | lia].
  - unfold reindex, times. rewrite map_map. cbn [fst]. rewrite map_id. exact S.
Qed.
Lemma performance_sorted : forall (E : env) (q : req) (s : st) p, (0 < i_width (s_inputs s))%Z -> snd (analyse E q s) = Ok tt ->
  d_performance (side_of (q_case q) (fst (analyse E q s))) = Present p -> Sorted Z.lt (times p).
Proof.
  intros E q s p Hw S Hp. pose proof (analyse_run E q s) as A. destruct (analyse E q s) as [s' r]. cbn [fst snd] in *. subst r. destruct A as (_ & _ & _ & A). destruct (gives_on E s q) as [[u o] |] eqn:G; [| destruct A; discriminate].
  destruct A as [_ A]. rewrite A in Hp. cbn in Hp. injection Hp as <-. unfold gives_on, run_of in G. destruct (data E _ _ _) as [n |]; [| discriminate]. cbn [bind] in G. destruct (processed E _ _ _ _ _) as [u' |] eqn:R; [| discriminate]. cbn [bind] in G.
  destruct (results_of E _ q u'); [| discriminate]. cbn [bind] in G. injection G as -> _. clear A. unfold processed in R.
  repeat match type of R with bind ?a _ = Ok _ => destruct a; [cbn [bind] in R; cbv zeta in R | discriminate] end. injection R as <-. cbn [u_performance]. apply as_freq_sorted, Hw.
Qed.

(** The stored results of an analysis that had the library's year-on-year function. *)
Lemma run_stored : forall (E : env) (qs : list req) (c : case) (s : st) o z, (forall k p, e_yoy E k p = degradation_year_on_year infer sortv choice starts (recenter k) (ep k) (cl k) Simple p) ->
  (0 < i_width (s_inputs s))%Z -> d_result (side_of c s) = None -> d_result (side_of c (after_calls E qs s)) = Some (Outcome (Some o) z) ->
  exists p k, d_performance (side_of c (after_calls E qs s)) = Present p /\ Sorted Z.lt (times p) /\ degradation_year_on_year infer sortv choice starts (recenter k) (ep k) (cl k) Simple p = Ok o.
Proof.
  intros E qs c s o z HE Hw N R. destruct (history_entry E c qs s) as [(before & q & after & EQ & C & S & L & R') | (L & R')]; [| congruence].
  subst c. destruct (performance_after E qs q s S) as [Kp Ki]; [exists q; split; [rewrite EQ; apply in_or_app; right; left; reflexivity | reflexivity] |].
  destruct (call_entry E q s _ _ (surjective_pairing _)) as (_ & _ & _ & K). destruct (K S) as (p & i & y & z' & Hp & Hi & Hr & Dy & _). rewrite R', Hr in R. injection R as -> ->.
  exists p, (q_yoy q). split; [congruence |]. split; [exact (performance_sorted E q s p Hw S Hp) |]. rewrite <- HE. destruct Dy as [(_ & _ & v & Hv & Ev) | [_ Ev]]; [| discriminate]. injection Ev as <-. exact Hv.
Qed.

(** The trend is drawn, with the rate as its level; the summary if there are bars, with points coloured
    by the uses of the aggregated performance. *)
Lemma figures_after : forall (E : env) (qs : list req) (c : case) (s : st) o z lower upper days ci bins detailed,
  (forall k p, e_yoy E k p = degradation_year_on_year infer sortv choice starts (recenter k) (ep k) (cl k) Simple p) -> sorts_by_shifted sortv ->
  (0 < i_width (s_inputs s))%Z -> d_result (side_of c s) = None -> d_result (side_of c (after_calls E qs s)) = Some (Outcome (Some o) z) ->
  exists p, d_performance (side_of c (after_calls E qs s)) = Present p /\ Sorted Z.lt (times p) /\
    (exists info i, info_of Simple o = Some info /\ yo_ci o = Some i /\
       plot_degradation_timeseries (draw_trend lower upper days ci) (name_of c) (after_calls E qs s) = degradation_timeseries_plot lower upper info days ci /\
       plot_degradation_summary (draw_summary bins detailed) (name_of c) (after_calls E qs s) = degradation_summary_plots (yo_rate o) i info p bins detailed) /\
    (exists f, plot_degradation_timeseries (draw_trend lower upper days ci) (name_of c) (after_calls E qs s) = Ok f /\ map fst (t_curve f) = times (yo_values o) /\ t_level f = yo_rate o) /\
    (forall qv, vals (yo_values o) = map Fin qv ->
       ((exists f, plot_degradation_summary (draw_summary bins detailed) (name_of c) (after_calls E qs s) = Ok f) <-> match bins with Some b => (1 <= b)%Z | None => (40 <= List.length qv)%nat end)) /\
    (forall f, plot_degradation_summary (draw_summary bins detailed) (name_of c) (after_calls E qs s) = Ok f ->
       map fst (m_points f) = map (fun r => (fst r, fdiv (snd r) (yo_renorm o))) p /\ m_mark f = yo_rate o /\ m_rate f = yo_rate o /\
       (detailed = true -> exists pick, partner_choice p pick /\ values_of_pairs p pick (yo_renorm o) (yo_values o) /\
          forall k t v, nth_error p k = Some (t, v) -> exists col, nth_error (m_points f) k = Some ((t, fdiv v (yo_renorm o)), Some col) /\
            let used_last := ends_pair (yo_values o) t in
            let used_first := exists dt, first_picked p pick t dt /\ ends_pair (yo_values o) dt in
            (col = Red <-> ~ used_last /\ ~ used_first) /\ (col = Chosen <-> used_last /\ used_first))).
Proof.
  intros E qs c s o z lower upper days ci bins detailed HE HS Hw N R. destruct (run_stored E qs c s o z HE Hw N R) as (p & k & Hp & Sp & Hy). exists p. split; [exact Hp |]. split; [exact Sp |].
  assert (exists i, yo_ci o = Some i) as [i Hi].
  { unfold degradation_year_on_year in Hy. destruct (yoy_core _ _ _ _) as [[o' rows] |]; [| discriminate]. cbn [bind] in Hy. cbv zeta in Hy. destruct (percentile_ci _ _) as [i |]; [| discriminate]. cbn [bind] in Hy. destruct (exceedance _ _); [| discriminate]. cbn [bind] in Hy. injection Hy as <-. exists i. reflexivity. }
  pose proof (proj1 (plot_some r_yoy (draw_summary bins detailed) (fun _ : yoy_out => @Raise summary_figure TypeError) c _ _ o p R eq_refl Hp)) as P1.
  assert (plot_degradation_timeseries (draw_trend lower upper days ci) (name_of c) (after_calls E qs s) = draw_trend lower upper days ci o) as P2.
  { exact (proj2 (plot_some r_yoy (fun (_ : yoy_out) (_ : option series) => @Raise trend_figure TypeError) (draw_trend lower upper days ci) c _ _ o p R eq_refl Hp)). }
  rewrite P2. unfold plot_degradation_summary. rewrite P1. unfold draw_trend, draw_summary. rewrite Hi. cbn [need bind info_of]. split; [do 2 eexists; repeat split |].
  split; [apply (run_trend infer sortv choice starts lower upper (recenter k) (ep k) (cl k) p o _ days ci (sorted_nodup _ Sp) Hy eq_refl) |]. split.
  - intros qv Hq. exact (run_drawn infer sortv choice starts (recenter k) (ep k) (cl k) p o _ i bins detailed qv (sorted_nodup _ Sp) HS Hy eq_refl Hq).
  - intros f Hf. destruct (summary_figure_spec _ _ _ _ _ _ _ Hf) as (values & V & F1 & _ & _ & _ & M1 & M2 & _). split; [exact F1 |]. split; [exact M1 |]. split; [exact M2 |]. intros ->.
    exact (run_point infer sortv choice starts (recenter k) (ep k) (cl k) p o _ i bins f HS Sp Hy eq_refl Hf).
Qed.
End Run.
