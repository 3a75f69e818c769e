(** C40: validity of soiling intervals *)

From Coq Require Import QArith Qcanon List ZArith Bool Arith Lia Permutation Sorted.
From Verif.Base Require Import QcExtra ISort Quantile Fl TimeSeries Calendar Rolling.
From Verif.Spec Require Import Stats Filters Theil Soiling.
From Verif.Model Require Import Soiling SoilingSummary.
From Verif.Proofs Require Import StatsP FiltersP2 SoilP SoilP2 SoilP4 SoilP5 SoilP8 SoilP9 SoilP10 SoilP11 SoilP12 SoilP13 SoilP14.
Import ListNotations.
Open Scope list_scope.
Open Scope Qc_scope.
From Verif.Spec Require Import SoilingTable SoilingSummary.
From Coq Require Import String.

(** Which intervals are valid, and their slopes, bounds, losses and recoveries;
    NoValidIntervalError when there is none. *)
Theorem C40_table : forall pm insolation precip day_scale thr recenter c pthr factor r rows pts,
  calc_daily_df pm insolation precip day_scale thr recenter c pthr factor = Ok (r, rows) -> Forall2 shows rows pts ->
  exists l, tiles (fun i => exists d, nth_error rows i = Some d /\ d_event d = true) (List.length rows) 0 l /\
  forall fit trim limit step minimum, exists table,
    Forall2 (fun ab i => described fit minimum limit step (block pts ab) (fst ab) (snd ab) i) (kept_blocks trim l) table /\
    ((forall i, In i table -> i_valid i = false) -> calc_result_df fit rows trim (Fin limit) (Fin step) minimum = Raise NoValidIntervalError) /\
    ((exists i, In i table /\ i_valid i = true) -> exists out, calc_result_df fit rows trim (Fin limit) (Fin step) minimum = Ok out /\
       map fst (s_table out) = table /\
       (forall ir, In ir (s_table out) -> snd ir = NaN \/ exists q, snd ir = Fin q /\ 0 <= q /\ q <= 1) /\
       forall k i rec, nth_error (s_table out) k = Some (i, rec) ->
         (i_valid i = false -> rec = NaN) /\
         (i_valid i = true -> (forall j, ~ next_true (map i_valid table) k j) -> rec = NaN) /\
         (i_valid i = true -> forall j i' ending start, next_true (map i_valid table) k j -> nth_error table j = Some i' ->
            i_end_loss i = Fin ending -> i_start_loss i' = Fin start -> rec = Fin (clip_unit (clip_unit start - ending)))).
Proof. exact table_spec. Qed.

(** No upper bound of a slope is positive, and no lower one if the fit keeps it below the slope. *)
Theorem C40_formed : forall pm insolation precip day_scale thr recenter c pthr factor r rows fit trim limit step minimum out, sorted_index pm ->
  calc_daily_df pm insolation precip day_scale thr recenter c pthr factor = Ok (r, rows) ->
  calc_result_df fit rows trim limit step minimum = Ok out ->
  well_formed out /\ (bound_below fit -> forall x q, In x (s_table out) -> i_slope_low (fst x) = Fin q -> q <= 0) /\
  forall a, In a (s_daily out) -> exists d, In d rows /\ a_date a = d_date d /\ a_insol a = d_insol d.
Proof. exact result_formed. Qed.

(** Twenty days: two falling stretches with a short one between them, a gap of two days
    without data and a last falling stretch. *)
Definition day (k : Z) : Z := (k * ns_day)%Z.
Definition levels : list fl := map (fun z => ff z 100) [100; 98; 96; 94; 92; 90; 100; 98; 100; 98; 96; 94; 92; 90]%Z ++ [NaN; NaN] ++ map (fun z => ff z 100) [95; 93; 91; 89]%Z.
Definition daily_pm : series := combine (map (fun k => day (Z.of_nat k)) (seq 0 20)) levels.
Definition sunshine : series := map (fun r => (fst r, fz 5)) daily_pm.
Definition no_margin : list (Z * Qc) -> Qc := fun _ => 0.
Definition demo_table : result (fl * list day_row) := calc_daily_df daily_pm sunshine None 1 (Some (ff 1 100)) false "shift" (fz 0) (ff 3 2).
Definition demo_rows : list day_row := match demo_table with Ok p => snd p | Raise _ => [] end.
Definition demo_result : result srr_intervals := calc_result_df (theil_fit no_margin) demo_rows false (fz 500) (ff 1 20) 3.
Definition demo_intervals : srr_intervals := match demo_result with Ok s => s | Raise _ => SrrIntervals [] [] end.
Definition half_draws : draws := Draws (fun _ => qf 1 2) (fun _ => qf 1 2) (fun _ => qf 1 2).

Lemma levels_noinf : noinf (vals daily_pm).
Proof.
  intros x Hx. unfold vals, daily_pm in Hx. apply in_map_iff in Hx. destruct Hx as ([t v] & <- & H). apply in_combine_r in H. cbn [snd]. unfold levels in H. rewrite !in_app_iff, !in_map_iff in H.
  destruct H as [(z & <- & _) | [[<- | [<- | []]] | (z & <- & _)]]; split; discriminate.
Qed.
Lemma sunshine_noinf : noinf (vals sunshine).
Proof. intros x Hx. unfold vals, sunshine in Hx. rewrite map_map in Hx. apply in_map_iff in Hx. destruct Hx as (r & <- & _). split; discriminate. Qed.

Example C40_example :
  map (fun x => i_valid (fst x)) (s_table demo_intervals) = [true; false; true; false; true] /\
  map (fun x => i_slope (fst x)) (s_table demo_intervals) = [ff (-1) 50; fz 0; ff (-1) 50; fz 0; ff (-1) 50] /\
  map snd (s_table demo_intervals) = [ff 1 10; NaN; ff 3 100; NaN; NaN] /\
  calc_result_df (theil_fit no_margin) demo_rows false (fz 500) (ff 1 20) 6 = Raise NoValidIntervalError /\
  calc_result_df (theil_fit no_margin) demo_rows false (fz 500) (ff 1 50) 3 = Raise NoValidIntervalError /\
  match calc_result_df (theil_fit no_margin) demo_rows false (fz 500) (ff 1 20) 5 with Ok s => map (fun x => i_valid (fst x)) (s_table s) | _ => [] end = [true; false; false; false; false].
Proof. fcompute. Qed.

Definition demo_points : list point := map (fun d => (d_day d, match d_pi_norm d with Fin q => q | _ => 0 end, match d_delta d with Fin q => q | _ => 0 end)) demo_rows.
Example C40_hypotheses : demo_table = Ok (fz 1, demo_rows) /\ Forall2 shows demo_rows demo_points /\
  (forall slope intercept low high, theil_fit no_margin (map (fun p => (p_day p, Fin (p_pi p))) (positive (firstn 6 demo_points))) = (slope, intercept, low, high) ->
     slope = ff (-1) 50 /\ intercept = fz 1 /\ low = ff (-1) 50 /\ high = ff (-1) 50).
Proof.
  assert (match demo_table with Ok p => fst p | Raise _ => NaN end = fz 1) as ER by fcompute.
  assert (demo_table = Ok (fz 1, demo_rows)) as E by (unfold demo_rows; revert ER; destruct demo_table as [[r rows] | e]; cbn [fst snd]; [intros ->; reflexivity | discriminate]). clear ER.
  split; [exact E |]. split.
  - assert (forall d, In d demo_rows -> (exists q, d_pi_norm d = Fin q) /\ exists q, d_delta d = Fin q) as H.
    { clear E. assert (forallb (fun d => isfin (d_pi_norm d) && isfin (d_delta d)) demo_rows = true) as K by (vm_compute; reflexivity). intros d Hd. rewrite forallb_forall in K. specialize (K d Hd). apply andb_true_iff in K. destruct K as [K1 K2].
      destruct (d_pi_norm d) as [| | a |]; try discriminate K1; destruct (d_delta d) as [| | b |]; try discriminate K2. split; [exists a | exists b]; reflexivity. }
    unfold demo_points. clear E. induction demo_rows as [| d l IH]; [constructor |]. cbn [map]. constructor; [| apply IH; intros x Hx; apply H; right; exact Hx].
    destruct (H d (or_introl eq_refl)) as [[a A] [b B]]. unfold shows, p_day, p_pi, p_step. cbn [fst snd]. rewrite A, B. repeat split; reflexivity.
  - clear E. intros slope intercept low high H. assert (theil_fit no_margin (map (fun p => (p_day p, Fin (p_pi p))) (positive (firstn 6 demo_points))) = (ff (-1) 50, fz 1, ff (-1) 50, ff (-1) 50)) as K by fcompute.
    rewrite K in H. injection H as <- <- <- <-. repeat split; reflexivity.
Qed.

(** Not true: that a valid interval has a slope.  With a minimum length of zero one positive
    day is enough for a fit, whose slope is NaN, and no criterion rejects it. *)
Definition lone_point : list day_row := match calc_daily_df [(day 0, fz 1)] [(day 0, fz 1)] None 1 (Some (ff 1 100)) false "shift" (fz 0) (ff 3 2) with Ok p => snd p | Raise _ => [] end.
Theorem C40_slope_refuted : ~ (forall rows trim limit step minimum out, calc_result_df (theil_fit no_margin) rows trim limit step minimum = Ok out ->
  forall x, In x (s_table out) -> i_valid (fst x) = true -> exists q, i_slope (fst x) = Fin q /\ q <= 0).
Proof.
  intros H. destruct (calc_result_df (theil_fit no_margin) lone_point false (fz 500) (ff 1 20) 0) as [out |] eqn:E; [| vm_compute in E; discriminate].
  specialize (H _ _ _ _ _ _ E). vm_compute in E. injection E as <-. destruct (H _ (or_introl eq_refl) eq_refl) as (q & Q & _). discriminate.
Qed.
Print Assumptions C40_slope_refuted.

Print Assumptions C40_table.
Print Assumptions C40_formed.
