(** C39: division of the days into soiling intervals *)

From Coq Require Import QArith Qcanon List ZArith Bool Arith Lia Permutation Sorted.
From Verif.Base Require Import QcExtra ISort Quantile Fl TimeSeries Calendar Rolling.
From Verif.Spec Require Import Stats Filters Theil Soiling.
From Verif.Model Require Import Soiling SoilingSummary.
From Verif.Proofs Require Import StatsP FiltersP2 SoilP SoilP2 SoilP4 SoilP5 SoilP8 SoilP9 SoilP10 SoilP11 SoilP12 SoilP13 SoilP14.
Import ListNotations.
Open Scope list_scope.
Open Scope Qc_scope.
From Verif.Spec Require Import SoilingTable SoilingSummary.
From Coq Require Import String.

(** The analysis is refused exactly when a series is not a daily one. *)
Theorem C39_init : forall pm insolation precip,
  let good := day_by_day (times pm) /\ day_by_day (times insolation) /\ match precip with None => True | Some p => day_by_day (times p) end in
  (srr_init pm insolation precip = Ok tt <-> good) /\ (srr_init pm insolation precip = Raise ValueError <-> ~ good).
Proof. exact srr_init_spec. Qed.

(** The daily table: normalised performance, steps, events and interval numbers. *)
Theorem C39_daily : forall pm insolation precip day_scale thr recenter c pthr factor p r,
  noinf (vals pm) -> valid_span pm p -> is_renorm recenter p r -> r <> 0 -> (1 <= day_scale)%nat ->
  sorted_index insolation -> noinf (vals insolation) -> match precip with None => True | Some q => sorted_index q /\ noinf (vals q) end ->
  let out := calc_daily_df pm insolation precip day_scale (option_map Fin thr) recenter c (Fin pthr) (Fin factor) in
  let s := scaled_by r p in
  (~ known_criterion c -> out = Raise ValueError) /\
  (known_criterion c -> exists rows, out = Ok (Fin r, rows) /\ map d_date rows = times p /\
     forall i d, nth_error rows i = Some d ->
       d_day d = Z.of_nat i /\
       (exists x, d_insol d = Fin x /\ value_or_0 insolation (d_date d) x) /\
       ((exists x, nth_error s i = Some (d_date d, Fin x) /\ d_pi_norm d = Fin x) \/ (nth_error s i = Some (d_date d, NaN) /\ d_pi_norm d = Fin 0)) /\
       (forall f, carried_series day_scale s f ->
          (exists x, step_at day_scale f i x /\ d_delta d = Fin x) \/ ((forall x, ~ step_at day_scale f i x) /\ d_delta d = Fin 0)) /\
       (d_event d = true <->
          cleaning c (shift day_scale thr factor s) (rain precip pthr s) i \/ gap_after day_scale s i \/ gap_before day_scale s i) /\
       d_run d = Z.of_nat (count_true (firstn (S i) (map d_event rows)))).
Proof. exact daily_spec. Qed.

Theorem C39_errors : forall pm insolation precip thr recenter c pthr factor,
  (forall day_scale, (forall x, In x pm -> snd x = NaN) ->
     calc_daily_df pm insolation precip day_scale thr recenter c pthr factor = Raise IndexError) /\
  ((exists p, valid_span pm p) -> calc_daily_df pm insolation precip 0 thr recenter c pthr factor = Raise ValueError).
Proof. exact daily_errors. Qed.

(** The intervals tile the days from the first to the last valid one and begin at the events;
    every day of a kept interval is listed with it. *)
Theorem C39_intervals : forall pm insolation precip day_scale thr recenter c pthr factor r rows,
  calc_daily_df pm insolation precip day_scale thr recenter c pthr factor = Ok (r, rows) ->
  exists l, tiles (fun i => exists d, nth_error rows i = Some d /\ d_event d = true) (List.length rows) 0 l /\ List.concat (map (block rows) l) = rows /\
  forall fit trim limit step minimum out, calc_result_df fit rows trim limit step minimum = Ok out ->
    Forall2 (fun ab i => exists x y, spans rows ab x y /\ i_start (fst i) = d_date x /\ i_end (fst i) = d_date y /\
               i_length (fst i) = (Z.of_nat (snd ab) - Z.of_nat (fst ab))%Z /\ i_run (fst i) = d_run x)
      (kept_blocks trim l) (s_table out) /\
    Forall2 (fun d e => a_date e = d_date d /\ a_insol e = d_insol d /\ a_run e = d_run d /\
               exists i, In i (map fst (s_table out)) /\ i_run i = d_run d /\ a_days e = ((d_date d - i_start i) / ns_day)%Z /\ a_valid e = i_valid i /\
                 a_loss_perfect e = fill1 (fadd (fz 1) (fmul (fz (a_days e)) (i_slope i))) /\
                 a_loss_inferred e = fill1 (fadd (i_start_loss i) (fmul (fz (a_days e)) (i_slope i))))
      (List.concat (map (block rows) (kept_blocks trim l))) (s_daily out).
Proof. exact intervals_spec. Qed.

(** Twenty days: two falling stretches with a short one between them, a gap of two days
    without data and a last falling stretch. *)
Definition day (k : Z) : Z := (k * ns_day)%Z.
Definition levels : list fl := map (fun z => ff z 100) [100; 98; 96; 94; 92; 90; 100; 98; 100; 98; 96; 94; 92; 90]%Z ++ [NaN; NaN] ++ map (fun z => ff z 100) [95; 93; 91; 89]%Z.
Definition daily_pm : series := combine (map (fun k => day (Z.of_nat k)) (seq 0 20)) levels.
Definition sunshine : series := map (fun r => (fst r, fz 5)) daily_pm.
Definition no_margin : list (Z * Qc) -> Qc := fun _ => 0.
Definition demo_table : result (fl * list day_row) := calc_daily_df daily_pm sunshine None 1 (Some (ff 1 100)) false "shift" (fz 0) (ff 3 2).
Definition demo_rows : list day_row := match demo_table with Ok p => snd p | Raise _ => [] end.
Definition demo_result : result srr_intervals := calc_result_df (theil_fit no_margin) demo_rows false (fz 500) (ff 1 20) 3.
Definition demo_intervals : srr_intervals := match demo_result with Ok s => s | Raise _ => SrrIntervals [] [] end.
Definition half_draws : draws := Draws (fun _ => qf 1 2) (fun _ => qf 1 2) (fun _ => qf 1 2).

Lemma levels_noinf : noinf (vals daily_pm).
Proof.
  intros x Hx. unfold vals, daily_pm in Hx. apply in_map_iff in Hx. destruct Hx as ([t v] & <- & H). apply in_combine_r in H. cbn [snd]. unfold levels in H. rewrite !in_app_iff, !in_map_iff in H.
  destruct H as [(z & <- & _) | [[<- | [<- | []]] | (z & <- & _)]]; split; discriminate.
Qed.
Lemma sunshine_noinf : noinf (vals sunshine).
Proof. intros x Hx. unfold vals, sunshine in Hx. rewrite map_map in Hx. apply in_map_iff in Hx. destruct Hx as (r & <- & _). split; discriminate. Qed.

Example C39_example : srr_init daily_pm sunshine None = Ok tt /\
  map d_event demo_rows = [false; false; false; false; false; false; true; false; true; false; false; false; false; true; false; false; true; false; false; false] /\
  map (fun x => ((i_start (fst x) / ns_day)%Z, (i_end (fst x) / ns_day)%Z)) (s_table demo_intervals) = [(0, 5); (6, 7); (8, 12); (13, 15); (16, 19)]%Z /\
  match calc_result_df (theil_fit no_margin) demo_rows true (fz 500) (ff 1 20) 3 with Ok s => map (fun x => i_run (fst x)) (s_table s) | _ => [] end = [1; 2; 3]%Z.
Proof. repeat split; vm_compute; reflexivity. Qed.

Example C39_hypotheses : noinf (vals daily_pm) /\ valid_span daily_pm daily_pm /\ is_renorm false daily_pm 1 /\ sorted_index sunshine /\ noinf (vals sunshine) /\ known_criterion "shift" /\
  gap_after 1 (scaled_by 1 daily_pm) 13 /\ gap_before 1 (scaled_by 1 daily_pm) 16.
Proof.
  split; [exact levels_noinf |]. split.
  - exists [], []. split; [rewrite app_nil_r; reflexivity |]. split; [intros r [] |]. split.
    + exists 0%Z, (ff 100 100), (tl daily_pm). split; [reflexivity | discriminate].
    + exists (day 19), (ff 89 100), (removelast daily_pm). split; [reflexivity | discriminate].
  - split; [reflexivity |]. split; [unfold sorted_index; cbn; repeat (constructor; [| repeat constructor]); constructor |]. split; [exact sunshine_noinf |]. split; [left; reflexivity |]. split.
    + split; [eexists; eexists; reflexivity |]. intros j Hj. assert (j = 14 \/ j = 15)%nat as [-> | ->] by lia; eexists; reflexivity.
    + split; [eexists; eexists; reflexivity |]. split; [lia |]. intros j H1 H2. assert (j = 14 \/ j = 15)%nat as [-> | ->] by lia; eexists; reflexivity.
Qed.

(** Events by criterion: rain on day 10 next to no shift. *)
Example C39_criteria :
  let wet := map (fun r => (fst r, if (fst r =? day 10)%Z then fz 3 else fz 0)) daily_pm in
  let events c := match calc_daily_df daily_pm sunshine (Some wet) 1 (Some (ff 1 100)) false c (ff 1 10) (ff 3 2) with
                  | Ok p => Ok (map d_day (filter d_event (snd p))) | Raise e => Raise e end in
  events "shift"%string = Ok [6; 8; 13; 16]%Z /\ events "precip"%string = Ok [10; 13; 16]%Z /\ events "precip_or_shift"%string = Ok [6; 8; 10; 13; 16]%Z /\
  events "precip_and_shift"%string = Ok [13; 16]%Z /\ events "rain"%string = Raise ValueError.
Proof. cbv zeta. repeat split; vm_compute; reflexivity. Qed.

Print Assumptions C39_init.
Print Assumptions C39_daily.
Print Assumptions C39_errors.
Print Assumptions C39_intervals.
