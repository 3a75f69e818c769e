(** C88: from measured power to the reported degradation *)

From Coq Require Import QArith Qcanon List ZArith Bool Arith Lia Permutation Sorted.
From Verif.Base Require Import QcExtra ISort Quantile Fl TimeSeries Calendar Rolling.
From Verif.Spec Require Import Stats Interp Energy Normalization FilterSets TrendRuns TrendCalls Pipeline YoY Steady Fading RawPower.
From Verif.Model Require Import Interpolation Energy Normalization Filters FilterDict TrendAnalysis YearOnYear.
From Verif.Proofs Require Import InterpP SteadyP SteadyP2 FadingP RawP.
Import ListNotations.
Open Scope list_scope.
Open Scope Qc_scope.
From Coq Require Import String.
From Verif.Props Require Import YoYDemo C75.
Open Scope list_scope.
Open Scope Qc_scope.

(** Interpolating what was interpolated with the same limit fills no further row. *)
Theorem C88_twice : forall s target m, sorted_index s -> noinf (vals s) -> StronglySorted Z.lt target -> 0 <= m ->
  forall t q, In t target -> interp (interpolate_series s target (Some m)) m t (Fin q) -> In (t, Fin q) (interpolate_series s target (Some m)).
Proof. exact interpolate_twice. Qed.

(** Power that is a share of the expected power, both with any gaps at the same rows and any steps: after the constructor with interp_freq, whatever the limit, the energy is the same share of the energy of the stored expected power. *)
Theorem C88_proportional : forall {P W T O YK SK YR SR} (E : environment P W T O YK SK YR SR) empty poa cell ambient gamma width wind expected tm rated w max level (s : state P W T O YR SR),
  sorted_index expected -> noinf (vals expected) -> (0 < w)%Z -> three_steps w expected -> at_least w max -> recognises (e_infer E) (e_freq E) w ->
  construct_analysis E empty (share level expected) poa cell ambient gamma width PvPower wind (Some expected) tm rated (Some w) max = Ok s ->
  exists energy model, i_energy (s_inputs s) = Present energy /\ i_expected (s_inputs s) = Some model /\
    proportional (e_infer E) (e_freq E) level energy model model /\
    sorted_index model /\ noinf (vals model) /\ i_width (s_inputs s) = width /\
    dget "normalized_filter" (params_of s) <> None /\
    (forall p, poa = Some p -> i_poa (s_inputs s) = Some (interpolate_series p (times model) max)).
Proof. exact (fun P W T O YK SK YR SR => @raw_proportional P W T O YK SK YR SR). Qed.

(** From measured power to the report of sensor_analysis: no change, and the share. *)
Theorem C88_steady : forall {P W T O YK SK SR} (E : environment P W T O YK SK yoy_out SR) empty poa cell ambient gamma width wind expected tm rated w max level (s s' : state P W T O yoy_out SR) (q : @request YK SK)
  infer sortv choice starts (recenter : YK -> bool) ep cl (m : YK -> umethod),
  sorted_index expected -> noinf (vals expected) -> (0 < w)%Z -> three_steps w expected -> at_least w max -> recognises (e_infer E) (e_freq E) w ->
  sorted_index poa -> noinf (vals poa) -> 0 < level -> (0 < width)%Z -> dividing width ->
  sorts_by_shifted sortv -> draws_ok choice -> starts <> [] ->
  (forall y p, e_yoy E y p = degradation_year_on_year infer sortv choice starts (recenter y) (ep y) (cl y) (m y) p) ->
  (forall en, sorted_index en -> excludes_missing E en) ->
  construct_analysis E empty (share level expected) (Some poa) cell ambient gamma width PvPower wind (Some expected) tm rated (Some w) max = Ok s ->
  q_case q = Sensor -> In "yoy_degradation"%string (q_names q) -> analyse E q s = (s', Ok tt) ->
  exists o z, d_result (s_sensor s') = Some (Outcome (Some o) z) /\ no_change o /\ yo_renorm o = (if recenter (q_yoy q) then Fin level else Fin 1).
Proof. exact (fun P W T O YK SK SR => @raw_steady P W T O YK SK SR). Qed.

(** The same for clearsky_analysis, with a clear-sky irradiance given to set_clearsky. *)
Theorem C88_steady_clearsky : forall {P W T O YK SK SR} (E : environment P W T O YK SK yoy_out SR) empty poa cell ambient gamma width wind expected tm rated w max level (s0 s s' : state P W T O yoy_out SR) (q : @request YK SK) loc o clear cell' ambient'
  infer sortv choice starts (recenter : YK -> bool) ep cl (m : YK -> umethod),
  sorted_index expected -> noinf (vals expected) -> (0 < w)%Z -> three_steps w expected -> at_least w max -> recognises (e_infer E) (e_freq E) w ->
  sorted_index clear -> noinf (vals clear) -> 0 < level -> (0 < width)%Z -> dividing width ->
  sorts_by_shifted sortv -> draws_ok choice -> starts <> [] ->
  (forall y p, e_yoy E y p = degradation_year_on_year infer sortv choice starts (recenter y) (ep y) (cl y) (m y) p) ->
  (forall en, sorted_index en -> excludes_missing E en) ->
  construct_analysis E empty (share level expected) poa cell ambient gamma width PvPower wind (Some expected) tm rated (Some w) max = Ok s0 ->
  set_clearsky loc o (Some clear) cell' ambient' s0 = (s, Ok tt) ->
  q_case q = Clearsky -> In "yoy_degradation"%string (q_names q) -> analyse E q s = (s', Ok tt) ->
  exists r z, d_result (s_clear s') = Some (Outcome (Some r) z) /\ no_change r /\ yo_renorm r = (if recenter (q_yoy q) then Fin level else Fin 1).
Proof. exact (fun P W T O YK SK SR => @raw_steady_clear P W T O YK SK SR). Qed.

(** Power on a regular index that is the f-fold of the expected power: the constructor succeeds, and the energy is the f-fold of the modelled energy, with f at the end of each step. *)
Theorem C88_follows : forall {P W T O YK SK YR SR} (E : environment P W T O YK SK YR SR) empty poa cell ambient gamma width wind expected tm rated w max f,
  (0 < w)%Z -> regular w (times expected) -> (4 <= List.length expected)%nat -> all_known expected -> at_least w max -> recognises (e_infer E) (e_freq E) w ->
  exists s : state P W T O YR SR,
  construct_analysis E empty (shares f expected) poa cell ambient gamma width PvPower wind (Some expected) tm rated None max = Ok s /\
  exists energy, i_energy (s_inputs s) = Present energy /\ i_expected (s_inputs s) = Some expected /\
    follows_model (e_infer E) (e_freq E) f energy expected expected /\ (forall t, In t (times energy) -> In t (times expected)) /\
    i_width (s_inputs s) = width /\ dget "normalized_filter" (params_of s) <> None /\
    (forall p, poa = Some p -> i_poa (s_inputs s) = Some (interpolate_series p (times expected) max)).
Proof. exact (fun P W T O YK SK YR SR => @raw_follows P W T O YK SK YR SR). Qed.

(** Output that fades bin by bin: every number that sensor_analysis reports is the fade per year relative to the first year. *)
Theorem C88_fading : forall {P W T O YK SK SR} (E : environment P W T O YK SK yoy_out SR) empty poa cell ambient gamma width wind expected tm rated w max f a slope (s s' : state P W T O yoy_out SR) (q : @request YK SK)
  infer sortv choice starts (recenter : YK -> bool) ep cl (m : YK -> umethod),
  (0 < w)%Z -> regular w (times expected) -> (4 <= List.length expected)%nat -> all_known expected -> at_least w max -> recognises (e_infer E) (e_freq E) w ->
  sorted_index poa -> noinf (vals poa) -> (0 < width)%Z -> dividing width -> fades width a slope f (times expected) ->
  sorts_by_shifted sortv -> draws_ok choice ->
  (forall y p, e_yoy E y p = degradation_year_on_year infer sortv choice starts (recenter y) (ep y) (cl y) (m y) p) ->
  (forall en, sorted_index en -> excludes_missing E en) ->
  construct_analysis E empty (shares f expected) (Some poa) cell ambient gamma width PvPower wind (Some expected) tm rated None max = Ok s ->
  q_case q = Sensor -> In "yoy_degradation"%string (q_names q) -> analyse E q s = (s', Ok tt) ->
  exists p o z rho, d_performance (s_sensor s') = Present p /\ d_result (s_sensor s') = Some (Outcome (Some o) z) /\ on_fading_line 1 a slope p /\
    yo_renorm o = Fin rho /\ 0 < rho /\ first_year_level (recenter (q_yoy q)) p rho /\
    one_change (qz 100 * (slope * qz (days 365)) / rho) (m (q_yoy q)) o.
Proof. exact (fun P W T O YK SK SR => @raw_fading P W T O YK SK SR). Qed.

(** The same for clearsky_analysis. *)
Theorem C88_fading_clearsky : forall {P W T O YK SK SR} (E : environment P W T O YK SK yoy_out SR) empty poa cell ambient gamma width wind expected tm rated w max f a slope (s0 s s' : state P W T O yoy_out SR) (q : @request YK SK) loc o' clear cell' ambient'
  infer sortv choice starts (recenter : YK -> bool) ep cl (m : YK -> umethod),
  (0 < w)%Z -> regular w (times expected) -> (4 <= List.length expected)%nat -> all_known expected -> at_least w max -> recognises (e_infer E) (e_freq E) w ->
  sorted_index clear -> noinf (vals clear) -> (0 < width)%Z -> dividing width -> fades width a slope f (times expected) ->
  sorts_by_shifted sortv -> draws_ok choice ->
  (forall y p, e_yoy E y p = degradation_year_on_year infer sortv choice starts (recenter y) (ep y) (cl y) (m y) p) ->
  (forall en, sorted_index en -> excludes_missing E en) ->
  construct_analysis E empty (shares f expected) poa cell ambient gamma width PvPower wind (Some expected) tm rated None max = Ok s0 ->
  set_clearsky loc o' (Some clear) cell' ambient' s0 = (s, Ok tt) ->
  q_case q = Clearsky -> In "yoy_degradation"%string (q_names q) -> analyse E q s = (s', Ok tt) ->
  exists p o z rho, d_performance (s_clear s') = Present p /\ d_result (s_clear s') = Some (Outcome (Some o) z) /\ on_fading_line 1 a slope p /\
    yo_renorm o = Fin rho /\ 0 < rho /\ first_year_level (recenter (q_yoy q)) p rho /\
    one_change (qz 100 * (slope * qz (days 365)) / rho) (m (q_yoy q)) o.
Proof. exact (fun P W T O YK SK SR => @raw_fading_clear P W T O YK SK SR). Qed.

(** The same with PVWatts in place of an expected power: irradiance, cell temperature, rating and temperature coefficient. *)
Theorem C88_fading_pvwatts : forall {P W T O YK SK SR} (E : environment P W T O YK SK yoy_out SR) empty poa cell ambient gamma width wind m tm rated w max f a slope (s s' : state P W T O yoy_out SR) (q : @request YK SK)
  infer sortv choice starts (recenter : YK -> bool) ep cl (um : YK -> umethod),
  (0 < w)%Z -> regular w (times poa) -> (4 <= List.length poa)%nat -> all_known poa -> all_known cell -> times cell = times poa -> pvwatts_of rated gamma poa cell m ->
  at_least w max -> recognises (e_infer E) (e_freq E) w -> (0 < width)%Z -> dividing width -> fades width a slope f (times poa) ->
  sorts_by_shifted sortv -> draws_ok choice ->
  (forall y p, e_yoy E y p = degradation_year_on_year infer sortv choice starts (recenter y) (ep y) (cl y) (um y) p) ->
  (forall en, sorted_index en -> excludes_missing E en) ->
  construct_analysis E empty (shares f m) (Some poa) (Some cell) ambient (Some (Fin gamma)) width PvPower wind None tm (Some (Fin rated)) None max = Ok s ->
  q_case q = Sensor -> In "yoy_degradation"%string (q_names q) -> analyse E q s = (s', Ok tt) ->
  exists p o z rho, d_performance (s_sensor s') = Present p /\ d_result (s_sensor s') = Some (Outcome (Some o) z) /\ on_fading_line 1 a slope p /\
    yo_renorm o = Fin rho /\ 0 < rho /\ first_year_level (recenter (q_yoy q)) p rho /\
    one_change (qz 100 * (slope * qz (days 365)) / rho) (um (q_yoy q)) o.
Proof. exact (fun P W T O YK SK SR => @raw_fading_pvwatts P W T O YK SK SR). Qed.

(** An index with steps of [w] is recognised, no other is. *)
Definition detect (w : Z) (l : list Z) : option Z :=
  if (3 <=? List.length l)%nat && same_index l (map (fun k => hd 0%Z l + w * Z.of_nat k)%Z (seq 0 (List.length l))) then Some w else None.
Lemma detect_ok : forall w, (0 < w)%Z -> recognises (detect w) (fun _ => None) w.
Proof.
  intros w Hw. split.
  - intros l. split; [discriminate|]. intros w' H. unfold detect, same_index in H. destruct (3 <=? List.length l)%nat eqn:L; [|discriminate]. apply Nat.leb_le in L.
    destruct (list_eq_dec Z.eq_dec l _) as [E|]; [|discriminate]. injection H as <-. split; [exact Hw|]. split; [exists (hd 0%Z l); exact E|exact L].
  - intros l [t0 E] L. right. split; [reflexivity|]. unfold detect. apply Nat.leb_le in L as L'. rewrite L'. cbn [andb]. unfold same_index.
    assert (hd 0%Z l = t0) as ->; [rewrite E; destruct (List.length l); [lia|cbn; lia]|]. destruct (list_eq_dec Z.eq_dec l _) as [_|N]; [reflexivity|contradiction].
Qed.
Definition honest_env (w : Z) : environment unit unit unit unit unit unit yoy_out unit :=
  Environment (fun _ => None) (detect w) (fun _ x => x) tt tt (fun _ _ a _ => Ok a) (fun _ _ _ => Raise ValueError) (fun _ _ => Raise ValueError)
    (fun _ s => Ok (default_normalized s)) (fun _ => no_mask) (fun _ => no_mask) (fun _ => no_mask) (fun _ _ => no_mask) (fun _ s _ => no_mask s)
    (fun _ => no_mask) (fun _ => no_mask) (fun _ => no_mask) (fun _ => no_mask)
    (fun _ p => year_on_year p) (fun _ _ _ => Raise ValueError).
Definition built (r : result (state unit unit unit unit yoy_out unit)) (dummy : state unit unit unit unit yoy_out unit) := match r with Ok s => s | Raise _ => dummy end.
Definition nothing := steady_state [] [] [] 1 [].
Definition ask (c : case) : @request unit unit := Request c ["yoy_degradation"%string] tt tt.
Definition step_limit : option Qc := Some (qz (2 * step)).

(** Thirteen rows with steps of 37 to 110 days, one of them missing; the power is 0.9 times the expected one. *)
Definition raw_times : list Z := map (fun k => k * (ns_day * 73 / 2))%Z [0; 2; 3; 5; 7; 8; 10; 11; 14; 15; 17; 20; 22]%Z.
Definition raw13 : series := combine raw_times [fz 5; fz 6; fz 8; fz 9; fz 7; fz 5; NaN; fz 8; fz 9; fz 4; fz 6; fz 6; fz 7].
Notation from_raw max := (construct_analysis (honest_env step) tt (share (qf 9 10) raw13) (Some poa12) None None None step PvPower tt (Some raw13) None None (Some step) max).
Lemma raw_sorted : sorted_index raw13.
Proof. unfold sorted_index. vm_compute. repeat constructor. Qed.
Lemma raw_noinf : noinf (vals raw13).
Proof. intros v I. vm_compute in I. repeat (destruct I as [<-|I]; [split; discriminate|]). destruct I. Qed.
Lemma raw_long : three_steps step raw13.
Proof. vm_compute. discriminate. Qed.
Lemma limit_ok : at_least step step_limit.
Proof. vm_compute. discriminate. Qed.
Example C88_example :
  let s := built (from_raw step_limit) nothing in
  from_raw step_limit = Ok s /\ snd (analyse (honest_env step) (ask Sensor) s) = Ok tt /\
  match degradation_of (fst (analyse (honest_env step) (ask Sensor) s)) with
  | Some o => (same (yo_rate o) (fz 0) && same (yo_renorm o) (ff 9 10))%bool = true /\ List.length (yo_values o) = 5%nat
  | None => False end /\
  sorted_index raw13 /\ noinf (vals raw13) /\ three_steps step raw13 /\ at_least step step_limit /\ recognises (detect step) (fun _ => None) step.
Proof.
  cbv zeta. split; [vm_compute; reflexivity|]. split; [vm_compute; reflexivity|]. split; [vm_compute; auto|]. split; [exact raw_sorted|].
  split; [exact raw_noinf|]. split; [exact raw_long|]. split; [exact limit_ok|exact (detect_ok step eq_refl)].
Qed.

(** All hypotheses of C88_steady together, and of C88_steady_clearsky. *)
Lemma all_noinf : forall s : series, forallb (fun v => match v with PInf | NInf => false | _ => true end) (vals s) = true -> noinf (vals s).
Proof. intros s H v I. rewrite forallb_forall in H. specialize (H v I). destruct v; try discriminate H; split; discriminate. Qed.
Definition keeps_known : forall en, sorted_index en -> excludes_missing (honest_env step) en :=
  fun en Se => C75_filter (honest_env step) (fun _ => Some (ff 1 100)) (fun _ => None) (fun _ _ => eq_refl) en Se.
Lemma ran : forall (r : state unit unit unit unit yoy_out unit * result unit), snd r = Ok tt -> r = (fst r, Ok tt).
Proof. intros [s r] H. cbn in *. rewrite H. reflexivity. Qed.
Lemma sorted12 : sorted_index poa12.
Proof. unfold sorted_index. vm_compute. repeat constructor. Qed.
Lemma noinf12 : noinf (vals poa12).
Proof. apply all_noinf. vm_compute. reflexivity. Qed.
Lemma dividing_step : dividing step.
Proof. exists 73%Z. right. reflexivity. Qed.
Lemma steady_any : forall s, from_raw step_limit = Ok s -> snd (analyse (honest_env step) (ask Sensor) s) = Ok tt ->
  exists o z, d_result (s_sensor (fst (analyse (honest_env step) (ask Sensor) s))) = Some (Outcome (Some o) z) /\ no_change o /\ yo_renorm o = Fin (qf 9 10).
Proof.
  intros s H1 H2. assert (X3 := raw_sorted). assert (X4 := raw_noinf). assert (X5 := raw_long). assert (X6 := limit_ok). assert (X7 := detect_ok step eq_refl).
  apply (C88_steady (honest_env step) tt poa12 None None None step tt raw13 None None step step_limit (qf 9 10) s (fst (analyse (honest_env step) (ask Sensor) s)) (ask Sensor) (fun _ => Some (fun t => t - step)%Z) demo_sortv
    (fun n => [seq 0 n; [0%nat; 0%nat]]) [[0%nat]] (fun _ => true) (fun _ => qz 95) (fun _ => qz 68) (fun _ => Simple)).
  - exact X3.
  - exact X4.
  - reflexivity.
  - exact X5.
  - exact X6.
  - exact X7.
  - exact sorted12.
  - exact noinf12.
  - reflexivity.
  - reflexivity.
  - exact dividing_step.
  - exact demo_sortv_ok.
  - exact two_draws.
  - discriminate.
  - intros y p. reflexivity.
  - exact keeps_known.
  - exact H1.
  - reflexivity.
  - left. reflexivity.
  - exact (ran _ H2).
Qed.
Example C88_steady_applied :
  let s := built (from_raw step_limit) nothing in
  exists o z, d_result (s_sensor (fst (analyse (honest_env step) (ask Sensor) s))) = Some (Outcome (Some o) z) /\ no_change o /\ yo_renorm o = Fin (qf 9 10).
Proof. exact (steady_any _ (proj1 C88_example) (proj1 (proj2 C88_example))). Qed.
Notation clear_from_raw := (set_clearsky (YR := yoy_out) (SR := unit) None tt (Some poa12) (Some poa12) (Some poa12) (built (from_raw None) nothing)).
Lemma clear_runs : from_raw None = Ok (built (from_raw None) nothing) /\ snd clear_from_raw = Ok tt /\ snd (analyse (honest_env step) (ask Clearsky) (fst clear_from_raw)) = Ok tt.
Proof. split; [vm_compute; reflexivity|]. split; vm_compute; reflexivity. Qed.
Lemma steady_clear_any : forall s0 s, from_raw None = Ok s0 -> set_clearsky (YR := yoy_out) (SR := unit) None tt (Some poa12) (Some poa12) (Some poa12) s0 = (s, Ok tt) ->
  snd (analyse (honest_env step) (ask Clearsky) s) = Ok tt ->
  exists o z, d_result (s_clear (fst (analyse (honest_env step) (ask Clearsky) s))) = Some (Outcome (Some o) z) /\ no_change o /\ yo_renorm o = Fin (qf 9 10).
Proof.
  intros s0 s H1 H2 H3. assert (X3 := raw_sorted). assert (X4 := raw_noinf). assert (X5 := raw_long). assert (X7 := detect_ok step eq_refl).
  apply (C88_steady_clearsky (honest_env step) tt (Some poa12) None None None step tt raw13 None None step None (qf 9 10) s0 s (fst (analyse (honest_env step) (ask Clearsky) s)) (ask Clearsky) None tt poa12 (Some poa12) (Some poa12) (fun _ => Some (fun t => t - step)%Z) demo_sortv
    (fun n => [seq 0 n; [0%nat; 0%nat]]) [[0%nat]] (fun _ => true) (fun _ => qz 95) (fun _ => qz 68) (fun _ => Simple)).
  - exact X3.
  - exact X4.
  - reflexivity.
  - exact X5.
  - exact I.
  - exact X7.
  - exact sorted12.
  - exact noinf12.
  - reflexivity.
  - reflexivity.
  - exact dividing_step.
  - exact demo_sortv_ok.
  - exact two_draws.
  - discriminate.
  - intros y p. reflexivity.
  - exact keeps_known.
  - exact H1.
  - exact H2.
  - reflexivity.
  - left. reflexivity.
  - exact (ran _ H3).
Qed.
Example C88_steady_clearsky_applied :
  exists o z, d_result (s_clear (fst (analyse (honest_env step) (ask Clearsky) (fst clear_from_raw)))) = Some (Outcome (Some o) z) /\ no_change o /\ yo_renorm o = Fin (qf 9 10).
Proof. exact (steady_clear_any _ _ (proj1 clear_runs) (ran clear_from_raw (proj1 (proj2 clear_runs))) (proj2 (proj2 clear_runs))). Qed.

(** A system that loses a hundredth of its first output a year, measured every 73 days. *)
Definition full12 : series := every step (map (fun x => if isnan x then fz 3 else x) sun).
Definition loss : Qc := (- qf 1 100) / qz (days 365).
Definition fade (t : Z) : Qc := 1 + loss * qz t.
Lemma known_dec : forall s, forallb (fun v => match v with Fin _ => true | _ => false end) (vals s) = true -> all_known s.
Proof. intros s H t v I. rewrite forallb_forall in H. specialize (H v (in_map snd s (t, v) I)). destruct v; try discriminate H. eauto. Qed.
Lemma step_times : forall t, In t (times full12) -> exists k, t = (step * k)%Z /\ (0 <= k <= 11)%Z.
Proof.
  intros t I. assert (Q : times full12 = map (fun k => step * k)%Z [0; 1; 2; 3; 4; 5; 6; 7; 8; 9; 10; 11]%Z) by (vm_compute; reflexivity). rewrite Q in I.
  apply in_map_iff in I. destruct I as (k & <- & I). exists k. split; [reflexivity|]. cbn [In] in I. lia.
Qed.
Lemma fade_fades : fades step 1 loss fade (times full12).
Proof.
  intros t I. destruct (step_times t I) as (k & -> & K). split.
  - assert (k = 0 \/ k = 1 \/ k = 2 \/ k = 3 \/ k = 4 \/ k = 5 \/ k = 6 \/ k = 7 \/ k = 8 \/ k = 9 \/ k = 10 \/ k = 11)%Z as Q by lia. repeat (destruct Q as [->|Q]; [reflexivity|]). subst k. reflexivity.
  - intros u m j Iu ((d & ->) & M) H. destruct (step_times u Iu) as (i & -> & _). unfold inside in H. apply andb_prop in H. destruct H as [H1 H2]. apply Z.leb_le in H1. apply Z.ltb_lt in H2.
    unfold fade. replace (ns_day * d + step * j)%Z with (step * k)%Z; [reflexivity|]. unfold step, ns_day in *. lia.
Qed.
Lemma regular12 : regular step (times full12).
Proof. exists 0%Z. vm_compute. reflexivity. Qed.
Lemma four_rows : (4 <= List.length full12)%nat.
Proof. vm_compute. lia. Qed.
Lemma known12 : all_known full12.
Proof. apply known_dec. vm_compute. reflexivity. Qed.
Notation faded := (construct_analysis (honest_env step) tt (shares fade full12) (Some poa12) None None None step PvPower tt (Some full12) None None None step_limit).
Example C88_fading_example :
  let s := built faded nothing in
  faded = Ok s /\ snd (analyse (honest_env step) (ask Sensor) s) = Ok tt /\
  match degradation_of (fst (analyse (honest_env step) (ask Sensor) s)) with
  | Some o => (same (yo_rate o) (ff (-500) 497) && same (yo_renorm o) (ff 497 500))%bool = true /\ List.length (yo_values o) = 5%nat
  | None => False end.
Proof. cbv zeta. split; [vm_compute; reflexivity|]. split; [vm_compute; reflexivity|]. vm_compute; auto. Qed.
Lemma fading_any : forall s, faded = Ok s -> snd (analyse (honest_env step) (ask Sensor) s) = Ok tt ->
  exists p o z rho, d_performance (s_sensor (fst (analyse (honest_env step) (ask Sensor) s))) = Present p /\ d_result (s_sensor (fst (analyse (honest_env step) (ask Sensor) s))) = Some (Outcome (Some o) z) /\ on_fading_line 1 1 loss p /\
    yo_renorm o = Fin rho /\ 0 < rho /\ first_year_level true p rho /\ one_change (qz 100 * (loss * qz (days 365)) / rho) Simple o.
Proof.
  intros s H1 H2.
  apply (C88_fading (honest_env step) tt poa12 None None None step tt full12 None None step step_limit fade 1 loss s (fst (analyse (honest_env step) (ask Sensor) s)) (ask Sensor) (fun _ => Some (fun t => t - step)%Z) demo_sortv
    (fun n => [seq 0 n; [0%nat; 0%nat]]) [[0%nat]] (fun _ => true) (fun _ => qz 95) (fun _ => qz 68) (fun _ => Simple)).
  - reflexivity.
  - exact regular12.
  - exact four_rows.
  - exact known12.
  - vm_compute. discriminate.
  - exact (detect_ok step eq_refl).
  - exact sorted12.
  - exact noinf12.
  - reflexivity.
  - exact dividing_step.
  - exact fade_fades.
  - exact demo_sortv_ok.
  - exact two_draws.
  - intros y p. reflexivity.
  - exact keeps_known.
  - exact H1.
  - reflexivity.
  - left. reflexivity.
  - exact (ran _ H2).
Qed.
Example C88_fading_applied :
  let s' := fst (analyse (honest_env step) (ask Sensor) (built faded nothing)) in
  exists p o z rho, d_performance (s_sensor s') = Present p /\ d_result (s_sensor s') = Some (Outcome (Some o) z) /\ on_fading_line 1 1 loss p /\
    yo_renorm o = Fin rho /\ 0 < rho /\ first_year_level true p rho /\ one_change (qz 100 * (loss * qz (days 365)) / rho) Simple o.
Proof. cbv zeta. pose proof C88_fading_example as X. cbv zeta in X. destruct X as (X1 & X2 & _). exact (fading_any (built faded nothing) X1 X2). Qed.
Notation clear_faded := (set_clearsky (YR := yoy_out) (SR := unit) None tt (Some poa12) (Some poa12) (Some poa12) (built faded nothing)).
Lemma clear_faded_runs : snd clear_faded = Ok tt /\ snd (analyse (honest_env step) (ask Clearsky) (fst clear_faded)) = Ok tt.
Proof. split; vm_compute; reflexivity. Qed.
Lemma fading_clear_any : forall s0 s, faded = Ok s0 -> set_clearsky (YR := yoy_out) (SR := unit) None tt (Some poa12) (Some poa12) (Some poa12) s0 = (s, Ok tt) ->
  snd (analyse (honest_env step) (ask Clearsky) s) = Ok tt ->
  exists p o z rho, d_performance (s_clear (fst (analyse (honest_env step) (ask Clearsky) s))) = Present p /\ d_result (s_clear (fst (analyse (honest_env step) (ask Clearsky) s))) = Some (Outcome (Some o) z) /\ on_fading_line 1 1 loss p /\
    yo_renorm o = Fin rho /\ 0 < rho /\ first_year_level true p rho /\ one_change (qz 100 * (loss * qz (days 365)) / rho) Simple o.
Proof.
  intros s0 s H1 H2 H3.
  apply (C88_fading_clearsky (honest_env step) tt (Some poa12) None None None step tt full12 None None step step_limit fade 1 loss s0 s (fst (analyse (honest_env step) (ask Clearsky) s)) (ask Clearsky) None tt poa12 (Some poa12) (Some poa12) (fun _ => Some (fun t => t - step)%Z) demo_sortv
    (fun n => [seq 0 n; [0%nat; 0%nat]]) [[0%nat]] (fun _ => true) (fun _ => qz 95) (fun _ => qz 68) (fun _ => Simple)).
  - reflexivity.
  - exact regular12.
  - exact four_rows.
  - exact known12.
  - vm_compute. discriminate.
  - exact (detect_ok step eq_refl).
  - exact sorted12.
  - exact noinf12.
  - reflexivity.
  - exact dividing_step.
  - exact fade_fades.
  - exact demo_sortv_ok.
  - exact two_draws.
  - intros y p. reflexivity.
  - exact keeps_known.
  - exact H1.
  - exact H2.
  - reflexivity.
  - left. reflexivity.
  - exact (ran _ H3).
Qed.
Example C88_fading_clearsky_applied :
  let s' := fst (analyse (honest_env step) (ask Clearsky) (fst clear_faded)) in
  exists p o z rho, d_performance (s_clear s') = Present p /\ d_result (s_clear s') = Some (Outcome (Some o) z) /\ on_fading_line 1 1 loss p /\
    yo_renorm o = Fin rho /\ 0 < rho /\ first_year_level true p rho /\ one_change (qz 100 * (loss * qz (days 365)) / rho) Simple o.
Proof. cbv zeta. pose proof C88_fading_example as X. cbv zeta in X. destruct X as (X1 & _). destruct clear_faded_runs as [R2 R3]. exact (fading_clear_any (built faded nothing) (fst clear_faded) X1 (ran clear_faded R2) R3). Qed.

(** The same loss with PVWatts: 4 kW, -0.4 % per degree, cells at 20 to 31 degrees. *)
Definition cell12 : series := every step (map (fun k => fz (20 + Z.of_nat k)) (seq 0 12)).
Definition watts12 : series := pvwatts_dc_power poa12 (fz 4) (Some cell12) (fz 1000) (fz 25) (Some (ff (-4) 1000)).
Notation faded_watts := (construct_analysis (honest_env step) tt (shares fade watts12) (Some poa12) (Some cell12) None (Some (ff (-4) 1000)) step PvPower tt None None (Some (fz 4)) None None).
Lemma watts_rows : pvwatts_of (qz 4) (qf (-4) 1000) poa12 cell12 watts12.
Proof.
  split; [vm_compute; reflexivity|]. intros t v I.
  destruct (proj1 (NormP.pvwatts_with_temperature poa12 cell12 (qz 4) (qz 1000) (qz 25) (qf (-4) 1000) t v
    (TrendP7.sorted_nodup _ sorted12) ltac:(apply TrendP7.sorted_nodup; vm_compute; repeat constructor) noinf12 ltac:(apply all_noinf; vm_compute; reflexivity) ltac:(discriminate)) I) as (_ & g & c & G & C & ->).
  assert (Kp : all_known poa12) by (apply known_dec; vm_compute; reflexivity). assert (Kc : all_known cell12) by (apply known_dec; vm_compute; reflexivity).
  assert (Tt : times cell12 = times poa12) by (vm_compute; reflexivity). assert (Te : times watts12 = times poa12) by (vm_compute; reflexivity).
  assert (It : In t (times poa12)) by (rewrite <- Te; apply (in_map fst watts12 (t, pvwatts_value (qz 4) (qz 1000) (qz 25) (qf (-4) 1000) g c)); exact I).
  destruct G as [G|[_ N]]; [|contradiction]. destruct C as [C|[_ N]]; [|rewrite Tt in N; contradiction].
  destruct (Kp _ _ G) as [g' ->]. destruct (Kc _ _ C) as [c' ->]. exists g', c'. auto.
Qed.
Example C88_pvwatts_example :
  let s := built faded_watts nothing in
  faded_watts = Ok s /\ snd (analyse (honest_env step) (ask Sensor) s) = Ok tt /\
  match degradation_of (fst (analyse (honest_env step) (ask Sensor) s)) with
  | Some o => (same (yo_rate o) (ff (-500) 497) && same (yo_renorm o) (ff 497 500))%bool = true /\ List.length (yo_values o) = 5%nat
  | None => False end.
Proof. cbv zeta. split; [vm_compute; reflexivity|]. split; [vm_compute; reflexivity|]. vm_compute; auto. Qed.
Lemma pvwatts_any : forall s, faded_watts = Ok s -> snd (analyse (honest_env step) (ask Sensor) s) = Ok tt ->
  exists p o z rho, d_performance (s_sensor (fst (analyse (honest_env step) (ask Sensor) s))) = Present p /\ d_result (s_sensor (fst (analyse (honest_env step) (ask Sensor) s))) = Some (Outcome (Some o) z) /\ on_fading_line 1 1 loss p /\
    yo_renorm o = Fin rho /\ 0 < rho /\ first_year_level true p rho /\ one_change (qz 100 * (loss * qz (days 365)) / rho) Simple o.
Proof.
  intros s H1 H2. assert (Tp : times poa12 = times full12) by (vm_compute; reflexivity).
  apply (C88_fading_pvwatts (honest_env step) tt poa12 cell12 None (qf (-4) 1000) step tt watts12 None (qz 4) step None fade 1 loss s (fst (analyse (honest_env step) (ask Sensor) s)) (ask Sensor) (fun _ => Some (fun t => t - step)%Z) demo_sortv
    (fun n => [seq 0 n; [0%nat; 0%nat]]) [[0%nat]] (fun _ => true) (fun _ => qz 95) (fun _ => qz 68) (fun _ => Simple)).
  - reflexivity.
  - rewrite Tp. exact regular12.
  - vm_compute. lia.
  - apply known_dec. vm_compute. reflexivity.
  - apply known_dec. vm_compute. reflexivity.
  - vm_compute. reflexivity.
  - exact watts_rows.
  - exact I.
  - exact (detect_ok step eq_refl).
  - reflexivity.
  - exact dividing_step.
  - rewrite Tp. exact fade_fades.
  - exact demo_sortv_ok.
  - exact two_draws.
  - intros y p. reflexivity.
  - exact keeps_known.
  - exact H1.
  - reflexivity.
  - left. reflexivity.
  - exact (ran _ H2).
Qed.
Example C88_pvwatts_applied :
  let s' := fst (analyse (honest_env step) (ask Sensor) (built faded_watts nothing)) in
  exists p o z rho, d_performance (s_sensor s') = Present p /\ d_result (s_sensor s') = Some (Outcome (Some o) z) /\ on_fading_line 1 1 loss p /\
    yo_renorm o = Fin rho /\ 0 < rho /\ first_year_level true p rho /\ one_change (qz 100 * (loss * qz (days 365)) / rho) Simple o.
Proof. cbv zeta. pose proof C88_pvwatts_example as X. cbv zeta in X. destruct X as (X1 & X2 & _). exact (pvwatts_any (built faded_watts nothing) X1 X2). Qed.

Print Assumptions C88_twice.
Print Assumptions C88_proportional.
Print Assumptions C88_steady.
Print Assumptions C88_steady_clearsky.
Print Assumptions C88_follows.
Print Assumptions C88_fading.
Print Assumptions C88_fading_clearsky.
Print Assumptions C88_fading_pvwatts.
