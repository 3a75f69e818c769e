(** C89: a TrendAnalysis of a system that is never soiled *)

From Coq Require Import QArith Qcanon List ZArith Bool Arith Lia Permutation Sorted.
From Verif.Base Require Import QcExtra ISort Quantile Fl TimeSeries Calendar Rolling.
From Verif.Spec Require Import Stats Interp Energy Normalization FilterSets TrendRuns TrendCalls Pipeline YoY Steady Soiling SoilingTable Clean RawPower CleanRun.
From Verif.Model Require Import Interpolation Energy Normalization Filters FilterDict TrendAnalysis YearOnYear Soiling.
From Verif.Proofs Require Import InterpP TrendP7 SteadyP SteadyP2 SoilP9 SoilP10 CleanP RawP CleanRunP.
Import ListNotations.
Open Scope list_scope.
Open Scope Qc_scope.
From Coq Require Import String.
From Verif.Props Require Import YoYDemo C75 C88.
Open Scope string_scope.
Open Scope list_scope.
Open Scope Qc_scope.

(** Energy of power that is never negative is never negative, whatever the gaps and widths. *)
Theorem C89_energy : forall freq s w out, sorted_index s -> no_negative s -> (0 < w)%Z ->
  energy_from_power freq s (Some w) None RightLabeled = Ok out -> no_negative out.
Proof. exact energy_light. Qed.

(** The insolation of an analysis is never negative if the irradiance is not, also when it is interpolated first. *)
Theorem C89_insolation : forall {P W T O YK SK YR SR} (E : environment P W T O YK SK YR SR) c (i : inputs W O) (k : completed P T) energy poa en ins,
  i_energy i = Present energy -> sorted_index energy -> freq_ok (e_infer E) (e_freq E (times energy)) (times energy) ->
  irradiance_of c i k = Some poa -> sorted_index poa -> no_negative poa -> data E c i k = Ok (en, ins) -> no_negative ins.
Proof. exact (fun P W T O YK SK YR SR => @data_light P W T O YK SK YR SR). Qed.

(** What is stored: performance and insolation have the same rows, no insolation is negative, and a day with a performance has some. *)
Theorem C89_stored : forall {P W T O YK SK YR SR} (E : environment P W T O YK SK YR SR) (q : @request YK SK) (s s' : state P W T O YR SR), analyse E q s = (s', Ok tt) -> (0 < i_width (s_inputs s))%Z -> dividing (i_width (s_inputs s)) ->
  (forall energy insolation m, data E (q_case q) (s_inputs s) (completion E (s_inputs s) (s_completed s)) = Ok (energy, insolation) ->
     d_filter (side_of (q_case q) s') = Present m -> noinf (vals (kept_rows m energy)) /\ no_negative insolation) ->
  exists p i, d_performance (side_of (q_case q) s') = Present p /\ d_insolation (side_of (q_case q) s') = Present i /\ times i = times p /\ sunny p i.
Proof. exact (fun P W T O YK SK YR SR => @stored_sunny P W T O YK SK YR SR). Qed.

(** From measured energy to the reported soiling: a system that always delivers the same share of its modelled energy is reported as never soiled. *)
Theorem C89_clean : forall {P W T O YK SK YR} (E : environment P W T O YK SK YR srr_result) (q : @request YK SK) (s s' : state P W T O YR srr_result) level energy model index poa
  margin visit (ds : SK -> list draws) precip day_scale thr trim method c pthr minimum exc conf (rc : SK -> bool) limit step factor,
  let i := s_inputs s in let k := completion E i (s_completed s) in 0 < level ->
  (forall pts, 0 <= margin pts) -> (forall l, set_order l (visit l)) -> (forall y, (1 <= minimum y)%Z) ->
  (forall y p n, e_srr E y p n = soiling_srr (theil_fit margin) visit p n (ds y) (precip y) (day_scale y) (thr y) (trim y) (method y) (c y) (pthr y) (minimum y) (exc y) (conf y) (rc y) (limit y) (step y) (factor y)) ->
  (forall en, sorted_index en -> excludes_missing E en) -> dget "normalized_filter" (params_of s) <> None ->
  i_energy i = Present energy -> irradiance_of (q_case q) i k = Some poa -> sorted_index poa -> no_negative poa ->
  model_of (q_case q) i k model index -> proportional (e_infer E) (e_freq E) level energy model index ->
  analyse E q s = (s', Ok tt) -> In "srr_soiling"%string (q_names q) ->
  exists y res, d_result (side_of (q_case q) s') = Some (Outcome y (Some res)) /\ never_soiled res /\
    sr_renorm res = Fin (if rc (q_srr q) then level_of i level else 1).
Proof. exact (fun P W T O YK SK YR => @analysis_clean P W T O YK SK YR). Qed.

(** The same from measured power with any gaps and steps. *)
Theorem C89_power : forall {P W T O YK SK YR} (E : environment P W T O YK SK YR srr_result) empty poa cell ambient gamma width wind expected tm rated w max level (s s' : state P W T O YR srr_result) (q : @request YK SK)
  margin visit (ds : SK -> list draws) precip day_scale thr trim method c pthr minimum exc conf (rc : SK -> bool) limit step factor,
  sorted_index expected -> noinf (vals expected) -> (0 < w)%Z -> three_steps w expected -> at_least w max -> recognises (e_infer E) (e_freq E) w ->
  sorted_index poa -> no_negative poa -> 0 < level ->
  (forall pts, 0 <= margin pts) -> (forall l, set_order l (visit l)) -> (forall y, (1 <= minimum y)%Z) ->
  (forall y p n, e_srr E y p n = soiling_srr (theil_fit margin) visit p n (ds y) (precip y) (day_scale y) (thr y) (trim y) (method y) (c y) (pthr y) (minimum y) (exc y) (conf y) (rc y) (limit y) (step y) (factor y)) ->
  (forall en, sorted_index en -> excludes_missing E en) ->
  construct_analysis E empty (share level expected) (Some poa) cell ambient gamma width PvPower wind (Some expected) tm rated (Some w) max = Ok s ->
  q_case q = Sensor -> In "srr_soiling"%string (q_names q) -> analyse E q s = (s', Ok tt) ->
  exists y res, d_result (s_sensor s') = Some (Outcome y (Some res)) /\ never_soiled res /\ sr_renorm res = Fin (if rc (q_srr q) then level else 1).
Proof. exact (fun P W T O YK SK YR => @raw_clean P W T O YK SK YR). Qed.

(** The same for the clear-sky analysis after set_clearsky with an irradiance that is never negative. *)
Theorem C89_power_clear : forall {P W T O YK SK YR} (E : environment P W T O YK SK YR srr_result) empty poa cell ambient gamma width wind expected tm rated w max level (s0 s s' : state P W T O YR srr_result) (q : @request YK SK) loc o clear cell' ambient'
  margin visit (ds : SK -> list draws) precip day_scale thr trim method c pthr minimum exc conf (rc : SK -> bool) limit step factor,
  sorted_index expected -> noinf (vals expected) -> (0 < w)%Z -> three_steps w expected -> at_least w max -> recognises (e_infer E) (e_freq E) w ->
  sorted_index clear -> no_negative clear -> 0 < level ->
  (forall pts, 0 <= margin pts) -> (forall l, set_order l (visit l)) -> (forall y, (1 <= minimum y)%Z) ->
  (forall y p n, e_srr E y p n = soiling_srr (theil_fit margin) visit p n (ds y) (precip y) (day_scale y) (thr y) (trim y) (method y) (c y) (pthr y) (minimum y) (exc y) (conf y) (rc y) (limit y) (step y) (factor y)) ->
  (forall en, sorted_index en -> excludes_missing E en) ->
  construct_analysis E empty (share level expected) poa cell ambient gamma width PvPower wind (Some expected) tm rated (Some w) max = Ok s0 ->
  set_clearsky loc o (Some clear) cell' ambient' s0 = (s, Ok tt) ->
  q_case q = Clearsky -> In "srr_soiling"%string (q_names q) -> analyse E q s = (s', Ok tt) ->
  exists y res, d_result (s_clear s') = Some (Outcome y (Some res)) /\ never_soiled res /\ sr_renorm res = Fin (if rc (q_srr q) then level else 1).
Proof. exact (fun P W T O YK SK YR => @raw_clean_clear P W T O YK SK YR). Qed.

(** Eight days in steps of half a day, irradiance and expected power in proportion, one row missing;
    the power is 0.9 times the expected one. *)
Definition half : Z := (ns_day / 2)%Z.
Definition light17 : list fl := [fz 5; fz 6; fz 8; fz 0; fz 7; fz 5; NaN; fz 8; fz 9; fz 4; fz 6; fz 6; fz 7; fz 3; fz 2; fz 0; fz 4].
Definition power17 : series := every half light17.
Definition poa17 : series := every half (map (fun x => fmul (fz 100) (if isnan x then fz 1 else x)) light17).
Definition draw_once : draws := Draws (fun _ => qf 1 3) (fun _ => qf (-7) 5) (fun _ => qf 1 2).
Definition soil (p n : series) : result srr_result :=
  soiling_srr (theil_fit (fun _ => 0)) zset p n [draw_once; draw_once] None 1 None false "half_norm_clean" "shift" (fz 1) 2 (qz 95) (qz 68) true (fz 500) (ff 1 20) (ff 3 2).
Definition soil_env : environment unit unit unit unit unit unit nat srr_result :=
  Environment (fun _ => None) (detect half) (fun _ x => x) tt tt (fun _ _ a _ => Ok a) (fun _ _ _ => Raise ValueError) (fun _ _ => Raise ValueError)
    (fun _ s => Ok (default_normalized s)) (fun _ => no_mask) (fun _ => no_mask) (fun _ => no_mask) (fun _ _ => no_mask) (fun _ s _ => no_mask s)
    (fun _ => no_mask) (fun _ => no_mask) (fun _ => no_mask) (fun _ => no_mask)
    (fun _ p => Ok (List.length p)) (fun _ p n => soil p n).
Definition ask_soiling : @request unit unit := Request Sensor ["srr_soiling"] tt tt.
Notation from_power := (construct_analysis soil_env tt (share (qf 9 10) power17) (Some poa17) None None None ns_day PvPower tt (Some power17) None None (Some half) None).
Lemma power_sorted : sorted_index power17.
Proof. unfold sorted_index. vm_compute. repeat constructor. Qed.
Lemma power_noinf : noinf (vals power17).
Proof. apply all_noinf. vm_compute. reflexivity. Qed.
Lemma poa_sorted : sorted_index poa17.
Proof. unfold sorted_index. vm_compute. repeat constructor. Qed.
Lemma poa_light : no_negative poa17.
Proof. intros t x I. vm_compute in I. repeat (destruct I as [I|I]; [injection I as _ <-; right; eexists; split; [reflexivity|discriminate]|]). destruct I. Qed.
Lemma power_long : three_steps half power17.
Proof. vm_compute. discriminate. Qed.
Lemma zset_order : forall l, set_order l (zset l).
Proof. intros l. split; [apply sorted_nodup, zset_sorted|intros x; apply zset_In]. Qed.
Definition stored (r : result (state unit unit unit unit nat srr_result)) (dummy : state unit unit unit unit nat srr_result) := match r with Ok s => s | Raise _ => dummy end.
Definition empty_state : state unit unit unit unit nat srr_result :=
  State (Inputs Unset Unset None None None 1 tt None None None Unset None) (Completed None None Unset Unset Unset (Validated [] []) (Validated [] [])) empty_side empty_side.
Lemma clean_runs : from_power = Ok (stored from_power empty_state) /\ snd (analyse soil_env ask_soiling (stored from_power empty_state)) = Ok tt.
Proof. split; vm_compute; reflexivity. Qed.
Lemma clean_any : forall s, from_power = Ok s -> snd (analyse soil_env ask_soiling s) = Ok tt ->
  exists y res, d_result (s_sensor (fst (analyse soil_env ask_soiling s))) = Some (Outcome y (Some res)) /\ never_soiled res /\ sr_renorm res = Fin (qf 9 10).
Proof.
  intros s H1 H2. assert (X3 := power_sorted). assert (X4 := power_noinf). assert (X5 := power_long). assert (X7 := detect_ok half eq_refl).
  apply (C89_power soil_env tt poa17 None None None ns_day tt power17 None None half None (qf 9 10) s (fst (analyse soil_env ask_soiling s)) ask_soiling
    (fun _ => 0) zset (fun _ => [draw_once; draw_once]) (fun _ => None) (fun _ => 1%nat) (fun _ => None) (fun _ => false) (fun _ => "half_norm_clean") (fun _ => "shift") (fun _ => fz 1) (fun _ => 2%Z)
    (fun _ => qz 95) (fun _ => qz 68) (fun _ => true) (fun _ => fz 500) (fun _ => ff 1 20) (fun _ => ff 3 2)).
  - exact X3.
  - exact X4.
  - reflexivity.
  - exact X5.
  - exact I.
  - exact X7.
  - exact poa_sorted.
  - exact poa_light.
  - reflexivity.
  - intros pts. discriminate.
  - exact zset_order.
  - intros y. discriminate.
  - intros y p n. reflexivity.
  - intros en Se. exact (C75_filter soil_env (fun _ => Some (ff 1 100)) (fun _ => None) (fun _ _ => eq_refl) en Se).
  - exact H1.
  - reflexivity.
  - left. reflexivity.
  - rewrite <- H2. apply surjective_pairing.
Qed.
Example C89_applied :
  exists y res, d_result (s_sensor (fst (analyse soil_env ask_soiling (stored from_power empty_state)))) = Some (Outcome y (Some res)) /\ never_soiled res /\ sr_renorm res = Fin (qf 9 10).
Proof. exact (clean_any _ (proj1 clean_runs) (proj2 clean_runs)). Qed.
Example C89_example :
  let s' := fst (analyse soil_env ask_soiling (stored from_power empty_state)) in
  match d_performance (s_sensor s'), d_insolation (s_sensor s'), d_result (s_sensor s') with
  | Present p, Present n, Some (Outcome None (Some res)) =>
      List.length p = 9%nat /\ forallb (fun x => negb (isnan x)) (vals n) = true /\ List.length (sr_intervals res) = 1%nat /\ List.length (sr_profiles res) = 2%nat
  | _, _, _ => False end.
Proof. cbv zeta. vm_compute. auto. Qed.

(** The clear-sky analysis of the same record, with the irradiance as the clear-sky one. *)
Definition ask_clear : @request unit unit := Request Clearsky ["srr_soiling"] tt tt.
Notation cleared s := (set_clearsky None tt (Some poa17) (Some poa17) (Some poa17) s).
Lemma sky_runs : let s := fst (cleared (stored from_power empty_state)) in
  snd (cleared (stored from_power empty_state)) = Ok tt /\ snd (analyse soil_env ask_clear s) = Ok tt.
Proof. cbv zeta. split; vm_compute; reflexivity. Qed.
Lemma sky_any : forall s0, from_power = Ok s0 -> snd (cleared s0) = Ok tt -> snd (analyse soil_env ask_clear (fst (cleared s0))) = Ok tt ->
  exists y res, d_result (s_clear (fst (analyse soil_env ask_clear (fst (cleared s0))))) = Some (Outcome y (Some res)) /\ never_soiled res /\ sr_renorm res = Fin (qf 9 10).
Proof.
  intros s0 H1 H2 H3. assert (X3 := power_sorted). assert (X4 := power_noinf). assert (X5 := power_long). assert (X7 := detect_ok half eq_refl).
  apply (C89_power_clear soil_env tt (Some poa17) None None None ns_day tt power17 None None half None (qf 9 10) s0 (fst (cleared s0)) (fst (analyse soil_env ask_clear (fst (cleared s0)))) ask_clear
    None tt poa17 (Some poa17) (Some poa17)
    (fun _ => 0) zset (fun _ => [draw_once; draw_once]) (fun _ => None) (fun _ => 1%nat) (fun _ => None) (fun _ => false) (fun _ => "half_norm_clean") (fun _ => "shift") (fun _ => fz 1) (fun _ => 2%Z)
    (fun _ => qz 95) (fun _ => qz 68) (fun _ => true) (fun _ => fz 500) (fun _ => ff 1 20) (fun _ => ff 3 2)).
  - exact X3.
  - exact X4.
  - reflexivity.
  - exact X5.
  - exact I.
  - exact X7.
  - exact poa_sorted.
  - exact poa_light.
  - reflexivity.
  - intros pts. discriminate.
  - exact zset_order.
  - intros y. discriminate.
  - intros y p n. reflexivity.
  - intros en Se. exact (C75_filter soil_env (fun _ => Some (ff 1 100)) (fun _ => None) (fun _ _ => eq_refl) en Se).
  - exact H1.
  - rewrite <- H2. apply surjective_pairing.
  - reflexivity.
  - left. reflexivity.
  - rewrite <- H3. apply surjective_pairing.
Qed.
Example C89_clear_applied : let s := fst (cleared (stored from_power empty_state)) in
  exists y res, d_result (s_clear (fst (analyse soil_env ask_clear s))) = Some (Outcome y (Some res)) /\ never_soiled res /\ sr_renorm res = Fin (qf 9 10).
Proof. exact (sky_any _ (proj1 clean_runs) (proj1 sky_runs) (proj2 sky_runs)). Qed.

Print Assumptions C89_energy.
Print Assumptions C89_insolation.
Print Assumptions C89_stored.
Print Assumptions C89_clean.
Print Assumptions C89_power.
Print Assumptions C89_power_clear.
