(** C84: A system that fades evenly shows exactly that rate *)

From Coq Require Import QArith Qcanon List ZArith Bool Arith Lia Permutation Sorted.
From Verif.Base Require Import QcExtra ISort Quantile Fl TimeSeries Calendar Rolling.
From Verif.Spec Require Import Stats Normalization FilterSets TrendRuns TrendCalls Pipeline YoY Steady Fading.
From Verif.Model Require Import Energy Normalization Filters FilterDict TrendAnalysis YearOnYear.
From Verif.Proofs Require Import FadingP.
Import ListNotations.
Open Scope list_scope.
Open Scope Qc_scope.
From Coq Require Import String.
From Verif.Props Require Import YoYDemo C75.
Open Scope list_scope.
Open Scope Qc_scope.

(** Year-on-year degradation of positive values on a line, with any gaps: every pair, the rate, the interval and the exceedance level of the simple method are the change of the line in 365 days relative to a level of the first year. *)
Theorem C84_rate : forall infer sortv choice starts rc ep cl m input k a slope o, 0 < k -> sorts_by_shifted sortv -> draws_ok choice -> on_fading_line k a slope input ->
  degradation_year_on_year infer sortv choice starts rc ep cl m input = Ok o ->
  exists rho, yo_renorm o = Fin rho /\ 0 < rho /\ first_year_level rc input rho /\ one_change (qz 100 * (k * slope * qz (days 365)) / rho) m o.
Proof. exact line_rate. Qed.

(** Measured energy that is the f-fold of the modelled one gives f as normalized energy, in both cases, for expected power and for PVWatts; without a rating up to a positive factor. *)
Theorem C84_data : forall {P W T O YK SK YR SR} (E : environment P W T O YK SK YR SR) c (i : inputs W O) (k : completed P T) f energy model index poa en ins, (forall t, In t (times energy) -> 0 < f t) ->
  i_energy i = Present energy -> irradiance_of c i k = Some poa -> sorted_index poa -> noinf (vals poa) ->
  model_of c i k model index -> follows_model (e_infer E) (e_freq E) f energy model index ->
  data E c i k = Ok (en, ins) -> (exists z, scale_of i z /\ forall t v, In (t, v) en -> v = NaN \/ (v = Fin (z * f t) /\ In t (times energy))) /\ noinf (vals ins).
Proof. exact (fun P W T O YK SK YR SR => @data_follows P W T O YK SK YR SR). Qed.

(** Such normalized energy is stored as performance on the line, whatever the filters and the insolation, if one of the filters excludes missing values. *)
Theorem C84_stored : forall {P W T O YK SK YR SR} (E : environment P W T O YK SK YR SR) (q : @request YK SK) (s s' : state P W T O YR SR) z f a slope rows,
  analyse E q s = (s', Ok tt) -> (0 < i_width (s_inputs s))%Z -> dividing (i_width (s_inputs s)) ->
  dget "normalized_filter" (params_of s) <> None -> fades (i_width (s_inputs s)) a slope f rows ->
  (forall energy insolation, data E (q_case q) (s_inputs s) (completion E (s_inputs s) (s_completed s)) = Ok (energy, insolation) ->
     (forall t v, In (t, v) energy -> v = NaN \/ (v = Fin (z * f t) /\ In t rows)) /\ noinf (vals insolation) /\ excludes_missing E energy) ->
  exists p, d_performance (side_of (q_case q) s') = Present p /\ on_fading_line z a slope p.
Proof. exact (fun P W T O YK SK YR SR => @stored_line P W T O YK SK YR SR). Qed.

(** From the measured energy to the reported degradation. *)
Theorem C84_analysis : forall {P W T O YK SK SR} (E : environment P W T O YK SK yoy_out SR) (q : @request YK SK) (s s' : state P W T O yoy_out SR) f a slope energy model index poa
  infer sortv choice starts (recenter : YK -> bool) ep cl (m : YK -> umethod),
  let i := s_inputs s in let k := completion E i (s_completed s) in
  sorts_by_shifted sortv -> draws_ok choice ->
  (forall y p, e_yoy E y p = degradation_year_on_year infer sortv choice starts (recenter y) (ep y) (cl y) (m y) p) ->
  (forall en, sorted_index en -> excludes_missing E en) -> dget "normalized_filter" (params_of s) <> None ->
  (0 < i_width i)%Z -> dividing (i_width i) -> fades (i_width i) a slope f (times energy) ->
  i_energy i = Present energy -> irradiance_of (q_case q) i k = Some poa -> sorted_index poa -> noinf (vals poa) ->
  model_of (q_case q) i k model index -> follows_model (e_infer E) (e_freq E) f energy model index ->
  analyse E q s = (s', Ok tt) -> In "yoy_degradation"%string (q_names q) ->
  exists p o z scale rho, d_performance (side_of (q_case q) s') = Present p /\ d_result (side_of (q_case q) s') = Some (Outcome (Some o) z) /\
    scale_of i scale /\ on_fading_line scale a slope p /\
    yo_renorm o = Fin rho /\ 0 < rho /\ first_year_level (recenter (q_yoy q)) p rho /\
    one_change (qz 100 * (scale * slope * qz (days 365)) / rho) (m (q_yoy q)) o.
Proof. exact (fun P W T O YK SK SR => @analysis_line P W T O YK SK SR). Qed.

(** A system that fades in steps, once per bin, meets the hypothesis for every width that divides a day. *)
Theorem C84_daily : forall w k a slope rows, (0 < w)%Z -> (ns_day = w * k)%Z -> (forall t, In t rows -> 0 < fading w a slope t) -> fades w a slope (fading w a slope) rows.
Proof. exact fading_fades. Qed.

(** The eleven energies of C75, now of a system that loses a hundredth of its first output a year. *)
Definition loss : Qc := (- qf 1 100) / qz (days 365).
Definition line (t : Z) : Qc := 1 + loss * qz t.
Definition fading12 : series := match energy_from_power None expected12 (Some step) None RightLabeled with
  | Ok e => map (fun r => (fst r, fmul (Fin (line (fst r))) (snd r))) e | Raise _ => [] end.
Lemma fading12_times : forall t, In t (times fading12) -> exists k, t = (step * k)%Z /\ (1 <= k <= 11)%Z.
Proof.
  intros t I. assert (Q : times fading12 = map (fun k => step * k)%Z [1; 2; 3; 4; 5; 6; 7; 8; 9; 10; 11]%Z) by (vm_compute; reflexivity). rewrite Q in I.
  apply in_map_iff in I. destruct I as (k & <- & I). exists k. split; [reflexivity|]. cbn [In] in I. lia.
Qed.
Lemma fading12_fades : fades step 1 loss line (times fading12).
Proof.
  intros t I. destruct (fading12_times t I) as (k & -> & K). split.
  - assert (k = 1 \/ k = 2 \/ k = 3 \/ k = 4 \/ k = 5 \/ k = 6 \/ k = 7 \/ k = 8 \/ k = 9 \/ k = 10 \/ k = 11)%Z as Q by lia. repeat (destruct Q as [->|Q]; [reflexivity|]). subst k. reflexivity.
  - intros u m j Iu ((d & ->) & M) H. destruct (fading12_times u Iu) as (i & -> & _). unfold inside in H. apply andb_prop in H. destruct H as [H1 H2]. apply Z.leb_le in H1. apply Z.ltb_lt in H2.
    unfold line. replace (ns_day * d + step * j)%Z with (step * k)%Z; [reflexivity|]. unfold step, ns_day in *. lia.
Qed.
Example C84_example :
  let s := steady_state fading12 expected12 poa12 step with_filter in
  let E := steady_env step default_normalized in
  let q := Request Sensor ["yoy_degradation"%string] tt tt in
  snd (analyse E q s) = Ok tt /\
  match degradation_of (fst (analyse E q s)) with
  | Some o => (same (yo_rate o) (ff (-500) 497) && same (yo_renorm o) (ff 497 500))%bool = true /\ List.length (yo_values o) = 3%nat
  | None => False end /\
  fades step 1 loss line (times fading12) /\
  follows_model (e_infer E) (e_freq E) line fading12 expected12 expected12 /\
  model_of Sensor (s_inputs s) (completion E (s_inputs s) (s_completed s)) expected12 expected12 /\
  draws_ok (fun n => [seq 0 n; [0%nat; 0%nat]]) /\ sorts_by_shifted demo_sortv /\ excludes_missing E fading12 /\
  dividing step /\ List.length fading12 = 11%nat /\ existsb isnan (vals fading12) = true.
Proof.
  cbv zeta. split; [vm_compute; reflexivity|]. split; [vm_compute; auto|]. split; [exact fading12_fades|]. split.
  - split; [vm_compute; repeat constructor|]. split.
    + split; intros w H; injection H as <-; [split; [reflexivity|]|split; [reflexivity|split; [|vm_compute; lia]]]; exists step; vm_compute; reflexivity.
    + split.
      * intros (a & b & (_ & H1) & (_ & H2) & H). cbn [steady_env e_freq] in H1, H2. rewrite H1, H2 in H. exact (Qclt_not_eq _ _ H eq_refl).
      * exists step. eexists. split; [left; reflexivity|]. split; [vm_compute; reflexivity|vm_compute; reflexivity].
  - split; [split; reflexivity|]. split; [exact two_draws|]. split; [exact demo_sortv_ok|].
    split; [apply (C75_filter _ (fun _ => Some (ff 1 100)) (fun _ => None)); [reflexivity|vm_compute; repeat constructor]|]. split; [exists 73%Z; right; reflexivity|]. split; vm_compute; reflexivity.
Qed.

(** All hypotheses of C84_analysis together. *)
Example C84_applied :
  let s := steady_state fading12 expected12 poa12 step with_filter in
  let E := steady_env step default_normalized in
  let q := Request Sensor ["yoy_degradation"%string] tt tt in
  exists p o z scale rho, d_performance (side_of Sensor (fst (analyse E q s))) = Present p /\ d_result (side_of Sensor (fst (analyse E q s))) = Some (Outcome (Some o) z) /\
    scale_of (s_inputs s) scale /\ on_fading_line scale 1 loss p /\ yo_renorm o = Fin rho /\ 0 < rho /\ first_year_level true p rho /\
    one_change (qz 100 * (scale * loss * qz (days 365)) / rho) Simple o.
Proof.
  cbv zeta. destruct C84_example as (X1 & _ & X3 & X3' & X4 & X5 & X6 & _ & X8 & _). cbv zeta in *.
  set (E := steady_env step default_normalized) in *. set (s := steady_state fading12 expected12 poa12 step with_filter) in *. set (q := Request Sensor ["yoy_degradation"%string] tt tt) in *.
  apply (C84_analysis E q s (fst (analyse E q s)) line 1 loss fading12 expected12 expected12 poa12 (fun _ => Some (fun t => t - step)%Z) demo_sortv (fun n => [seq 0 n; [0%nat; 0%nat]]) [[0%nat]]
    (fun _ => true) (fun _ => qz 95) (fun _ => qz 68) (fun _ => Simple)).
  - exact demo_sortv_ok.
  - exact two_draws.
  - intros y p. reflexivity.
  - intros en Se. exact (C75_filter E (fun _ => Some (ff 1 100)) (fun _ => None) (fun _ _ => eq_refl) en Se).
  - discriminate.
  - reflexivity.
  - exact X8.
  - exact X3.
  - reflexivity.
  - reflexivity.
  - unfold sorted_index. vm_compute. repeat constructor.
  - intros v I. vm_compute in I. repeat (destruct I as [<-|I]; [split; discriminate|]). destruct I.
  - exact X4.
  - exact X3'.
  - apply (f_equal (fun r => (fst (analyse E q s), r))) in X1. rewrite <- X1. apply surjective_pairing.
  - left. reflexivity.
Qed.

(** Steps once a day of 2 %, rows every twelve hours. *)
Example C84_daily_example : let f := fading ns_day 1 (- qf 1 50 / qz ns_day) in let rows := map (fun k => (k * (ns_day / 2) + 1)%Z) [0; 1; 2; 3; 4]%Z in
  (forall t, In t rows -> 0 < f t) /\ map f rows = [1; 1; qf 49 50; qf 49 50; qf 24 25].
Proof. cbv zeta. split; [intros t I; vm_compute in I; repeat (destruct I as [<-|I]; [reflexivity|]); destruct I|fcompute]. Qed.

(** The recentered rate is not the change relative to the first value: that is 1 % here, and the reported one is larger. *)
Theorem C84_initial_refuted : ~ (forall infer sortv choice starts ep cl m input k a slope o, 0 < k -> sorts_by_shifted sortv -> draws_ok choice -> on_fading_line k a slope input ->
  degradation_year_on_year infer sortv choice starts true ep cl m input = Ok o -> 0 < a -> yo_rate o = Fin (qz 100 * (slope * qz (days 365)) / a)).
Proof.
  intros H. set (p := every step (map (fun k => Fin (line (k * step)%Z)) [0; 1; 2; 3; 4; 5; 6; 7; 8; 9; 10]%Z)).
  destruct (degradation_year_on_year (fun _ => Some (fun t => t - step)%Z) demo_sortv (fun n => [seq 0 n; [0%nat; 0%nat]]) [] true 0 0 NoUncertainty p) as [o|] eqn:R; [|vm_compute in R; discriminate R].
  assert (Q : yo_rate o = Fin (qz 100 * (loss * qz (days 365)) / 1)).
  { apply (H (fun _ => Some (fun t => t - step)%Z) demo_sortv (fun n => [seq 0 n; [0%nat; 0%nat]]) [] 0 0 NoUncertainty p 1 1 loss o); [reflexivity|exact demo_sortv_ok| | |exact R|reflexivity].
    - exact two_draws.
    - intros b v I. right. unfold p, every in I. cbn [map List.length seq combine Z.of_nat] in I. repeat (destruct I as [I|I]; [injection I as <- <-; split; [fcompute|reflexivity]|]). destruct I. }
  assert (K : match degradation_year_on_year (fun _ => Some (fun t => t - step)%Z) demo_sortv (fun n => [seq 0 n; [0%nat; 0%nat]]) [] true 0 0 NoUncertainty p with Ok o => feq (yo_rate o) (fz (-1)) | Raise _ => false end = false) by (vm_compute; reflexivity).
  rewrite R, Q in K. vm_compute in K. discriminate K.
Qed.
Print Assumptions C84_initial_refuted.

Print Assumptions C84_rate.
Print Assumptions C84_data.
Print Assumptions C84_stored.
Print Assumptions C84_analysis.
Print Assumptions C84_daily.
