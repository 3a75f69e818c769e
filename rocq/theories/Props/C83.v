(** C83: SRR recovers even soiling *)

From Coq Require Import QArith Qcanon List ZArith Bool Arith Lia Permutation Sorted.
From Verif.Base Require Import QcExtra ISort Quantile Fl TimeSeries Calendar Rolling.
From Verif.Spec Require Import Stats Filters Theil Soiling SoilingTable Clean Sawtooth.
From Verif.Model Require Import Soiling.
From Verif.Proofs Require Import StatsP SoilP9 SoilP14 SawP3.
Import ListNotations.
Open Scope list_scope.
Open Scope Qc_scope.
From Coq Require Import String.
Open Scope string_scope.
Open Scope list_scope.
Open Scope Qc_scope.

(** A performance that falls evenly from one flagged cleaning to the next and is then back at the clean level, which is also the renormalization: the intervals, slopes and levels are found exactly, every realization is the performance relative to the clean one, and every reported figure is its insolation-weighted mean. *)
Theorem C83_recovered : forall margin visit pm insolation ds precip day_scale thr method c pthr minimum exc conf rc limit step factor a rate share,
  usable margin visit precip ds day_scale c minimum exc conf limit -> srr_init pm insolation precip = Ok tt -> sunny pm insolation ->
  let wet := flagged c day_scale thr factor precip pthr (scaled_by a pm) in
  0 < a -> is_renorm rc pm a -> sawtooth a rate wet pm share -> (forall k, 0 <= rate k /\ rate k < step) -> long_dry minimum wet (List.length pm) ->
  method = "perfect_clean"%string \/ method = "half_norm_clean"%string ->
  exists res, soiling_srr (theil_fit margin) visit pm insolation ds precip day_scale (option_map Fin thr) false method c (Fin pthr) minimum exc conf rc (Fin limit) (Fin step) (Fin factor) = Ok res /\
    reports pm insolation ds a 1 rate wet share res.
Proof. exact srr_sawtooth. Qed.

(** The same for cleanings by rain. *)
Theorem C83_rain : forall margin visit pm insolation ds precip day_scale thr method pthr minimum exc conf rc limit step factor a rate share,
  usable margin visit precip ds day_scale "precip" minimum exc conf limit -> srr_init pm insolation precip = Ok tt -> sunny pm insolation ->
  let wet := rain precip pthr pm in
  0 < a -> is_renorm rc pm a -> sawtooth a rate wet pm share -> (forall k, 0 <= rate k /\ rate k < step) -> long_dry minimum wet (List.length pm) ->
  method = "perfect_clean"%string \/ method = "half_norm_clean"%string ->
  exists res, soiling_srr (theil_fit margin) visit pm insolation ds precip day_scale (option_map Fin thr) false method "precip" (Fin pthr) minimum exc conf rc (Fin limit) (Fin step) (Fin factor) = Ok res /\
    reports pm insolation ds a 1 rate wet share res.
Proof. exact srr_rain. Qed.

(** With another renormalization and perfect cleaning, all losses are multiplied by the ratio of the clean performance to it. *)
Theorem C83_recentered : forall margin visit pm insolation ds precip day_scale thr c pthr minimum exc conf rc limit step factor a r rate share,
  usable margin visit precip ds day_scale c minimum exc conf limit -> srr_init pm insolation precip = Ok tt -> sunny pm insolation ->
  let wet := flagged c day_scale thr factor precip pthr (scaled_by r pm) in
  0 < a -> 0 < r -> is_renorm rc pm r -> sawtooth a rate wet pm share -> (forall k, 0 <= rate k /\ a / r * rate k < step) -> long_dry minimum wet (List.length pm) ->
  exists res, soiling_srr (theil_fit margin) visit pm insolation ds precip day_scale (option_map Fin thr) false "perfect_clean" c (Fin pthr) minimum exc conf rc (Fin limit) (Fin step) (Fin factor) = Ok res /\
    reports pm insolation ds r (a / r) (fun k => a / r * rate k) wet (map (fun p => 1 - a / r * (1 - p)) share) res.
Proof. exact srr_recentered. Qed.

Definition days (l : list fl) : series := combine (map (fun k => (Z.of_nat k * ns_day)%Z) (seq 0 (List.length l))) l.
Definition some_draws : draws := Draws (fun _ => qf 1 3) (fun _ => qf (-7) 5) (fun _ => qf 1 2).
Definition other_draws : draws := Draws (fun k => qf 1 2) (fun _ => qf 1 4) (fun _ => qf 1 5).
Definition light : series := days [fz 5; fz 4; fz 5; ff 7 2; fz 2; fz 5; fz 1].

(** Four clean days, rain on the fifth, then a twentieth is lost on every day; the clean performance is 2. *)
Definition demo_pm : series := days [fz 2; fz 2; fz 2; fz 2; fz 2; ff 19 10; ff 9 5].
Definition demo_rain : series := days [fz 0; fz 1; NaN; fz 0; fz 3; fz 0; fz 0].
Definition demo_share : list Qc := [1; 1; 1; 1; 1; qf 19 20; qf 9 10].
Definition demo_rate (c : nat) : Qc := match c with 4%nat => qf 1 20 | _ => 0 end.

Lemma demo_wet : forall i, rain (Some demo_rain) 1 demo_pm i <-> i = 4%nat.
Proof.
  intros i. split.
  - intros (t & v & E & H & L). assert (t = 4 * ns_day)%Z as ->.
    { vm_compute in H. repeat (destruct H as [H|H]; [first [discriminate H|injection H as <- <-; first [reflexivity|discriminate L]]|]). destruct H. }
    do 7 (destruct i as [|i]; [first [reflexivity|discriminate E]|]). destruct i; discriminate E.
  - intros ->. exists (4 * ns_day)%Z, (qz 3). split; [reflexivity|]. split; [vm_compute; auto 12|reflexivity].
Qed.
Lemma demo_saw : sawtooth (qz 2) demo_rate (rain (Some demo_rain) 1 demo_pm) demo_pm demo_share.
Proof.
  split; [repeat (constructor; [split; [fcompute|reflexivity]|]); constructor|]. intros i p E.
  assert (K : forall j, (j <= 3)%nat -> last_clean (rain (Some demo_rain) 1 demo_pm) j 0) by (intros j L; split; [lia|]; split; [left; reflexivity|]; intros m M; rewrite demo_wet; lia).
  assert (K' : forall j, (4 <= j)%nat -> last_clean (rain (Some demo_rain) 1 demo_pm) j 4) by (intros j L; split; [exact L|]; split; [right; apply demo_wet; reflexivity|]; intros m M; rewrite demo_wet; lia).
  do 4 (destruct i as [|i]; [exists 0%nat; split; [apply K; lia|]; injection E as <-; fcompute|]).
  do 3 (destruct i as [|i]; [exists 4%nat; split; [apply K'; lia|]; injection E as <-; fcompute|]). destruct i; discriminate E.
Qed.
Lemma demo_dry : long_dry 2 (rain (Some demo_rain) 1 demo_pm) 7.
Proof. intros c L [->|W]; [|apply demo_wet in W; subst c]; (split; [lia|]); intros j J W; apply demo_wet in W; subst j; lia. Qed.
Lemma demo_sunny : sunny demo_pm light.
Proof.
  split.
  - intros t x H. right. vm_compute in H. repeat (destruct H as [H|H]; [injection H as _ <-; eexists; split; [reflexivity|discriminate]|]). destruct H.
  - intros t q H. vm_compute in H. repeat (destruct H as [H|H]; [injection H as <- _; eexists; split; [vm_compute; auto 12|reflexivity]|]). destruct H.
Qed.
Lemma demo_usable : usable (fun _ => 0) zset (Some demo_rain) [some_draws; other_draws] 1 "precip" 2 (qz 95) (qz 68) (qz 500).
Proof.
  split; try (split; discriminate); try discriminate; try lia; try reflexivity.
  - apply zset_order.
  - intros x H. vm_compute in H. repeat (destruct H as [H|H]; [subst x; split; discriminate|]). destruct H.
  - right. left. reflexivity.
Qed.
(** The hypotheses of C83_rain are met, recentering included: most of the days of the first year are clean. *)
Example C83_example : exists res,
  soiling_srr (theil_fit (fun _ => 0)) zset demo_pm light [some_draws; other_draws] (Some demo_rain) 1 None false "half_norm_clean" "precip" (fz 1) 2 (qz 95) (qz 68) true (fz 500) (ff 1 10) (ff 3 2) = Ok res /\
  reports demo_pm light [some_draws; other_draws] (qz 2) 1 demo_rate (rain (Some demo_rain) 1 demo_pm) demo_share res.
Proof.
  apply (C83_rain (fun _ => 0) zset demo_pm light [some_draws; other_draws] (Some demo_rain) 1 None "half_norm_clean" 1 2 (qz 95) (qz 68) true (qz 500) (qf 1 10) (qf 3 2) (qz 2) demo_rate demo_share demo_usable).
  - vm_compute. reflexivity.
  - exact demo_sunny.
  - reflexivity.
  - cbn [is_renorm]. replace (qz 2) with (qmedian (first_year demo_pm)) by (vm_compute; apply Qc_is_canon; reflexivity). apply qmedian_spec. vm_compute. discriminate.
  - exact demo_saw.
  - intros k. do 4 (destruct k as [|k]; [split; [discriminate|reflexivity]|]). destruct k; split; try discriminate; reflexivity.
  - exact demo_dry.
  - right. reflexivity.
Qed.

(** Recentering divides by the median of the first year, which soiling lowers, and so overstates the losses:
    a tenth a day is reported as a ninth. *)
Definition soiled_pm : series := days [fz 1; ff 9 10; ff 4 5; fz 1; ff 9 10; ff 4 5].
Definition soiled_rain : series := days [fz 0; fz 0; fz 0; fz 3; fz 0; fz 0].
Definition soiled_share : list Qc := [1; qf 9 10; qf 4 5; 1; qf 9 10; qf 4 5].
Definition light6 : series := days [fz 5; fz 4; fz 5; ff 7 2; fz 2; fz 5].
Lemma soiled_wet : forall i, rain (Some soiled_rain) 1 soiled_pm i <-> i = 3%nat.
Proof.
  intros i. split.
  - intros (t & v & E & H & L). assert (t = 3 * ns_day)%Z as ->.
    { vm_compute in H. repeat (destruct H as [H|H]; [first [discriminate H|injection H as <- <-; first [reflexivity|discriminate L]]|]). destruct H. }
    do 6 (destruct i as [|i]; [first [reflexivity|discriminate E]|]). destruct i; discriminate E.
  - intros ->. exists (3 * ns_day)%Z, (qz 3). split; [reflexivity|]. split; [vm_compute; auto 12|reflexivity].
Qed.
Lemma soiled_saw : sawtooth 1 (fun _ => qf 1 10) (rain (Some soiled_rain) 1 soiled_pm) soiled_pm soiled_share.
Proof.
  split; [repeat (constructor; [split; [fcompute|reflexivity]|]); constructor|]. intros i p E.
  assert (K : forall j, (j <= 2)%nat -> last_clean (rain (Some soiled_rain) 1 soiled_pm) j 0) by (intros j L; split; [lia|]; split; [left; reflexivity|]; intros m M; rewrite soiled_wet; lia).
  assert (K' : forall j, (3 <= j)%nat -> last_clean (rain (Some soiled_rain) 1 soiled_pm) j 3) by (intros j L; split; [exact L|]; split; [right; apply soiled_wet; reflexivity|]; intros m M; rewrite soiled_wet; lia).
  do 3 (destruct i as [|i]; [exists 0%nat; split; [apply K; lia|]; injection E as <-; fcompute|]).
  do 3 (destruct i as [|i]; [exists 3%nat; split; [apply K'; lia|]; injection E as <-; fcompute|]). destruct i; discriminate E.
Qed.
Definition soiled_run (rc : bool) (method : string) : result srr_result :=
  soiling_srr (theil_fit (fun _ => 0)) zset soiled_pm light6 [some_draws; other_draws] (Some soiled_rain) 1 None false method "precip" (fz 1) 2 (qz 95) (qz 68) rc (fz 500) (ff 1 5) (ff 3 2).
Definition profiles (r : result srr_result) : list (list fl) := match r with Ok res => sr_profiles res | Raise _ => [] end.
Example C83_recentered_example :
  profiles (soiled_run true "perfect_clean") = (let p := [fz 1; ff 8 9; ff 7 9; fz 1; ff 8 9; ff 7 9] in [p; p]) /\
  profiles (soiled_run false "perfect_clean") = (let p := map Fin soiled_share in [p; p]).
Proof. split; fcompute. Qed.
Theorem C83_default_refuted : ~ (forall pm insolation ds precip pthr minimum limit step rate share res,
  sawtooth 1 rate (rain precip pthr pm) pm share -> (forall k, 0 <= rate k /\ rate k < step) -> long_dry minimum (rain precip pthr pm) (List.length pm) ->
  soiling_srr (theil_fit (fun _ => 0)) zset pm insolation ds precip 1 None false "perfect_clean" "precip" (Fin pthr) minimum (qz 95) (qz 68) true (Fin limit) (Fin step) (ff 3 2) = Ok res ->
  sr_profiles res = map (fun _ => map Fin share) ds).
Proof.
  intros H. destruct (soiled_run true "perfect_clean") as [res|] eqn:E; [|vm_compute in E; discriminate E].
  specialize (H soiled_pm light6 [some_draws; other_draws] (Some soiled_rain) 1 2%Z (qz 500) (qf 1 5) (fun _ => qf 1 10) soiled_share res soiled_saw).
  assert (P : profiles (soiled_run true "perfect_clean") = map (fun _ => map Fin soiled_share) [some_draws; other_draws]).
  { rewrite E. apply H; [intros k; split; [discriminate|reflexivity]| |exact E].
    intros c L [->|W]; [|apply soiled_wet in W; subst c]; (split; [vm_compute; reflexivity|]); intros j J W; apply soiled_wet in W; subst j; [vm_compute; reflexivity|lia]. }
  apply (f_equal (map (map (fun x => feq x (ff 8 9))))) in P. vm_compute in P. discriminate P.
Qed.
Print Assumptions C83_default_refuted.

Print Assumptions C83_recovered.
Print Assumptions C83_rain.
Print Assumptions C83_recentered.
