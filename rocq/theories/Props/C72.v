(** C72: a soiling analysis does not depend on units and dates *)

From Coq Require Import QArith Qcanon List ZArith Bool Arith Lia Permutation Sorted.
From Verif.Base Require Import QcExtra ISort Quantile Fl TimeSeries Calendar Rolling.
From Verif.Spec Require Import SoilingUnits.
From Verif.Model Require Import Soiling SoilingSummary.
From Verif.Proofs Require Import SoilP15.
Import ListNotations.
Open Scope list_scope.
Open Scope Qc_scope.
From Coq Require Import String.
Open Scope string_scope.
Open Scope list_scope.
Open Scope Qc_scope.

(** Performance (if recentered), insolation and precipitation in other units, and all of them dated later or earlier. *)
Theorem C72_units : forall c ki, 0 < ki -> forall fit visit pm ins precip ds day_scale thr trim method crit pthr m exc conf rec e st factor kp kr,
  0 < kp -> 0 < kr -> rec = true \/ kp = 1 ->
  soiling_srr fit visit (rewritten kp c pm) (rewritten ki c ins) ds (option_map (rewritten kr c) precip) day_scale thr trim method crit (in_unit_of kr pthr)
    m exc conf rec e st factor =
  outcome (restated kp c) (soiling_srr fit visit pm ins ds precip day_scale thr trim method crit pthr m exc conf rec e st factor).
Proof. exact (fun c ki Hi => @run_units c ki Hi). Qed.

(** The annual ratios do not depend on the unit of insolation. *)
Theorem C72_annual : forall k profiles ins conf, 0 < k -> annual_soiling_ratios profiles (rewritten k 0 ins) conf = annual_soiling_ratios profiles ins conf.
Proof. exact annual_units. Qed.

(** Days without value at the ends do not matter. *)
Theorem C72_ends : forall fit visit pre pm post ins precip ds day_scale thr trim method crit pthr m exc conf rec e st factor,
  (forall r, In r (pre ++ post) -> snd r = NaN) ->
  srr_run fit visit (pre ++ pm ++ post) ins precip ds day_scale thr trim method crit pthr m exc conf rec e st factor =
  srr_run fit visit pm ins precip ds day_scale thr trim method crit pthr m exc conf rec e st factor.
Proof. exact run_padded. Qed.

(** Insolation and precipitation are read on the days of the performance only. *)
Theorem C72_other_days : forall fit visit pm ins ins' precip precip' ds day_scale thr trim method crit pthr m exc conf rec e st factor,
  (forall t, In t (times pm) -> lookup ins t = lookup ins' t) ->
  (forall p, precip = Some p -> exists p', precip' = Some p' /\ forall t, In t (times pm) -> lookup p t = lookup p' t) -> (precip = None -> precip' = None) ->
  srr_run fit visit pm ins precip ds day_scale thr trim method crit pthr m exc conf rec e st factor =
  srr_run fit visit pm ins' precip' ds day_scale thr trim method crit pthr m exc conf rec e st factor.
Proof. exact run_local. Qed.

Definition day (k : Z) : Z := (k * ns_day)%Z.
Definition demo_pm : series := combine (map (fun k => day (Z.of_nat k)) (seq 0 5)) (map (fun z => ff z 100) [100; 98; 96; 94; 92]%Z).
Definition demo_insolation : series := combine (map (fun k => day (Z.of_nat k)) (seq 0 5)) (map fz [5; 4; 3; 4; 5]%Z).
Definition demo_rain : series := combine (map (fun k => day (Z.of_nat k)) (seq 0 5)) (map fz [0; 0; 0; 0; 0]%Z).
Definition demo_draws : draws := Draws (fun _ => qf 1 2) (fun _ => qf 1 2) (fun _ => qf 1 2).
Definition demo_run (recenter : bool) (pm insolation rain : series) (limit : fl) : result srr_result :=
  soiling_srr (theil_fit (fun _ => 0)) zset pm insolation [demo_draws] (Some rain) 1 (Some (ff 1 10)) false "perfect_clean" "precip_or_shift" limit 3
    (qz 95) (qz 68) recenter (fz 500) (ff 1 20) (ff 3 2).
Definition near_to (x : fl) (q : Qc) : bool := match x with Fin y => qeq y q | _ => false end.

(** Five days: the median 0.96 becomes 9.6, the ratio stays. *)
Example C72_example : exists r r',
  demo_run true demo_pm demo_insolation demo_rain (fz 1) = Ok r /\
  demo_run true (rewritten (qz 10) (day 7) demo_pm) (rewritten (qf 36 10) (day 7) demo_insolation) (rewritten (qf 1 25) (day 7) demo_rain) (in_unit_of (qf 1 25) (fz 1)) = Ok r' /\
  near_to (sr_renorm r) (qf 96 100) = true /\ near_to (sr_renorm r') (qf 96 10) = true /\ near_to (sr_median r) (qf 23 24) = true /\ near_to (sr_median r') (qf 23 24) = true /\
  map i_start (sr_intervals r) = [0%Z] /\ map i_start (sr_intervals r') = [day 7] /\ map i_valid (sr_intervals r) = [true].
Proof. do 2 eexists. split; [vm_compute; reflexivity |]. split; [vm_compute; reflexivity |]. repeat split; vm_compute; reflexivity. Qed.

(** Without recentering the unit of the performance matters: here the median ratio does not stay. *)
Theorem C72_plain_refuted : ~ forall k pm insolation rain limit, 0 < k ->
  demo_run false (rewritten k 0 pm) insolation rain limit = outcome (restated k 0) (demo_run false pm insolation rain limit).
Proof.
  intros H. pose proof (H (qz 10) demo_pm demo_insolation demo_rain (fz 1) ltac:(vm_compute; reflexivity)) as E.
  apply (f_equal (fun r => match r with Ok x => near_to (sr_median x) (qf 24 25) | Raise _ => false end)) in E. vm_compute in E. discriminate.
Qed.
(** One year, two realisations. *)
Example C72_annual_example :
  match annual_soiling_ratios [map (fun r => (fst r, ff 9 10)) demo_pm; demo_pm] (rewritten (qf 36 10) 0 demo_insolation) (qz 50) with
  | Ok [y] => near_to (y_median y) (qf 93 100) | _ => false end = true.
Proof. vm_compute. reflexivity. Qed.
Example C72_ends_example : demo_run true ((day (-1), NaN) :: demo_pm) demo_insolation demo_rain (fz 1) = demo_run true demo_pm demo_insolation demo_rain (fz 1) /\
  demo_run true demo_pm ((day (-1), fz 9) :: demo_insolation) demo_rain (fz 1) = demo_run true demo_pm demo_insolation demo_rain (fz 1).
Proof. split; vm_compute; reflexivity. Qed.
Print Assumptions C72_plain_refuted.

Print Assumptions C72_units.
Print Assumptions C72_annual.
Print Assumptions C72_ends.
Print Assumptions C72_other_days.
