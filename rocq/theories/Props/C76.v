(** C76: an array that is never soiled is reported as such *)

From Coq Require Import QArith Qcanon List ZArith Bool Arith Lia Permutation Sorted.
From Verif.Base Require Import QcExtra ISort Quantile Fl TimeSeries Calendar Rolling.
From Verif.Spec Require Import Stats Soiling SoilingTable Clean.
From Verif.Model Require Import Soiling.
From Verif.Proofs Require Import SoilP9 SoilP10 CleanP.
Import ListNotations.
Open Scope list_scope.
Open Scope Qc_scope.
From Coq Require Import String.
Open Scope string_scope.
Open Scope list_scope.
Open Scope Qc_scope.

(** A soiling analysis that succeeds on a performance that never changes, with any missing days, criterion, thresholds, rain, method and draws: every figure is 1, every realization is 1 on every day, every slope 0. *)
Theorem C76_clean : forall margin visit pm insolation ds precip day_scale thr trim method c pthr minimum exc conf rc limit step factor res v,
  (forall pts, 0 <= margin pts) -> (forall l, set_order l (visit l)) -> (1 <= minimum)%Z -> 0 < v -> steady_at v pm -> sunny pm insolation ->
  soiling_srr (theil_fit margin) visit pm insolation ds precip day_scale thr trim method c pthr minimum exc conf rc limit step factor = Ok res ->
  never_soiled res /\ sr_renorm res = Fin (if rc then v else 1) /\ List.length (sr_profiles res) = List.length ds /\
  forall i, In i (sr_intervals res) -> i_valid i = true -> i_start_loss i = Fin (if rc then 1 else v) /\ i_end_loss i = Fin (if rc then 1 else v).
Proof. exact srr_clean. Qed.

(** Without missing days and with a criterion that asks for a shift, the analysis succeeds exactly if it does not trim, the record is longer than the minimum and the step limit is positive; it then finds one interval from the first day to the last. *)
Theorem C76_whole : forall v, 0 < v -> forall margin visit pm insolation ds precip day_scale thr trim method c pthr minimum exc conf rc limit s factor,
  (forall pts, 0 <= margin pts) -> (forall l, set_order l (visit l)) -> (1 <= minimum)%Z -> all_at v pm -> sunny pm insolation -> srr_init pm insolation precip = Ok tt ->
  (0 < day_scale)%nat -> quiet thr -> c = "shift"%string \/ c = "precip_and_shift"%string ->
  let run := soiling_srr (theil_fit margin) visit pm insolation ds precip day_scale thr trim method c pthr minimum exc conf rc limit (Fin s) factor in
  (trim = false -> (minimum < Z.of_nat (List.length pm))%Z -> 0 < s -> ds <> [] -> known_method method -> 0 <= conf -> conf <= qz 100 -> 0 <= exc -> exc <= qz 100 ->
     exists res, run = Ok res /\ sr_intervals res = [one_interval (if rc then 1 else v) pm] /\ sr_perfect res = map (fun x => (fst x, Fin 1)) pm /\ sr_profiles res = map (fun _ => map (fun _ => Fin 1) pm) ds) /\
  (trim = true \/ (Z.of_nat (List.length pm) <= minimum)%Z \/ s <= 0 -> run = Raise NoValidIntervalError).
Proof. exact srr_whole. Qed.

Definition days (l : list fl) : series := combine (map (fun k => (Z.of_nat k * ns_day)%Z) (seq 0 (List.length l))) l.
Definition same (a b : fl) : bool := feq a b || (isnan a && isnan b).
Definition first_draws : draws := Draws (fun _ => qf 1 3) (fun _ => qf (-7) 5) (fun _ => qf 1 2).
(** Eight days at 0.9, two of them missing; rain on the fifth. *)
Definition gappy : series := days [ff 9 10; ff 9 10; NaN; ff 9 10; ff 9 10; ff 9 10; NaN; ff 9 10].
Definition rainy : series := days [fz 0; fz 0; fz 0; fz 0; fz 3; fz 0; fz 0; fz 0].
Lemma gappy_steady : steady_at (qf 9 10) gappy.
Proof. intros t x H. vm_compute in H. repeat (destruct H as [H|H]; [injection H as _ <-; auto|]). destruct H. Qed.
Definition light7 : series := days [fz 5; fz 4; fz 5; ff 7 2; fz 2; fz 5; fz 0; fz 3].
Lemma gappy_sunny : sunny gappy light7.
Proof.
  split.
  - intros t x H. right. vm_compute in H. repeat (destruct H as [H|H]; [injection H as _ <-; eexists; split; [reflexivity|discriminate]|]). destruct H.
  - intros t q H. vm_compute in H. repeat (destruct H as [H|H]; [first [discriminate H|injection H as <- _; eexists; split; [vm_compute; auto 12|reflexivity]]|]). destruct H.
Qed.
Definition analysed (pm : series) (trim : bool) (method criterion : string) (minimum : Z) : result srr_result :=
  soiling_srr (theil_fit (fun _ => 0)) zset pm light7 [first_draws; first_draws] (Some rainy) 1 None trim method criterion (fz 1) minimum (qz 95) (qz 68) true (fz 500) (ff 1 20) (ff 3 2).
Example C76_example :
  match analysed gappy false "half_norm_clean" "precip_or_shift" 2 with
  | Ok res => (same (sr_median res) (fz 1) && same (sr_low res) (fz 1) && same (sr_renorm res) (ff 9 10))%bool = true /\
              List.length (sr_intervals res) = 2%nat /\ map (fun p => List.length p) (sr_profiles res) = [8%nat; 8%nat]
  | Raise _ => False end.
Proof. vm_compute. auto. Qed.
(** The whole record in one interval; the same record is refused when the first and last intervals are left out. *)
Definition whole_days : series := days (map (fun _ => ff 9 10) [0; 0; 0; 0; 0; 0; 0; 0]).
Example C76_one :
  match analysed whole_days false "random_clean" "precip_and_shift" 7 with
  | Ok res => map (fun i => (i_start i, i_end i, i_length i, i_valid i)) (sr_intervals res) = [(0, 7 * ns_day, 7, true)%Z]
  | Raise _ => False end /\
  analysed whole_days true "random_clean" "precip_and_shift" 7 = Raise NoValidIntervalError /\
  analysed whole_days false "random_clean" "precip_and_shift" 8 = Raise NoValidIntervalError /\
  all_at (qf 9 10) whole_days.
Proof.
  split; [vm_compute; reflexivity|]. split; [vm_compute; reflexivity|]. split; [vm_compute; reflexivity|].
  intros t x H. vm_compute in H. repeat (destruct H as [H|H]; [injection H as _ <-; reflexivity|]). destruct H.
Qed.

Print Assumptions C76_clean.
Print Assumptions C76_whole.
