(** C61: the Kalman filter and smoother are weighted least squares *)

From Coq Require Import QArith Qcanon List ZArith Bool Arith Lia Permutation Sorted.
From Verif.Base Require Import QcExtra ISort Quantile Fl TimeSeries Calendar Rolling.
From Verif.Spec Require Import Stats Theil Filters Soiling Cods TrackingSetup Tracking TrackingFit.
From Verif.Model Require Import Soiling CodsTools CodsKalman.
From Verif.Proofs Require Import FlP SoilP KalP1 KalP2 KalP3 KalP4 KalP5 KalP6 KalP7.
Import ListNotations.
Open Scope list_scope.
Open Scope Qc_scope.

(** One run never fails and is the run specified: estimates of least squares on the way, least-squares paths between the borders. *)
Theorem C61_run : forall k zs med soiling l s v R a b ce,
  ks_zs k = map fl_of zs -> ks_noise k = noise_of v R -> ks_rm7 k = map Fin med -> ks_soiling k = soiling -> ks_intercept k = Fin l -> ks_slope k = Fin s ->
  0 < v -> 0 < R -> a <> 0 -> b <> 0 -> zs <> [] -> List.length med = List.length zs -> Forall (fun j => (j < List.length zs)%nat) (ce ++ soiling) ->
  exists r levels rates final, run_filter k (Fin a) (Fin b) ce = Ok r /\ level r = map Fin levels /\ rate r = map Fin rates /\
  tracked v R med soiling ((l, s), (b * b, 0, a * a)) zs ce (kr_events r) levels rates final /\
  kr_zs_std r = Fin (fst (fst final)) /\ kr_rate_std r = Fin (snd final) /\ 0 < fst (fst final) /\ 0 < snd final.
Proof. exact run_tracked. Qed.

(** What a fit starts from: variance of the distances from the medians of thirteen rows, medians of seven rows, Theil-Sen line through the first fourteen. *)
Theorem C61_setup : forall zs ffill pn prune max_rate renorm perfect clip j7 q7 jn R, noinf zs -> let k := kalman_setup_of zs ffill (Fin pn) prune max_rate renorm perfect clip in
  f_R (ks_noise k) = Fin R -> median_at ffill 7 zs j7 q7 -> (Nat.min 13 (List.length zs - 1) <= jn)%nat -> (exists q, nth_error zs jn = Some (Fin q)) ->
  exists med slope level ds,
  ks_zs k = zs /\ ks_noise k = noise_of (pn * pn) R /\ from_medians ffill zs ds /\ sample_variance ds R /\
  ks_rm7 k = map Fin med /\ List.length med = List.length zs /\ (forall i, (i < List.length zs)%nat -> near_median ffill 7 zs i (nth i med 0)) /\
  ks_slope k = Fin slope /\ ks_intercept k = Fin level /\ starting_line zs level slope /\
  ks_soiling k = true_rows (soiling_detection ffill (fz 5) zs).
Proof. exact setup_model. Qed.

(** The whole fit: its runs, the events handed from run to run, and that it succeeds for up to 100 iterations. *)
Theorem C61_fit : forall fuel zs pn b a limit iterations prune renorm perfect p clip ffill ds R j7 q7 jn,
  pn <> 0 -> a <> 0 -> b <> 0 -> from_medians ffill (map fl_of zs) ds -> sample_variance ds R -> 0 < R ->
  median_at ffill 7 (map fl_of zs) j7 q7 -> (Nat.min 13 (List.length zs - 1) <= jn)%nat -> (exists q, nth_error zs jn = Some (Some q)) ->
  let run := kalman_filter_for_SR fuel (map fl_of zs) (Fin pn) (Fin b) (Fin a) (Fin limit) iterations (Fin prune) renorm perfect p clip ffill in
  (forall fr, run = Some (Ok fr) -> exists med level rate soiling first runs final,
     List.length med = List.length zs /\ (forall i, (i < List.length zs)%nat -> near_median ffill 7 (map fl_of zs) i (nth i med 0)) /\
     starting_line (map fl_of zs) level rate /\ (forall i, In i soiling <-> downward_shift ffill (qz 5) (map fl_of zs) i) /\ first_found (map fl_of zs) p first /\
     fitted (pn * pn) R med soiling (level, rate) zs prune limit b a first (runs ++ [final]) /\ (List.length runs <= iterations)%nat /\
     ((List.length runs < iterations)%nat -> kept_events prune limit (o_levels final) (o_rates final) (o_events final) (o_events final)) /\
     k_level fr = map Fin (o_levels final) /\ k_rate fr = map Fin (o_rates final) /\ forall i, (i < List.length zs)%nat -> (nth_error (k_events fr) i = Some true <-> In i (o_events final))) /\
  (match p with Some b => (4 < count_true b)%nat -> List.length b = List.length zs | None => True end -> (iterations <= 100)%nat -> (iterations <= fuel)%nat -> exists fr, run = Some (Ok fr)).
Proof. exact fit_chain. Qed.

(** Three rows, the second without value; the last is not smoothed. *)
Definition three : list (option Qc) := [Some (qz 10); None; Some (qz 7)].
Definition small_setup : kalman_setup := Setup (map fl_of three) (noise_of (qz 1) (qz 1)) (fz (-1)) (fz 10) (map Fin [qz 10; qz 9; qz 8]) [] (fz 1) (fz 1) false None false.
Example C61_hypotheses : ks_zs small_setup = map fl_of three /\ 0 < qz 1 /\ qz 1 <> 0 /\ three <> [] /\ List.length [qz 10; qz 9; qz 8] = List.length three.
Proof. repeat split; discriminate. Qed.
Example C61_example : exists r, run_filter small_setup (fz 1) (fz 1) [] = Ok r /\ kr_events r = [] /\
  forallb (fun p => feq (fst p) (snd p)) (combine (level r) [ff 126 13; ff 119 13; ff 2093 293]) = true /\ 
  forallb (fun p => feq (fst p) (snd p)) (combine (rate r) [ff (-7) 13; ff (-7) 13; ff (-371) 293]) = true.
Proof.
  destruct (run_filter small_setup (fz 1) (fz 1) []) as [r|e] eqn:E; vm_compute in E; [|discriminate E]. exists r. split; [reflexivity|]. injection E as <-. repeat split; vm_compute; reflexivity.
Qed.

(** Sixteen rows with a gap: the fit succeeds. *)
Definition sixteen : list (option Qc) := map (fun z => Some (qz z)) [10; 9; 8; 9; 7; 6]%Z ++ [None] ++ map (fun z => Some (qz z)) [6; 5; 10; 9; 8; 9; 7; 6; 6]%Z.
Example C61_starts : exists ds R q, from_medians true (map fl_of sixteen) ds /\ sample_variance ds R /\ 0 < R /\ median_at true 7 (map fl_of sixteen) 3 q /\
  (Nat.min 13 (List.length sixteen - 1) <= 13)%nat /\ exists z, nth_error sixteen 13 = Some (Some z).
Proof.
  destruct (median_of_rows true 7 (map fl_of sixteen) 3 (fl_of_noinf sixteen) ltac:(lia) ltac:(vm_compute; lia)) as [(q & _ & M)|[C _]]; [|vm_compute in C; discriminate C].
  set (k := kalman_setup_of (map fl_of sixteen) true (fz 1) (fz 1) (fz 1) None false false). assert (ER : f_R (ks_noise k) = Fin (qf 96 35)) by (vm_compute; f_equal; apply Qc_is_canon; reflexivity).
  destruct (setup_model (map fl_of sixteen) true 1 (fz 1) (fz 1) None false false 3 q 13 _ (fl_of_noinf sixteen) ER M ltac:(vm_compute; lia) ltac:(eexists; reflexivity)) as (med & s & l & ds & _ & _ & FM & SV & _).
  exists ds, (qf 96 35), q. split; [exact FM|]. split; [exact SV|]. split; [reflexivity|]. split; [exact M|]. split; [vm_compute; lia|]. eexists. reflexivity.
Qed.
Example C61_succeeds : exists fr, kalman_filter_for_SR 10 (map fl_of sixteen) (fz 1) (fz 1) (fz 1) (fz 5) 10 (fz 10) None true None true true = Some (Ok fr).
Proof.
  destruct C61_starts as (ds & R & q & H1 & H2 & H3 & H4 & H5 & H6).
  apply (C61_fit 10 sixteen 1 1 1 (qz 5) 10 (qz 10) None true None true true ds R 3 q 13); try assumption; try discriminate; try exact I; lia.
Qed.

Print Assumptions C61_run.
Print Assumptions C61_setup.
Print Assumptions C61_fit.
