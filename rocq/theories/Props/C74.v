(** C74: the Kalman filter of the soiling component in another unit *)

From Coq Require Import QArith Qcanon List ZArith Bool Arith Lia Permutation Sorted.
From Verif.Base Require Import QcExtra ISort Quantile Fl TimeSeries Calendar Rolling.
From Verif.Spec Require Import KalmanUnits.
From Verif.Model Require Import Soiling CodsTools CodsKalman.
From Verif.Proofs Require Import FlP KalP8.
Import ListNotations.
Open Scope list_scope.
Open Scope Qc_scope.

(** One pass of filter and smoother: data, noise, starting line and deviations in another unit give the levels and rates in that unit, variances in its square, and the same events and errors. *)
Theorem C74_run : forall k, 0 < k -> forall s rate_std zs_std ce,
  run_filter (setup_in k s) (amount k rate_std) (amount k zs_std) ce =
  match run_filter s rate_std zs_std ce with Ok r => Ok (run_in k r) | Raise e => Raise e end.
Proof. exact (fun k Hk => run_filter_u k Hk). Qed.

(** Everything read off the data for the filter is converted: noise by the square of the factor, line, medians and limit by the factor, and the same soiling events. *)
Theorem C74_setup : forall k, 0 < k -> forall zs ffill pn prune mr renorm perfect clip,
  kalman_setup_of (amounts k zs) ffill (amount k pn) prune (amount k mr) renorm perfect clip = setup_in k (kalman_setup_of zs ffill pn prune mr renorm perfect clip).
Proof. exact (fun k Hk => setup_u k Hk). Qed.

(** The events to begin with do not depend on the unit. *)
Theorem C74_events : forall k, 0 < k -> forall zs p, first_events (amounts k zs) p = first_events zs p.
Proof. exact (fun k Hk => first_u k Hk). Qed.

(** A whole call that is settled by its first round (one round is enough though two are allowed), with all dimensional parameters converted: with perfect cleaning or renormalising the soiling ratio, the events and the days since cleaning stay, and levels and rates are converted; with neither and no clipping the ratio is converted too. *)
Theorem C74_call : forall k, 0 < k -> forall zs pn zstd rstd mr prune renorm perfect clip ffill p fr,
  kalman_filter_for_SR 1 zs pn zstd rstd mr 2 prune renorm perfect p clip ffill = Some (Ok fr) ->
  forall fuel iterations, (0 < fuel)%nat -> (0 < iterations <= 100)%nat ->
  let turned := kalman_filter_for_SR fuel (amounts k zs) (amount k pn) (amount k zstd) (amount k rstd) (amount k mr) iterations prune renorm perfect p clip ffill in
  (perfect = true \/ renorm <> None -> turned = Some (Ok (frame_in k fr))) /\
  (perfect = false -> renorm = None -> clip = false -> turned = Some (Ok (plain_frame_in k fr))).
Proof. exact (fun k Hk => call_u k Hk). Qed.

(** Thirteen days with three values, and events known on all days but the first. *)
Definition thirteen : list fl := map (fun i => match i with 0%nat => fz 1 | 5%nat => fz 0 | 12%nat => fz (-1) | _ => NaN end) (seq 0 13).
Definition most_days : list bool := false :: repeat true 12.
Definition unit_call (k : Qc) (fuel iterations : nat) (noise max_rate : fl) (anchored : bool) : option (result kalman_frame) :=
  kalman_filter_for_SR fuel (amounts k thirteen) (amount k noise) (amount k (fz 1)) (amount k (fz 1)) (amount k max_rate) iterations (fz 100) None anchored (Some most_days) anchored true.
Definition both (test : fl -> fl -> bool) (x y : option (result kalman_frame)) : bool :=
  match x, y with Some (Ok f), Some (Ok g) => test (at_row (k_level f) 5) (at_row (k_level g) 5) | _, _ => false end.
(** The hypothesis holds, and the level is converted. *)
Example C74_example :
  both (fun x y => fgt x (fz 0) && feq y (fmul (fz 2) x)) (unit_call 1 1 2 (fz 1) (fz 100) true) (unit_call (qz 2) 3 7 (fz 1) (fz 100) true) = true.
Proof. vm_compute. reflexivity. Qed.

(** A second pass starts from the covariance entries of the first as if they were standard
    deviations (soiling.py:2195 and 2120-2126), and then the unit matters. *)
Definition any_round_claim : Prop := forall k fuel iterations noise max_rate fr, 0 < k ->
  unit_call 1 fuel iterations noise max_rate false = Some (Ok fr) ->
  exists fr', unit_call k fuel iterations noise max_rate false = Some (Ok fr') /\ k_level fr' = amounts k (k_level fr).
Theorem C74_rerun_refuted : ~ any_round_claim.
Proof.
  intros H.
  assert (B : both (fun x y => negb (feq y (amount (qz 2) x)) && feq x x) (unit_call 1 1 1 (fz 0) (fz 0) false) (unit_call (qz 2) 1 1 (fz 0) (fz 0) false) = true) by (vm_compute; reflexivity).
  unfold both in B. destruct (unit_call 1 1 1 (fz 0) (fz 0) false) as [[fr|e]|] eqn:E; [|discriminate B|discriminate B].
  destruct (H (qz 2) 1%nat 1%nat (fz 0) (fz 0) fr ltac:(reflexivity) E) as [fr' [E' L]]. rewrite E', L in B.
  change (at_row (amounts (qz 2) (k_level fr)) 5) with (at_row (map (fscale (qz 2)) (k_level fr)) 5) in B. rewrite at_u in B by reflexivity.
  change (amount (qz 2) (at_row (k_level fr) 5)) with (fscale (qz 2) (at_row (k_level fr) 5)) in B. rewrite feq_u in B by reflexivity.
  destruct (feq _ _); discriminate B.
Qed.
Print Assumptions C74_rerun_refuted.

Print Assumptions C74_run.
Print Assumptions C74_setup.
Print Assumptions C74_events.
Print Assumptions C74_call.
