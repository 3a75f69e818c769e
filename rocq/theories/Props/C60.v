(** C60: the rounds of the Kalman filter end *)

From Coq Require Import QArith Qcanon List ZArith Bool Arith Lia Permutation Sorted.
From Verif.Base Require Import QcExtra ISort Quantile Fl TimeSeries Calendar Rolling.
From Verif.Spec Require Import Stats Soiling Cods Seasonal CodsRun Kalman.
From Verif.Model Require Import Soiling CodsTools CodsKalman Cods.
From Verif.Proofs Require Import FlP CodsP5 CodsP6 CodsP7 CodsP8 CodsP10.
Import ListNotations.
Open Scope list_scope.
Open Scope Qc_scope.
From Coq Require Import String.

(** Up to a hundred iterations, as many rounds are enough: the filter ends, and further rounds change nothing. *)
Theorem C60_ends : forall fuel zs pn zstd rstd mr iterations prune renorm perfect p clip ffill, (iterations <= 100)%nat -> (iterations <= fuel)%nat ->
  exists x, kalman_filter_for_SR fuel zs pn zstd rstd mr iterations prune renorm perfect p clip ffill = Some x /\
  forall fuel', (fuel <= fuel')%nat -> kalman_filter_for_SR fuel' zs pn zstd rstd mr iterations prune renorm perfect p clip ffill = Some x.
Proof. exact kalman_stops. Qed.

(** Beyond a hundred it never ends once a round leaves the events alone. *)
Theorem C60_forever : forall fuel k iterations counter r ratio rates, (100 < iterations)%nat -> (counter < iterations)%nat ->
  keep_events k r = Ok (kr_events r) -> prune_loop fuel k iterations counter r ratio rates = None.
Proof. exact prune_forever. Qed.

Example C60_example : exists k, kalman_filter_for_SR 1 (repeat (fz 1) 11) (fz 0) (fz 1) (fz 1) (fz 1) 100 (fz 1) None true None true true = Some (Ok k) /\ k_ratio k = repeat (fz 1) 11.
Proof.
  destruct (kalman_filter_for_SR 1 (repeat (fz 1) 11) (fz 0) (fz 1) (fz 1) (fz 1) 100 (fz 1) None true None true true) as [[k|e]|] eqn:E; vm_compute in E; try discriminate E.
  exists k. split; [reflexivity|]. injection E as <-. fcompute.
Qed.
(** A constant series without events and more than a hundred iterations. *)
Theorem C60_constant_forever : forall fuel iterations, (100 < iterations)%nat ->
  kalman_filter_for_SR fuel (repeat (fz 1) 11) (fz 0) (fz 1) (fz 1) (fz 1) iterations (fz 1) None true None true true = None.
Proof.
  intros fuel iterations H. unfold kalman_filter_for_SR. assert (E : first_events (repeat (fz 1) 11) None = Ok []) by (vm_compute; reflexivity). rewrite E. cbv zeta.
  set (k := kalman_setup_of _ _ _ _ _ _ _ _). destruct (run_filter k (fz 1) (fz 1) []) as [r|e] eqn:ER; [|vm_compute in ER; discriminate ER].
  rewrite prune_forever; [reflexivity|exact H|lia|]. unfold k in ER. vm_compute in ER. injection ER as <-. vm_compute. reflexivity.
Qed.
Print Assumptions C60_constant_forever.
(** So the filter does not end for every number of iterations. *)
Definition ends_claim : Prop := forall zs iterations, exists fuel, kalman_filter_for_SR fuel zs (fz 0) (fz 1) (fz 1) (fz 1) iterations (fz 1) None true None true true <> None.
Theorem C60_ends_refuted : ~ ends_claim.
Proof. intros H. destruct (H (repeat (fz 1) 11) 101%nat) as (fuel & C). apply C. apply C60_constant_forever. lia. Qed.
Print Assumptions C60_ends_refuted.

Print Assumptions C60_ends.
Print Assumptions C60_forever.
