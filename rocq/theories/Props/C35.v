(** C35: full outages *)

From Coq Require Import QArith Qcanon List ZArith Bool Arith Lia Permutation Sorted.
From Verif.Base Require Import QcExtra ISort Quantile Fl TimeSeries Calendar Rolling.
From Verif.Spec Require Import Stats Interp Energy Availability.
From Verif.Model Require Import Energy Clipping Availability.
From Verif.Proofs Require Import AvailP AvailP2 AvailP3 AvailP4 AvailP5 AvailP6 AvailP7 AvailP8 AvailP9 AvailP10 AvailP11 AvailP12.
Import ListNotations.
Open Scope list_scope.
Open Scope Qc_scope.

(** The runs found are the maximal runs of rows in an outage; if all rows are, none is found. *)
Theorem C35_runs : forall l, let o := outage_runs (full_outage l) in
  ((exists i, (i < length l)%nat /\ ~ in_outage l i) ->
     in_order o /\ forall a b, In (a, b) o <-> maximal_run (length l) (in_outage l) a b) /\
  ((forall i, (i < length l)%nat -> in_outage l i) -> o = []).
Proof. exact outages_spec. Qed.

(** So are the outages reported. *)
Theorem C35_reported : forall freq index masks e power meter os st l, length masks = length power -> daylight_reports masks power l ->
  calc_loss_system freq index masks e power meter = Ok (os, st) ->
  let places := map (fun o => (o_start o, o_end o)) os in
  ((exists i, (i < length masks)%nat /\ ~ in_outage l i) ->
     in_order places /\ forall a b, In (a, b) places <-> maximal_run (length masks) (in_outage l) a b) /\
  ((forall i, (i < length masks)%nat -> in_outage l i) -> os = []).
Proof. exact reported_outages. Qed.

(** Fourteen hours, two inverters; nothing reports at rows 5 to 7, one does not at row 10. *)
Definition hour : Z := 3600000000000.
Definition clock : list Z := evenly 0 hour 14.
Definition whole (l : list Z) : list fl := map fz l.
Definition inverters : list (list fl) := map whole
  [[0; 0]; [50; 50]; [50; 50]; [50; 50]; [50; 50]; [0; 0]; [0; 0]; [0; 0]; [50; 50]; [50; 50]; [50; 0]; [50; 50]; [50; 50]; [0; 0]]%Z.
Definition system : list fl := whole [0; 100; 100; 100; 100; 0; 0; 0; 100; 100; 50; 100; 100; 0]%Z.
Definition expected_power : list fl := whole [0; 10; 10; 10; 10; 10; 10; 10; 10; 10; 10; 10; 10; 0]%Z.
Definition meter : list fl := whole [0; 100; 200; 300; 400; 400; 400; 400; 500; 600; 650; 750; 850; 850]%Z.
Definition seven_hours (t : Z) : Z := (t / (7 * hour))%Z.
Definition demo_run : result availability_result :=
  run None clock 2 system inverters meter expected_power None None None (qf 1 100, qf 99 100) seven_hours.
Definition demo_masks : list (list bool) := fst (calc_loss_subsystem 2 None None None system inverters).
Definition demo_error : expectation :=
  Expectation (map (fmul (fz 10)) expected_power) (NaN :: tl (map (fmul (fz 10)) expected_power)) [(2%Z, ff (-1) 10); (4%Z, ff (-1) 20)] [(2%Z, ff 1 10); (4%Z, ff 1 20)].

Lemma noinf_whole : forall l, noinf (whole l).
Proof. intros l x Hx. unfold whole in Hx. apply in_map_iff in Hx. destruct Hx as (z & <- & _). split; discriminate. Qed.

(** Nights belong to the outage when it is dark on both sides of them. *)
Example C35_example :
  outage_runs (full_outage [None; Some false; Some true; None; Some true; Some false; None; Some true; None]) = [(2, 4); (6, 8)]%nat /\
  outage_runs (full_outage [None; Some true; None]) = [] /\
  outage_runs (full_outage (daylight_offline demo_masks expected_power)) = [(5, 7)]%nat.
Proof. repeat split; vm_compute; reflexivity. Qed.

Example C35_hypotheses : let l := daylight_offline demo_masks expected_power in
  daylight_reports demo_masks expected_power l /\ (exists i, (i < length demo_masks)%nat /\ ~ in_outage l i) /\ maximal_run 14 (in_outage l) 5 7.
Proof.
  cbv zeta. split.
  - apply daylight_offline_reports. vm_compute. reflexivity.
  - assert (length demo_masks = 14)%nat as LM by (vm_compute; reflexivity). rewrite LM.
    assert (daylight_offline demo_masks expected_power =
      [None; Some false; Some false; Some false; Some false; Some true; Some true; Some true; Some false; Some false; Some false; Some false; Some false; None]) as E by (vm_compute; reflexivity).
    rewrite E. match goal with |- context [in_outage ?x] => set (l := x) end. pose proof (outages_spec l) as [H _]. cbv zeta in H. change (length l) with 14%nat in H.
    assert (~ in_outage l 1) as N.
    { intros [(j & Hj & F & K) | (j & Hj & F & K)].
      - destruct j as [| [| j]]; [discriminate F | discriminate F | lia].
      - destruct j as [| [| j]]; [lia | discriminate F |]. specialize (K 1%nat ltac:(lia)). discriminate K. }
    split; [exists 1%nat; split; [lia | exact N] |].
    destruct H as [_ H]; [exists 1%nat; split; [lia | exact N] |]. apply (proj1 (H 5%nat 7%nat)). vm_compute. left. reflexivity.
Qed.

(** Not true: that a data set without any report has an outage. *)
Theorem C35_all_offline_refuted : ~ (forall l, (exists i, in_outage l i /\ (i < length l)%nat) -> outage_runs (full_outage l) <> []).
Proof.
  intros H. apply (H [Some true; Some true]); [| vm_compute; reflexivity]. exists 0%nat. split; [| cbn; lia]. left. exists 0%nat. repeat split; lia.
Qed.
Print Assumptions C35_all_offline_refuted.

Print Assumptions C35_runs.
Print Assumptions C35_reported.
