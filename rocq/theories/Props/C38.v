(** C38: availability of periods *)

From Coq Require Import QArith Qcanon List ZArith Bool Arith Lia Permutation Sorted.
From Verif.Base Require Import QcExtra ISort Quantile Fl TimeSeries Calendar Rolling.
From Verif.Spec Require Import Stats Interp Energy Availability.
From Verif.Model Require Import Energy Clipping Availability.
From Verif.Proofs Require Import AvailP AvailP2 AvailP3 AvailP4 AvailP5 AvailP6 AvailP7 AvailP8 AvailP9 AvailP10 AvailP11 AvailP12.
Import ListNotations.
Open Scope list_scope.
Open Scope Qc_scope.

(** One row for each period, with its lost production, meter change and availability. *)
Theorem C38_periods : forall freq t0 w n period system subsystem corrected, (0 < w)%Z -> (2 <= n)%nat ->
  (forall s t, (s <= t)%Z -> (period s <= period t)%Z) ->
  length system = n -> length subsystem = n -> length corrected = n -> noinf system -> noinf subsystem -> noinf corrected ->
  (exists i x, (i < n)%nat /\ total_at system subsystem i = Some x) ->
  let time i := (t0 + w * Z.of_nat i)%Z in
  exists rows, combine_losses freq period (evenly t0 w n) system subsystem corrected = Ok rows /\
    StronglySorted Z.lt (map fst rows) /\
    (forall p, In p (map fst rows) <-> (period t0 <= p <= period (time (n - 1)%nat))%Z) /\
    forall p l a v, In (p, (l, a, v)) rows ->
      ((p < period (time 1%nat))%Z -> l = NaN) /\
      ((period (time 1%nat) <= p)%Z -> l = Fin (sum_rows (fun i => if (period (time i) =? p)%Z then lost_in (hours w) system subsystem i else 0) 1 (n - 1))) /\
      meter_change corrected (fun i => (period (time i) =? p)%Z) a /\
      (l = NaN \/ a = NaN -> v = NaN) /\
      (forall x y, l = Fin x -> a = Fin y -> x + y <> 0 -> v = Fin (y / (x + y))).
Proof. exact combine_losses_spec. Qed.

(** The periods together have all the lost production. *)
Theorem C38_total : forall freq t0 w n period system subsystem corrected rows, (0 < w)%Z -> (2 <= n)%nat ->
  (forall s t, (s <= t)%Z -> (period s <= period t)%Z) ->
  length system = n -> length subsystem = n -> length corrected = n -> noinf system -> noinf subsystem -> noinf corrected ->
  (exists i x, (i < n)%nat /\ total_at system subsystem i = Some x) ->
  combine_losses freq period (evenly t0 w n) system subsystem corrected = Ok rows ->
  qsum (map (fun r => known_or_0 (fst (fst (snd r)))) rows) = sum_rows (lost_in (hours w) system subsystem) 1 (n - 1).
Proof. exact lost_total. Qed.

(** The same for a whole run. *)
Theorem C38_run : forall freq t0 w n k power_system power_subsystem cumulative expected low sizes limits quantiles period r,
  run freq (evenly t0 w n) k power_system power_subsystem cumulative expected low sizes limits quantiles period = Ok r ->
  (0 < w)%Z -> (2 <= n)%nat -> (forall s t, (s <= t)%Z -> (period s <= period t)%Z) ->
  length (r_loss_system r) = n -> length (r_loss_subsystem r) = n -> length (r_corrected r) = n ->
  noinf (r_loss_system r) -> noinf (r_loss_subsystem r) -> noinf (r_corrected r) ->
  (exists i x, (i < n)%nat /\ total_at (r_loss_system r) (r_loss_subsystem r) i = Some x) ->
  let time i := (t0 + w * Z.of_nat i)%Z in
  StronglySorted Z.lt (map fst (r_results r)) /\
  (forall p, In p (map fst (r_results r)) <-> (period t0 <= p <= period (time (n - 1)%nat))%Z) /\
  forall p l a v, In (p, (l, a, v)) (r_results r) ->
    ((p < period (time 1%nat))%Z -> l = NaN) /\
    ((period (time 1%nat) <= p)%Z -> l = Fin (sum_rows (fun i => if (period (time i) =? p)%Z then lost_in (hours w) (r_loss_system r) (r_loss_subsystem r) i else 0) 1 (n - 1))) /\
    meter_change (r_corrected r) (fun i => (period (time i) =? p)%Z) a /\
    (l = NaN \/ a = NaN -> v = NaN) /\
    (forall x y, l = Fin x -> a = Fin y -> x + y <> 0 -> v = Fin (y / (x + y))).
Proof. exact run_reports. Qed.

(** The stages of a run are those of C34, C56 and C35 to C37. *)
Theorem C38_stages : forall freq index k power_system power_subsystem cumulative expected low sizes limits quantiles period r,
  run freq index k power_system power_subsystem cumulative expected low sizes limits quantiles period = Ok r ->
  (r_masks r, r_loss_subsystem r) = calc_loss_subsystem k low sizes limits power_system power_subsystem /\
  calc_error_distributions freq index (r_loss_subsystem r) power_system expected quantiles = Ok (r_expectation r) /\
  calc_loss_system freq index (r_masks r) (r_expectation r) expected cumulative = Ok (r_outages r, (r_loss_system r, r_corrected r)).
Proof. exact run_outages. Qed.

Theorem C38_formula : forall x y, x + y <> 0 -> availability_of (Fin x) (Fin y) = Fin (y / (x + y)).
Proof. exact availability_fin. Qed.

(** Availability is between zero and one. *)
Theorem C38_bounds : forall x y, 0 <= x -> 0 <= y -> x + y <> 0 -> exists v,
  availability_of (Fin x) (Fin y) = Fin v /\ v = y / (x + y) /\ 0 <= v /\ v <= 1 /\ (v = 1 <-> x = 0) /\ (v = 0 <-> y = 0).
Proof. exact availability_bounds. Qed.

(** More lost production means less availability. *)
Theorem C38_decreasing : forall x x' y, 0 <= x -> x < x' -> 0 < y -> exists v v',
  availability_of (Fin x) (Fin y) = Fin v /\ availability_of (Fin x') (Fin y) = Fin v' /\ v' < v.
Proof. exact availability_decreasing. Qed.

(** Different indexes are refused. *)
Theorem C38_indexes : forall system others,
  (check_indexes system others = Ok tt <-> forall l, In l others -> l = system) /\
  (check_indexes system others = Raise ValueError <-> exists l, In l others /\ l <> system).
Proof. exact check_spec. Qed.

(** Fourteen hours, two inverters; nothing reports at rows 5 to 7, one does not at row 10. *)
Definition hour : Z := 3600000000000.
Definition clock : list Z := evenly 0 hour 14.
Definition whole (l : list Z) : list fl := map fz l.
Definition inverters : list (list fl) := map whole
  [[0; 0]; [50; 50]; [50; 50]; [50; 50]; [50; 50]; [0; 0]; [0; 0]; [0; 0]; [50; 50]; [50; 50]; [50; 0]; [50; 50]; [50; 50]; [0; 0]]%Z.
Definition system : list fl := whole [0; 100; 100; 100; 100; 0; 0; 0; 100; 100; 50; 100; 100; 0]%Z.
Definition expected_power : list fl := whole [0; 10; 10; 10; 10; 10; 10; 10; 10; 10; 10; 10; 10; 0]%Z.
Definition meter : list fl := whole [0; 100; 200; 300; 400; 400; 400; 400; 500; 600; 650; 750; 850; 850]%Z.
Definition seven_hours (t : Z) : Z := (t / (7 * hour))%Z.
Definition demo_run : result availability_result :=
  run None clock 2 system inverters meter expected_power None None None (qf 1 100, qf 99 100) seven_hours.
Definition demo_masks : list (list bool) := fst (calc_loss_subsystem 2 None None None system inverters).
Definition demo_error : expectation :=
  Expectation (map (fmul (fz 10)) expected_power) (NaN :: tl (map (fmul (fz 10)) expected_power)) [(2%Z, ff (-1) 10); (4%Z, ff (-1) 20)] [(2%Z, ff 1 10); (4%Z, ff 1 20)].

Lemma noinf_whole : forall l, noinf (whole l).
Proof. intros l x Hx. unfold whole in Hx. apply in_map_iff in Hx. destruct Hx as (z & <- & _). split; discriminate. Qed.

Example C38_example :
  (match demo_run with Ok r => r_results r | _ => [] end) =
  [(0%Z, (fz 300, fz 400, ff 4 7)); (1%Z, (fz 200, fz 450, ff 9 13))].
Proof. fcompute. Qed.
Example C38_indexes_example : check_indexes clock [clock; clock] = Ok tt /\ check_indexes clock [clock; tl clock] = Raise ValueError.
Proof. split; vm_compute; reflexivity. Qed.
Example C38_hypotheses : (forall s t, (s <= t)%Z -> (seven_hours s <= seven_hours t)%Z) /\
  noinf system /\ total_at system meter 3 = Some (qz 400) /\ 0 <= qz 300 /\ 0 <= qz 400 /\ qz 300 + qz 400 <> 0.
Proof.
  split; [intros s t H; apply Z.div_le_mono; [reflexivity | exact H] |]. split; [apply noinf_whole |]. split; [cbn; f_equal; apply Qc_is_canon; reflexivity |].
  repeat split; discriminate.
Qed.
(** A period that ends before the second row has no known loss. *)
Example C38_first_period :
  combine_losses None (fun t => t / hour)%Z (evenly 0 hour 3) (whole [0; 0; 5]%Z) (whole [0; 0; 0]%Z) (whole [0; 10; 20]%Z) =
  Ok [(0%Z, (NaN, fz 0, NaN)); (1%Z, (fz 0, fz 0, NaN)); (2%Z, (fz 5, fz 0, fz 0))].
Proof. fcompute. Qed.

Print Assumptions C38_periods.
Print Assumptions C38_total.
Print Assumptions C38_run.
Print Assumptions C38_stages.
Print Assumptions C38_formula.
Print Assumptions C38_bounds.
Print Assumptions C38_decreasing.
Print Assumptions C38_indexes.
