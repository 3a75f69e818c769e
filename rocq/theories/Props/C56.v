(** C56: error of the expected energy *)

From Coq Require Import QArith Qcanon List ZArith Bool Arith Lia Permutation Sorted.
From Verif.Base Require Import QcExtra ISort Quantile Fl TimeSeries Calendar Rolling.
From Verif.Spec Require Import Stats Interp Energy Availability.
From Verif.Model Require Import Energy Clipping Availability.
From Verif.Proofs Require Import AvailP AvailP2 AvailP3 AvailP4 AvailP5 AvailP6 AvailP7 AvailP8 AvailP9 AvailP10 AvailP11 AvailP12.
Import ListNotations.
Open Scope list_scope.
Open Scope Qc_scope.

(** Nothing can be said without normal rows. *)
Theorem C56_none : forall freq t0 w n loss power expected, (0 < w)%Z -> (2 <= n)%nat -> length loss = n -> length power = n -> length expected = n ->
  noinf loss -> noinf power -> noinf expected -> let rows := normal_at loss power expected in
  forall quantiles, rows = [] ->
  calc_error_distributions freq (evenly t0 w n) loss power expected quantiles = Raise IndexError.
Proof. exact errors_none. Qed.

(** With one to three normal rows there is an error; with more, the expected power is calibrated and
    the bounds are the percentiles of the errors of all windows. *)
Theorem C56_errors : forall freq t0 w n loss power expected, (0 < w)%Z -> (2 <= n)%nat -> length loss = n -> length power = n -> length expected = n ->
  noinf loss -> noinf power -> noinf expected -> let rows := normal_at loss power expected in
  forall q1 q2, 0 <= q1 -> q1 <= 1 -> 0 <= q2 -> q2 <= 1 -> rows <> [] ->
  ((length rows < 4)%nat -> calc_error_distributions freq (evenly t0 w n) loss power expected (q1, q2) = Raise ValueError) /\
  ((4 <= length rows)%nat -> exists e, calc_error_distributions freq (evenly t0 w n) loss power expected (q1, q2) = Ok e /\
     e_power e = map (calibrated rows power expected) (seq 0 n) /\
     e_energy e = map (fun i => shown (row_energy (hours w) (e_power e) i)) (seq 0 n) /\
     error_points q1 (row_energy (hours w) power) (row_energy (hours w) (e_power e)) rows (e_lower e) /\
     error_points q2 (row_energy (hours w) power) (row_energy (hours w) (e_power e)) rows (e_upper e)).
Proof. exact errors_spec. Qed.

(** Calibrated expected power and measured power agree in total. *)
Theorem C56_calibration : forall n loss power expected, (2 <= n)%nat -> length loss = n -> length power = n -> length expected = n ->
  let rows := normal_at loss power expected in rows <> [] -> total_over (map (calibrated rows power expected) (seq 0 n)) rows = total_over power rows.
Proof. exact calibration. Qed.

(** The lower bound is below the upper one. *)
Theorem C56_ordered : forall q1 q2 f g rows l1 l2 x y1 y2, 0 <= q1 -> q1 <= q2 -> q2 <= 1 ->
  error_points q1 f g rows l1 -> error_points q2 f g rows l2 -> bound_at l1 x y1 -> bound_at l2 x y2 -> y1 <= y2.
Proof. exact points_ordered. Qed.

(** Fourteen hours, two inverters; nothing reports at rows 5 to 7, one does not at row 10. *)
Definition hour : Z := 3600000000000.
Definition clock : list Z := evenly 0 hour 14.
Definition whole (l : list Z) : list fl := map fz l.
Definition inverters : list (list fl) := map whole
  [[0; 0]; [50; 50]; [50; 50]; [50; 50]; [50; 50]; [0; 0]; [0; 0]; [0; 0]; [50; 50]; [50; 50]; [50; 0]; [50; 50]; [50; 50]; [0; 0]]%Z.
Definition system : list fl := whole [0; 100; 100; 100; 100; 0; 0; 0; 100; 100; 50; 100; 100; 0]%Z.
Definition expected_power : list fl := whole [0; 10; 10; 10; 10; 10; 10; 10; 10; 10; 10; 10; 10; 0]%Z.
Definition meter : list fl := whole [0; 100; 200; 300; 400; 400; 400; 400; 500; 600; 650; 750; 850; 850]%Z.
Definition seven_hours (t : Z) : Z := (t / (7 * hour))%Z.
Definition demo_run : result availability_result :=
  run None clock 2 system inverters meter expected_power None None None (qf 1 100, qf 99 100) seven_hours.
Definition demo_masks : list (list bool) := fst (calc_loss_subsystem 2 None None None system inverters).
Definition demo_error : expectation :=
  Expectation (map (fmul (fz 10)) expected_power) (NaN :: tl (map (fmul (fz 10)) expected_power)) [(2%Z, ff (-1) 10); (4%Z, ff (-1) 20)] [(2%Z, ff 1 10); (4%Z, ff 1 20)].

Lemma noinf_whole : forall l, noinf (whole l).
Proof. intros l x Hx. unfold whole in Hx. apply in_map_iff in Hx. destruct Hx as (z & <- & _). split; discriminate. Qed.

Example C56_example :
  let uneven := whole [0; 100; 90; 110; 100; 0; 0; 0; 100; 120; 50; 80; 100; 0]%Z in
  let loss := snd (calc_loss_subsystem 2 None None None system inverters) in
  normal_at loss uneven expected_power = [1; 2; 3; 4; 8; 9; 11; 12]%nat /\
  (match calc_error_distributions None clock loss uneven expected_power (0, 1) with Ok e => (e_lower e, e_upper e, e_power e) | _ => ([], [], []) end) =
  ([(2%Z, ff (-1) 10); (4%Z, fz 0)], [(2%Z, ff 1 10); (4%Z, ff 3 40)], map (fmul (fz 10)) expected_power).
Proof. cbv zeta. split; fcompute. Qed.

Example C56_few :
  calc_error_distributions (Some hour) (evenly 0 hour 4) (whole [0; 0; 0; 1]%Z) (whole [1; 1; 1; 1]%Z) (whole [1; 1; 1; 1]%Z) (0, 1) = Raise ValueError /\
  calc_error_distributions (Some hour) (evenly 0 hour 4) (whole [1; 1; 1; 1]%Z) (whole [1; 1; 1; 1]%Z) (whole [1; 1; 1; 1]%Z) (0, 1) = Raise IndexError.
Proof. split; vm_compute; reflexivity. Qed.

Print Assumptions C56_none.
Print Assumptions C56_errors.
Print Assumptions C56_calibration.
Print Assumptions C56_ordered.
