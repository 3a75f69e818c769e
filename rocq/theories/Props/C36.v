(** C36: classification of outages *)

From Coq Require Import QArith Qcanon List ZArith Bool Arith Lia Permutation Sorted.
From Verif.Base Require Import QcExtra ISort Quantile Fl TimeSeries Calendar Rolling.
From Verif.Spec Require Import Stats Interp Energy Availability.
From Verif.Model Require Import Energy Clipping Availability.
From Verif.Proofs Require Import AvailP AvailP2 AvailP3 AvailP4 AvailP5 AvailP6 AvailP7 AvailP8 AvailP9 AvailP10 AvailP11 AvailP12.
Import ListNotations.
Open Scope list_scope.
Open Scope Qc_scope.

(** Everything recorded about an outage. *)
Theorem C36_outage : forall e meter a b expected start stop err up,
  noinf meter -> noinf (e_energy e) -> length (e_energy e) = length meter -> length (e_power e) = length meter ->
  (a <= b < length meter)%nat ->
  expected = sum_rows (known_at (e_energy e)) a b ->
  meter_before meter a start -> nth_error meter b = Some stop ->
  bound_at (e_lower e) (Z.of_nat (daylight_rows (e_power e) a b)) err ->
  bound_at (e_upper e) (Z.of_nat (daylight_rows (e_power e) a b)) up ->
  let o := outage_info e meter (a, b) in
  o_start o = a /\ o_end o = b /\ o_daylight o = Z.of_nat (daylight_rows (e_power e) a b) /\
  o_expected o = Fin expected /\ o_energy_start o = start /\ o_energy_end o = stop /\
  o_ci_lower o = Fin ((1 + err) * expected) /\ o_ci_upper o = Fin ((1 + up) * expected) /\
  ((unknown_outage expected start stop /\ o_type o = Unknown /\ o_actual o = NaN /\ o_loss o = NaN) \/
   (exists x, real_outage expected err start stop x /\ o_type o = Real /\ o_actual o = Fin x /\ o_loss o = Fin (expected - x)) \/
   (exists x, comms_outage expected err start stop x /\ o_type o = Comms /\ o_actual o = Fin x /\ o_loss o = Fin 0)).
Proof. exact outage_info_spec. Qed.

(** A real outage has a positive loss if the error bound is not positive. *)
Theorem C36_real_positive : forall expected err start stop x, real_outage expected err start stop x -> 0 <= expected -> err <= 0 -> 0 < expected - x.
Proof. exact real_positive. Qed.

(** The reading before an outage is determined. *)
Theorem C36_meter_before : forall meter a x y, meter_before meter a x -> meter_before meter a y -> x = y.
Proof. exact before_unique. Qed.

(** The error bound is the interpolated one. *)
Theorem C36_bound : forall l x y, bound_at l x y -> interp1d l x = Fin y.
Proof. exact bound_interp. Qed.

(** Fourteen hours, two inverters; nothing reports at rows 5 to 7, one does not at row 10. *)
Definition hour : Z := 3600000000000.
Definition clock : list Z := evenly 0 hour 14.
Definition whole (l : list Z) : list fl := map fz l.
Definition inverters : list (list fl) := map whole
  [[0; 0]; [50; 50]; [50; 50]; [50; 50]; [50; 50]; [0; 0]; [0; 0]; [0; 0]; [50; 50]; [50; 50]; [50; 0]; [50; 50]; [50; 50]; [0; 0]]%Z.
Definition system : list fl := whole [0; 100; 100; 100; 100; 0; 0; 0; 100; 100; 50; 100; 100; 0]%Z.
Definition expected_power : list fl := whole [0; 10; 10; 10; 10; 10; 10; 10; 10; 10; 10; 10; 10; 0]%Z.
Definition meter : list fl := whole [0; 100; 200; 300; 400; 400; 400; 400; 500; 600; 650; 750; 850; 850]%Z.
Definition seven_hours (t : Z) : Z := (t / (7 * hour))%Z.
Definition demo_run : result availability_result :=
  run None clock 2 system inverters meter expected_power None None None (qf 1 100, qf 99 100) seven_hours.
Definition demo_masks : list (list bool) := fst (calc_loss_subsystem 2 None None None system inverters).
Definition demo_error : expectation :=
  Expectation (map (fmul (fz 10)) expected_power) (NaN :: tl (map (fmul (fz 10)) expected_power)) [(2%Z, ff (-1) 10); (4%Z, ff (-1) 20)] [(2%Z, ff 1 10); (4%Z, ff 1 20)].

Lemma noinf_whole : forall l, noinf (whole l).
Proof. intros l x Hx. unfold whole in Hx. apply in_map_iff in Hx. destruct Hx as (z & <- & _). split; discriminate. Qed.

(** The meter stands still, moves on, is missing, or runs backwards. *)
Example C36_example :
  let o m := outage_info demo_error m (5, 7)%nat in
  let with_end x := firstn 7 meter ++ [x] ++ skipn 8 meter in
  o_type (o meter) = Real /\ o_loss (o meter) = fz 300 /\
  o_ci_lower (o meter) = ff 555 2 /\ o_ci_upper (o meter) = ff 645 2 /\ o_daylight (o meter) = 3%Z /\
  o_type (o (with_end (fz 700))) = Comms /\ o_loss (o (with_end (fz 700))) = fz 0 /\
  o_type (o (with_end NaN)) = Unknown /\ o_loss (o (with_end NaN)) = NaN /\
  o_type (o (with_end (fz 384))) = Unknown /\ o_type (o (with_end (fz 385))) = Real /\ o_loss (o (with_end (fz 385))) = fz 315.
Proof. cbv zeta. repeat split; fcompute. Qed.

Example C36_hypotheses :
  noinf meter /\ noinf (e_energy demo_error) /\ length (e_energy demo_error) = length meter /\ length (e_power demo_error) = length meter /\
  meter_before meter 5 (fz 400) /\ nth_error meter 7 = Some (fz 400) /\ daylight_rows (e_power demo_error) 5 7 = 3%nat /\
  bound_at (e_lower demo_error) 3 (qf (-3) 40) /\ bound_at (e_upper demo_error) 3 (qf 3 40) /\
  real_outage (sum_rows (known_at (e_energy demo_error)) 5 7) (qf (-3) 40) (fz 400) (fz 400) 0.
Proof.
  split; [apply noinf_whole |]. split.
  { intros x Hx. unfold demo_error, e_energy, expected_power, whole in Hx. cbn [map tl] in Hx. repeat (destruct Hx as [<- | Hx]; [split; discriminate |]). destruct Hx. }
  split; [reflexivity |]. split; [reflexivity |]. split; [left; exists 4%nat; split; reflexivity |]. split; [reflexivity |]. split; [vm_compute; reflexivity |].
  assert (forall a b c, c = a + (b - a) * (qz (3 - 2) / qz (4 - 2)) -> bound_at [(2%Z, Fin a); (4%Z, Fin b)] 3 c) as B.
  { intros a b c ->. exists [(2%Z, a); (4%Z, b)]. split; [reflexivity |]. split; [repeat constructor |]. apply (clamped_between _ _ 2%Z a 4%Z b [] []); [reflexivity | lia]. }
  split; [apply B; apply Qc_is_canon; reflexivity |]. split; [apply B; apply Qc_is_canon; reflexivity |].
  split; [exists (qz 400), (qz 400); repeat split; apply Qc_is_canon; reflexivity |]. split; vm_compute; [discriminate | reflexivity].
Qed.

(** Not true: that the reading at the start is one made before the end.  An outage at the
    first row starts with the last reading of all data, so its production is negative. *)
Theorem C36_first_row_refuted : ~ (forall e m a b, noinf m -> (a <= b < length m)%nat ->
  exists i, (i <= b)%nat /\ o_energy_start (outage_info e m (a, b)) = nth i m NaN).
Proof.
  intros H. destruct (H demo_error meter 0%nat 2%nat (noinf_whole _) ltac:(cbn; lia)) as (i & Hi & E).
  do 3 (destruct i as [| i]; [discriminate E |]). lia.
Qed.
Print Assumptions C36_first_row_refuted.
Example C36_first_row : o_type (outage_info demo_error meter (0, 2)%nat) = Unknown /\ o_energy_start (outage_info demo_error meter (0, 2)%nat) = fz 850.
Proof. split; fcompute. Qed.

Print Assumptions C36_outage.
Print Assumptions C36_real_positive.
Print Assumptions C36_meter_before.
Print Assumptions C36_bound.
