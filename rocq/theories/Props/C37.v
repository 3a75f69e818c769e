(** C37: reconstruction of outages *)

From Coq Require Import QArith Qcanon List ZArith Bool Arith Lia Permutation Sorted.
From Verif.Base Require Import QcExtra ISort Quantile Fl TimeSeries Calendar Rolling.
From Verif.Spec Require Import Stats Interp Energy Availability.
From Verif.Model Require Import Energy Clipping Availability.
From Verif.Proofs Require Import AvailP AvailP2 AvailP3 AvailP4 AvailP5 AvailP6 AvailP7 AvailP8 AvailP9 AvailP10 AvailP11 AvailP12.
Import ListNotations.
Open Scope list_scope.
Open Scope Qc_scope.

(** Lost power and corrected meter of the whole data set: untouched outside outages, rebuilt
    inside real and comms ones, empty inside the others. *)
Theorem C37_system : forall freq t0 w n masks e power q meter l,
  (0 < w)%Z -> length masks = n -> length power = n -> (forall i, (i < n)%nat -> nth_error power i = Some (Fin (q i))) ->
  length meter = n -> noinf meter -> length (e_energy e) = n -> noinf (e_energy e) -> length (e_power e) = n ->
  (forall x, exists y, bound_at (e_lower e) x y) -> (forall x, exists y, bound_at (e_upper e) x y) ->
  daylight_reports masks power l -> (exists i, (i < n)%nat /\ ~ in_outage l i) ->
  (forall a b, maximal_run n (in_outage l) a b -> (a < b)%nat /\ energy_after (hours w) q a b <> 0) ->
  exists os lost corrected, calc_loss_system freq (evenly t0 w n) masks e power meter = Ok (os, (lost, corrected)) /\
    length lost = n /\ length corrected = n /\
    (forall i, (i < n)%nat -> ~ in_outage l i -> nth_error lost i = Some (Fin 0) /\ nth_error corrected i = nth_error meter i) /\
    forall a b start stop err, maximal_run n (in_outage l) a b -> meter_before meter a start -> nth_error meter b = Some stop ->
      bound_at (e_lower e) (Z.of_nat (daylight_rows (e_power e) a b)) err ->
      let expected := sum_rows (known_at (e_energy e)) a b in
      (unknown_outage expected start stop -> blank a b lost corrected) /\
      (forall s x, start = Fin s -> real_outage expected err start stop x -> rebuilt (hours w) q a b (expected - x) x s lost corrected) /\
      (forall s x, start = Fin s -> comms_outage expected err start stop x -> rebuilt (hours w) q a b 0 x s lost corrected).
Proof. exact loss_system_spec. Qed.

(** What is rebuilt adds up to the loss from the second row of the outage on, and to more than it
    with the first row; the meter ends at the reading. *)
Theorem C37_conserved : forall h q a b loss actual start lost corrected, (a < b)%nat -> energy_after h q a b <> 0 ->
  rebuilt h q a b loss actual start lost corrected ->
  sum_rows (fun i => known_at lost i * h) (S a) b = loss /\
  sum_rows (fun i => known_at lost i * h) a b = loss + loss * (q a * h / energy_after h q a b) /\
  nth_error corrected b = Some (Fin (start + actual)).
Proof. exact rebuilt_conserves. Qed.

(** An outage of one row cannot be rebuilt without a declared frequency. *)
Theorem C37_single_row : forall freq t0 w n power q o lost corrected, length power = n -> length lost = n -> length corrected = n ->
  (forall i, (o_start o <= i <= o_end o)%nat -> nth_error power i = Some (Fin (q i))) -> (o_start o <= o_end o < n)%nat ->
  o_start o = o_end o -> freq = None -> fill_outage freq (evenly t0 w n) power o (lost, corrected) = Raise ValueError.
Proof. exact fill_single_error. Qed.

(** Fourteen hours, two inverters; nothing reports at rows 5 to 7, one does not at row 10. *)
Definition hour : Z := 3600000000000.
Definition clock : list Z := evenly 0 hour 14.
Definition whole (l : list Z) : list fl := map fz l.
Definition inverters : list (list fl) := map whole
  [[0; 0]; [50; 50]; [50; 50]; [50; 50]; [50; 50]; [0; 0]; [0; 0]; [0; 0]; [50; 50]; [50; 50]; [50; 0]; [50; 50]; [50; 50]; [0; 0]]%Z.
Definition system : list fl := whole [0; 100; 100; 100; 100; 0; 0; 0; 100; 100; 50; 100; 100; 0]%Z.
Definition expected_power : list fl := whole [0; 10; 10; 10; 10; 10; 10; 10; 10; 10; 10; 10; 10; 0]%Z.
Definition meter : list fl := whole [0; 100; 200; 300; 400; 400; 400; 400; 500; 600; 650; 750; 850; 850]%Z.
Definition seven_hours (t : Z) : Z := (t / (7 * hour))%Z.
Definition demo_run : result availability_result :=
  run None clock 2 system inverters meter expected_power None None None (qf 1 100, qf 99 100) seven_hours.
Definition demo_masks : list (list bool) := fst (calc_loss_subsystem 2 None None None system inverters).
Definition demo_error : expectation :=
  Expectation (map (fmul (fz 10)) expected_power) (NaN :: tl (map (fmul (fz 10)) expected_power)) [(2%Z, ff (-1) 10); (4%Z, ff (-1) 20)] [(2%Z, ff 1 10); (4%Z, ff 1 20)].

Lemma noinf_whole : forall l, noinf (whole l).
Proof. intros l x Hx. unfold whole in Hx. apply in_map_iff in Hx. destruct Hx as (z & <- & _). split; discriminate. Qed.

Example C37_example :
  (match demo_run with Ok r => (r_loss_system r, r_corrected r, map o_loss (r_outages r)) | _ => ([], [], []) end) =
  (whole [0; 0; 0; 0; 0; 150; 150; 150; 0; 0; 0; 0; 0; 0]%Z,
   firstn 5 meter ++ [NaN] ++ skipn 6 meter, [fz 300]).
Proof. fcompute. Qed.

Example C37_comms :
  (match calc_loss_system None clock demo_masks demo_error expected_power (firstn 7 meter ++ [fz 700; fz 800] ++ skipn 9 meter) with
   | Ok (os, (lost, corrected)) => (map o_type os, lost, slice 4 8 corrected) | _ => ([], [], []) end) =
  ([Comms], map (fun _ => fz 0) clock, [fz 400; NaN; fz 550; fz 700; fz 800]).
Proof. fcompute. Qed.

Example C37_hypotheses :
  (forall i, (i < 14)%nat -> nth_error expected_power i = Some (Fin (known_at expected_power i))) /\
  (forall x, exists y, bound_at (e_lower demo_error) x y) /\ energy_after (hours hour) (known_at expected_power) 5 7 = qz 20.
Proof.
  split; [| split].
  - intros i Hi. do 14 (destruct i as [| i]; [reflexivity |]). lia.
  - intros x. destruct (Z.le_ge_cases x 2) as [L | L]; [| destruct (Z.le_ge_cases 4 x) as [R | R]]; eexists; exists [(2%Z, qf (-1) 10); (4%Z, qf (-1) 20)];
      (split; [reflexivity |]; split; [repeat constructor |]).
    + eapply clamped_low; [reflexivity | exact L].
    + apply (clamped_high _ _ 4%Z (qf (-1) 20) [(2%Z, qf (-1) 10)]); [reflexivity | exact R].
    + apply (clamped_between _ _ 2%Z (qf (-1) 10) 4%Z (qf (-1) 20) [] []); [reflexivity | lia].
  - apply Qc_is_canon. reflexivity.
Qed.

(** Not true: that the lost production of the periods is the loss of the outages (and
    subsystems) in them.  300 and 50 are lost here, 500 are reported. *)
Theorem C37_lost_production_refuted : ~ (forall freq index n system subsystems m expected quantiles period r,
  run freq index n system subsystems m expected None None None quantiles period = Ok r ->
  qsum (map (fun x => known_or_0 (fst (fst (snd x)))) (r_results r)) =
  qsum (map (fun o => known_or_0 (o_loss o)) (r_outages r)) + qsum (map known_or_0 (r_loss_subsystem r))).
Proof.
  intros H.
  assert (match run None clock 2 system inverters meter expected_power None None None (qf 1 100, qf 99 100) seven_hours with Ok r => qeq (qsum (map (fun x => known_or_0 (fst (fst (snd x)))) (r_results r)))
            (qsum (map (fun o => known_or_0 (o_loss o)) (r_outages r)) + qsum (map known_or_0 (r_loss_subsystem r))) | _ => true end = false) as C by (vm_compute; reflexivity).
  destruct (run None clock 2 system inverters meter expected_power None None None (qf 1 100, qf 99 100) seven_hours) as [r |] eqn:E; [| discriminate C]. apply H in E. apply qeq_false in C. exact (C E).
Qed.
Print Assumptions C37_lost_production_refuted.

(** An outage in which only the first row has expected power: nothing to divide by. *)
Example C37_infinite_loss :
  let day := whole [10; 10; 10; 10; 10; 0; 0]%Z in
  let m := map (fun x => [x]) [true; true; true; true; false; true; true] in
  let e := Expectation (map (fmul (fz 10)) day) (NaN :: map (fmul (fz 10)) (tl day)) [(2%Z, fz 0)] [(2%Z, fz 0)] in
  match calc_loss_system (Some hour) (evenly 0 hour 7) m e day (whole [0; 100; 200; 300; 300; 300; 300]%Z) with
  | Ok (os, (lost, _)) => (map o_type os, lost) | _ => ([], []) end = ([Real], [fz 0; fz 0; fz 0; fz 0; PInf; NaN; NaN]).
Proof. cbv zeta. fcompute. Qed.

Print Assumptions C37_system.
Print Assumptions C37_conserved.
Print Assumptions C37_single_row.
