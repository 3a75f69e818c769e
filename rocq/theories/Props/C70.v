(** C70: what the figure of an availability analysis shows *)

From Coq Require Import QArith Qcanon List ZArith Bool Arith Lia Permutation Sorted.
From Verif.Base Require Import QcExtra ISort Quantile Fl TimeSeries Calendar Rolling.
From Verif.Spec Require Import Stats Interp Energy Availability AvailabilityPlots.
From Verif.Model Require Import Energy Clipping Availability AvailabilityPlots.
From Verif.Proofs Require Import FlP AvailP AvailP2 AvailP3 AvailP4 AvailP5 PlotsP6.
Import ListNotations.
Open Scope list_scope.
Open Scope Qc_scope.

(** The expected production drawn for an outage and the bar at its end. *)
Theorem C70_outage : forall index e meter a b expected s stop err up,
  length index = length meter -> noinf meter -> noinf (e_energy e) -> length (e_energy e) = length meter -> length (e_power e) = length meter -> (a <= b < length meter)%nat ->
  expected = sum_rows (known_at (e_energy e)) a b -> meter_before meter a (Fin s) -> nth_error meter b = Some stop ->
  bound_at (e_lower e) (Z.of_nat (daylight_rows (e_power e) a b)) err -> bound_at (e_upper e) (Z.of_nat (daylight_rows (e_power e) a b)) up ->
  exists k, mark_outage index (e_energy e) (outage_info e meter (a, b)) = Ok k /\
    production_shown index (e_energy e) a b s (k_curve k) /\ nth_error index b = Some (k_time k) /\
    k_below k = Fin (qabs (err * expected)) /\ k_above k = Fin (qabs (up * expected)) /\
    (nth_error (e_energy e) b = Some NaN -> k_energy k = NaN) /\
    (forall q, nth_error (e_energy e) b = Some (Fin q) -> k_energy k = Fin (s + expected) /\
       (0 <= expected -> err <= 0 -> 0 <= up -> bar_from k (s + (1 + err) * expected) (s + (1 + up) * expected))).
Proof. exact outage_shown. Qed.

(** An outage is recorded as real exactly if the meter ends below the bar (and not far below where it started). *)
Theorem C70_type : forall e meter a b expected s r err up,
  noinf meter -> noinf (e_energy e) -> length (e_energy e) = length meter -> length (e_power e) = length meter -> (a <= b < length meter)%nat ->
  expected = sum_rows (known_at (e_energy e)) a b -> meter_before meter a (Fin s) -> nth_error meter b = Some (Fin r) ->
  bound_at (e_lower e) (Z.of_nat (daylight_rows (e_power e) a b)) err -> bound_at (e_upper e) (Z.of_nat (daylight_rows (e_power e) a b)) up ->
  (o_type (outage_info e meter (a, b)) = Real <-> s - qf 5 100 * expected <= r /\ r < s + (1 + err) * expected).
Proof. exact type_shown. Qed.

(** After a run the figure exists and shows that run. *)
Theorem C70_run : forall p g s r, length (p_expected p) = length (p_index p) -> run_of p g = Ok r ->
  exists f, plot_object p (fst (run_object p g s)) = Ok f /\
    v_system f = combine (p_index p) (p_system p) /\ v_subsystems f = combine (p_index p) (p_subsystem p) /\ v_meter f = combine (p_index p) (p_meter p) /\
    v_lost f = combine (p_index p) (zip fadd (r_loss_system r) (r_loss_subsystem r)) /\
    Forall2 (fun o k => exists a b, (a <= b < length (p_index p))%nat /\ o = outage_info (r_expectation r) (p_meter p) (a, b) /\ nth_error (p_index p) b = Some (k_time k) /\
      mark_outage (p_index p) (e_energy (r_expectation r)) o = Ok k) (r_outages r) (v_outages f).
Proof. exact plot_after_run. Qed.

(** The attributes after a run. *)
Theorem C70_object : forall p g s, match run_of p g with
  | Ok r => run_object p g s = (Attributes (Some (e_energy (r_expectation r))) (Some (r_outages r)) (Some (zip fadd (r_loss_system r) (r_loss_subsystem r))), Ok tt)
  | Raise e => snd (run_object p g s) = Raise e
  end.
Proof. exact run_object_run. Qed.

(** What was run before does not matter. *)
Theorem C70_history : forall p g s s' r, run_of p g = Ok r -> plot_object p (fst (run_object p g s)) = plot_object p (fst (run_object p g s')).
Proof. exact plot_history. Qed.

(** Without a run there is no figure. *)
Theorem C70_before : forall p, plot_object p fresh = Raise TypeError.
Proof. exact plot_before. Qed.

(** A run sets energy, outages and total loss in this order, up to where it fails, whatever they were before. *)
Theorem C70_staged : forall p g, exists energy outages total res,
  (outages <> None -> energy <> None) /\ (total <> None -> outages <> None) /\ (res = Ok tt -> total <> None) /\
  forall s, run_object p g s = (Attributes (match energy with None => a_energy s | _ => energy end) (match outages with None => a_outages s | _ => outages end)
                                           (match total with None => a_total s | _ => total end), res).
Proof. exact run_staged. Qed.

(** Fourteen hours, two inverters; nothing reports at rows 5 to 7, one does not at row 10. *)
Definition hour : Z := 3600000000000.
Definition clock : list Z := evenly 0 hour 14.
Definition whole (l : list Z) : list fl := map fz l.
Definition inverters : list (list fl) := map whole
  [[0; 0]; [50; 50]; [50; 50]; [50; 50]; [50; 50]; [0; 0]; [0; 0]; [0; 0]; [50; 50]; [50; 50]; [50; 0]; [50; 50]; [50; 70]; [0; 0]]%Z.
Definition system : list fl := whole [0; 100; 100; 100; 100; 0; 0; 0; 100; 100; 50; 100; 120; 0]%Z.
Definition expected_power : list fl := whole [0; 10; 10; 10; 10; 10; 10; 10; 10; 10; 10; 10; 10; 0]%Z.
Definition meter : list fl := whole [0; 100; 200; 300; 400; 400; 400; 400; 500; 600; 650; 750; 870; 870]%Z.
Definition seven_hours (t : Z) : Z := (t / (7 * hour))%Z.
Definition site : plant := Plant None clock 2 system inverters meter expected_power.
Definition defaults : run_options := RunOptions None None None (qf 1 100, qf 99 100) seven_hours.
(** With these one row is left to compare with. *)
Definition strict : run_options := RunOptions (Some [fz 0; fz 60]) (Some [ff 1 4; ff 7 4]) None (qf 1 100, qf 99 100) seven_hours.
Definition number (v : fl) : option Q := match v with Fin q => Some (this q) | _ => None end.
Definition shown (k : outage_mark) : list (option Q) * Z * (option Q * option Q * option Q) :=
  (map (fun r => number (snd r)) (k_curve k), (k_time k / hour)%Z, (number (k_energy k), number (k_below k), number (k_above k))).
Definition marks (f : result availability_figure) : list (list (option Q) * Z * (option Q * option Q * option Q)) := match f with Ok f => map shown (v_outages f) | Raise _ => [] end.
Definition lost (f : result availability_figure) : list (option Q) := match f with Ok f => map (fun r => number (snd r)) (v_lost f) | Raise _ => [] end.
Definition after_first : attributes := fst (run_object site defaults fresh).
Example C70_example :
  marks (plot_object site after_first) = [([Some (1005 # 2); Some 605; Some (1415 # 2)], 7%Z, (Some (1415 # 2), Some (15 # 2), Some (69 # 5)))]%Q /\
  lost (plot_object site after_first) = map Some [0; 0; 0; 0; 0; 615 # 4; 615 # 4; 615 # 4; 0; 0; 50; 0; 0; 0]%Q.
Proof. split; vm_compute; reflexivity. Qed.
Definition demo_result : availability_result := match run_of site defaults with Ok r => r | Raise _ => AvailabilityResult [] [] (Expectation [] [] [] []) [] [] [] [] end.
Example C70_run_hypotheses : length (p_expected site) = length (p_index site) /\ run_of site defaults = Ok demo_result /\ length (r_outages demo_result) = 1%nat.
Proof. split; [reflexivity |]. split; vm_compute; reflexivity. Qed.

(** The hypotheses about one outage, with any bounds for two and four daylight rows. *)
Definition energies : list fl := NaN :: tl (map (fmul (fz 10)) expected_power).
Definition with_bounds (lo hi : Qc) : expectation := Expectation (map (fmul (fz 10)) expected_power) energies [(2%Z, Fin lo); (4%Z, Fin lo)] [(2%Z, Fin hi); (4%Z, Fin hi)].
Lemma noinf_whole : forall l, noinf (whole l).
Proof. intros l x Hx. unfold whole in Hx. apply in_map_iff in Hx. destruct Hx as (z & <- & _). split; discriminate. Qed.
Example C70_hypotheses : forall lo hi, let e := with_bounds lo hi in
  length clock = length meter /\ noinf meter /\ noinf (e_energy e) /\ length (e_energy e) = length meter /\ length (e_power e) = length meter /\ (5 <= 7 < length meter)%nat /\
  qz 300 = sum_rows (known_at (e_energy e)) 5 7 /\ meter_before meter 5 (Fin (qz 400)) /\ nth_error meter 7 = Some (Fin (qz 400)) /\
  bound_at (e_lower e) (Z.of_nat (daylight_rows (e_power e) 5 7)) lo /\ bound_at (e_upper e) (Z.of_nat (daylight_rows (e_power e) 5 7)) hi.
Proof.
  intros lo hi e. split; [reflexivity |]. split; [apply noinf_whole |]. split.
  { intros x Hx. unfold e, with_bounds, e_energy, energies, expected_power, whole in Hx. cbn [map tl] in Hx. repeat (destruct Hx as [<- | Hx]; [split; discriminate |]). destruct Hx. }
  split; [reflexivity |]. split; [reflexivity |]. split; [split; [repeat constructor | apply Nat.ltb_lt; reflexivity] |]. split; [apply Qc_is_canon; vm_compute; reflexivity |]. split; [left; exists 4%nat; split; reflexivity |]. split; [reflexivity |].
  assert (Z.of_nat (daylight_rows (e_power e) 5 7) = 3%Z) as -> by (vm_compute; reflexivity).
  assert (forall c, bound_at [(2%Z, Fin c); (4%Z, Fin c)] 3 c) as B.
  { intros c. exists [(2%Z, c); (4%Z, c)]. split; [reflexivity |]. split; [repeat constructor |]. assert (c = c + (c - c) * (qz (3 - 2) / qz (4 - 2))) as EC by ring. rewrite EC at 3. apply (clamped_between _ _ 2%Z c 4%Z c [] []); [reflexivity | lia]. }
  split; apply B.
Qed.

(** Not true: that the lower end of the bar is the lower end of the interval used to classify the
    outage.  With an error bound above zero it is mirrored: the bar starts at 670, the interval
    at 730. *)
Theorem C70_mirrored_refuted : ~ (forall index e meter a b expected s stop err up k,
  length index = length meter -> noinf meter -> noinf (e_energy e) -> length (e_energy e) = length meter -> length (e_power e) = length meter -> (a <= b < length meter)%nat ->
  expected = sum_rows (known_at (e_energy e)) a b -> meter_before meter a (Fin s) -> nth_error meter b = Some (Fin stop) ->
  bound_at (e_lower e) (Z.of_nat (daylight_rows (e_power e) a b)) err -> bound_at (e_upper e) (Z.of_nat (daylight_rows (e_power e) a b)) up -> 0 <= expected -> err <= up ->
  mark_outage index (e_energy e) (outage_info e meter (a, b)) = Ok k -> bar_from k (s + (1 + err) * expected) (s + (1 + up) * expected)).
Proof.
  intros H. destruct (C70_hypotheses (qf 1 10) (qf 2 10)) as (H1 & H2 & H3 & H4 & H5 & H6 & H7 & H8 & H9 & H10 & H11).
  destruct (mark_outage clock energies (outage_info (with_bounds (qf 1 10) (qf 2 10)) meter (5, 7)%nat)) as [k | x] eqn:E; [| vm_compute in E; discriminate].
  destruct (H clock (with_bounds (qf 1 10) (qf 2 10)) meter 5%nat 7%nat (qz 300) (qz 400) (qz 400) (qf 1 10) (qf 2 10) k H1 H2 H3 H4 H5 H6 H7 H8 H9 H10 H11 ltac:(discriminate) ltac:(discriminate) E) as (v & d & u & E1 & E2 & _ & E3 & _).
  assert (match mark_outage clock energies (outage_info (with_bounds (qf 1 10) (qf 2 10)) meter (5, 7)%nat) with Ok k => number (k_energy k) = Some 700%Q /\ number (k_below k) = Some 30%Q | Raise _ => False end) as K by (vm_compute; split; reflexivity).
  rewrite E, E1, E2 in K. cbn [number] in K. destruct K as [K1 K2]. assert (v = qz 700) as -> by (apply Qc_is_canon; injection K1 as ->; reflexivity). assert (d = qz 30) as -> by (apply Qc_is_canon; injection K2 as ->; reflexivity). vm_compute in E3. discriminate.
Qed.
Print Assumptions C70_mirrored_refuted.

(** Not true: that after a run that failed the figure is still the one of the run before.  The
    expected production is that of the failed run: the curve ends at 760, the bar still has the
    lengths that belong to 707.5. *)
Theorem C70_failed_refuted : ~ (forall p g g' s r e, length (p_expected p) = length (p_index p) -> run_of p g = Ok r -> run_of p g' = Raise e ->
  plot_object p (fst (run_object p g' (fst (run_object p g s)))) = plot_object p (fst (run_object p g s))).
Proof.
  intros H. assert (marks (plot_object site (fst (run_object site strict after_first))) = marks (plot_object site after_first)) as K; [| vm_compute in K; discriminate].
  assert (run_of site defaults = Ok demo_result) as R1 by (vm_compute; reflexivity). assert (run_of site strict = Raise ValueError) as R2 by (vm_compute; reflexivity).
  pose proof (H site defaults strict fresh demo_result ValueError eq_refl R1 R2) as E. unfold after_first. exact (f_equal marks E).
Qed.
Print Assumptions C70_failed_refuted.
Example C70_failed : marks (plot_object site (fst (run_object site strict after_first))) = [([Some 520; Some 640; Some 760], 7%Z, (Some 760, Some (15 # 2), Some (69 # 5)))]%Q.
Proof. vm_compute; reflexivity. Qed.

Print Assumptions C70_outage.
Print Assumptions C70_type.
Print Assumptions C70_run.
Print Assumptions C70_object.
Print Assumptions C70_history.
Print Assumptions C70_before.
Print Assumptions C70_staged.
