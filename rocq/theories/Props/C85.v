(** C85: A system that gives exactly what is expected of it, or nothing *)

From Coq Require Import QArith Qcanon List ZArith Bool Arith Lia Permutation Sorted.
From Verif.Base Require Import QcExtra ISort Quantile Fl TimeSeries Calendar Rolling.
From Verif.Spec Require Import Stats Energy Availability Available Outages.
From Verif.Model Require Import Energy Availability.
From Verif.Proofs Require Import AvailP15.
Import ListNotations.
Open Scope list_scope.
Open Scope Qc_scope.

(** With an exact expectation the error bounds are zero: the outages are the runs of rows that failed or are separated from a failed row by darkness only, each is charged with the energy it missed, and a meter that moved in it by less makes it real. *)
Theorem C85_outages : forall freq t0 w n k low sizes limits power cum expected rows thr c q q1 q2 period,
  (0 < w)%Z -> (2 <= n)%nat -> (0 < k)%nat -> frame k rows -> length rows = n -> length power = n -> length cum = n -> length expected = n ->
  match limits with Some l => length l = n | None => True end -> noinf cum ->
  (forall i, (i < n)%nat -> nth_error expected i = Some (Fin (q i))) -> (forall i, (i < n)%nat -> 0 <= q i) ->
  0 <= q1 -> q1 <= 1 -> 0 <= q2 -> q2 <= 1 ->
  length thr = k -> is_threshold low (data rows) thr -> 0 < c -> exactly_or_not thr rows c q power -> (4 <= producing power expected)%nat ->
  (forall a b, down_from_to thr rows q a b -> exists i, (a < i <= b)%nat /\ 0 < q i) -> (forall s t, (s <= t)%Z -> (period s <= period t)%Z) ->
  exists r, run freq (evenly t0 w n) k power rows cum expected low sizes limits (q1, q2) period = Ok r /\
  r_loss_subsystem r = map (fun _ => Fin 0) power /\
  e_power (r_expectation r) = map (fun i => Fin (c * q i)) (seq 0 n) /\
  (let places := map (fun o => (o_start o, o_end o)) (r_outages r) in
   in_order places /\ forall a b, In (a, b) places <-> down_from_to thr rows q a b) /\
  length (r_loss_system r) = n /\ length (r_corrected r) = n /\ noinf (r_loss_system r) /\ noinf (r_corrected r) /\
  (forall i, (i < n)%nat -> ~ down thr rows q i -> nth_error (r_loss_system r) i = Some (Fin 0) /\ nth_error (r_corrected r) i = nth_error cum i) /\
  forall o, In o (r_outages r) -> let a := o_start o in let b := o_end o in let E := missed (hours w) c q a b in
    forall start stop, meter_before cum a start -> nth_error cum b = Some stop ->
    0 < E /\ o_expected o = Fin E /\ o_ci_lower o = Fin E /\ o_ci_upper o = Fin E /\
    ((unknown_outage E start stop /\ o_type o = Unknown /\ o_loss o = NaN /\ blank a b (r_loss_system r) (r_corrected r)) \/
     (exists s t, start = Fin s /\ stop = Fin t /\ - (qf 5 100 * E) <= t - s /\ t - s < E /\ o_type o = Real /\ o_loss o = Fin (E - (t - s)) /\
        rebuilt (hours w) q a b (E - (t - s)) (t - s) s (r_loss_system r) (r_corrected r)) \/
     (exists s t, start = Fin s /\ stop = Fin t /\ E <= t - s /\ o_type o = Comms /\ o_loss o = Fin 0 /\
        rebuilt (hours w) q a b 0 (t - s) s (r_loss_system r) (r_corrected r))).
Proof. exact exact_outages. Qed.

(** With a meter that counts what is given every outage is real and costs all it missed; the power lost is reported larger by the ratio of the energy with and without the first row. *)
Theorem C85_meter : forall freq t0 w n k low sizes limits power cum expected rows thr c q q1 q2 period,
  (0 < w)%Z -> (2 <= n)%nat -> (0 < k)%nat -> frame k rows -> length rows = n -> length power = n -> length cum = n -> length expected = n ->
  match limits with Some l => length l = n | None => True end -> noinf cum ->
  (forall i, (i < n)%nat -> nth_error expected i = Some (Fin (q i))) -> (forall i, (i < n)%nat -> 0 <= q i) ->
  0 <= q1 -> q1 <= 1 -> 0 <= q2 -> q2 <= 1 ->
  length thr = k -> is_threshold low (data rows) thr -> 0 < c -> exactly_or_not thr rows c q power -> (4 <= producing power expected)%nat ->
  (forall a b, down_from_to thr rows q a b -> exists i, (a < i <= b)%nat /\ 0 < q i) -> (forall s t, (s <= t)%Z -> (period s <= period t)%Z) ->
  forall m, (forall i, (i < n)%nat -> nth_error cum i = Some (Fin (m i))) -> counts (hours w) power m ->
  (forall i row p, nth_error rows i = Some row -> all_off thr row -> nth_error power i = Some (Fin p) -> p = 0) -> ~ down thr rows q 0 ->
  exists r, run freq (evenly t0 w n) k power rows cum expected low sizes limits (q1, q2) period = Ok r /\
  r_loss_subsystem r = map (fun _ => Fin 0) power /\
  length (r_loss_system r) = n /\ length (r_corrected r) = n /\ noinf (r_loss_system r) /\ noinf (r_corrected r) /\
  (forall a b, In (a, b) (map (fun o => (o_start o, o_end o)) (r_outages r)) <-> down_from_to thr rows q a b) /\
  (forall o, In o (r_outages r) -> o_type o = Real /\ o_loss o = Fin (missed (hours w) c q (o_start o) (o_end o))) /\
  (forall i, (i < n)%nat -> ~ down thr rows q i -> nth_error (r_loss_system r) i = Some (Fin 0) /\ nth_error (r_corrected r) i = Some (Fin (m i))) /\
  forall a b i, down_from_to thr rows q a b -> (a <= i <= b)%nat ->
    nth_error (r_loss_system r) i = Some (Fin (c * q i * (missed (hours w) c q a b / missed (hours w) c q (S a) b))) /\
    nth_error (r_corrected r) i = Some (if (i =? a)%nat then NaN else Fin (m i)).
Proof. exact honest_run. Qed.

(** If every outage starts in the dark, the production lost in each period is what was expected and not given, and the total is what was expected minus what was metered. *)
Theorem C85_total : forall freq t0 w n k low sizes limits power cum expected rows thr c q q1 q2 period,
  (0 < w)%Z -> (2 <= n)%nat -> (0 < k)%nat -> frame k rows -> length rows = n -> length power = n -> length cum = n -> length expected = n ->
  match limits with Some l => length l = n | None => True end -> noinf cum ->
  (forall i, (i < n)%nat -> nth_error expected i = Some (Fin (q i))) -> (forall i, (i < n)%nat -> 0 <= q i) ->
  0 <= q1 -> q1 <= 1 -> 0 <= q2 -> q2 <= 1 ->
  length thr = k -> is_threshold low (data rows) thr -> 0 < c -> exactly_or_not thr rows c q power -> (4 <= producing power expected)%nat ->
  (forall a b, down_from_to thr rows q a b -> exists i, (a < i <= b)%nat /\ 0 < q i) -> (forall s t, (s <= t)%Z -> (period s <= period t)%Z) ->
  forall m, (forall i, (i < n)%nat -> nth_error cum i = Some (Fin (m i))) -> counts (hours w) power m ->
  (forall i row p, nth_error rows i = Some row -> all_off thr row -> nth_error power i = Some (Fin p) -> p = 0) -> ~ down thr rows q 0 ->
  (forall a b, down_from_to thr rows q a b -> q a = 0) ->
  exists r, run freq (evenly t0 w n) k power rows cum expected low sizes limits (q1, q2) period = Ok r /\
  let time i := (t0 + w * Z.of_nat i)%Z in
  let short i := (c * q i - known_at power i) * hours w in
  (forall p x a v, In (p, (x, a, v)) (r_results r) ->
    x = (if (p <? period (time 1%nat))%Z then NaN else Fin (sum_rows (fun i => if (period (time i) =? p)%Z then short i else 0) 1 (n - 1)))) /\
  qsum (map (fun y => known_or_0 (fst (fst (snd y)))) (r_results r)) = sum_rows (fun i => c * q i * hours w) 1 (n - 1) - (m (n - 1)%nat - m 0%nat).
Proof. exact lost_periods. Qed.

(** Ten hours, two inverters that give ten times what is expected; nothing runs from a dark hour on. *)
Definition hour : Z := 3600000000000.
Definition whole (l : list Z) : list fl := map fz l.
Definition expected_power : list fl := whole [2; 4; 0; 3; 5; 0; 3; 2; 1; 0]%Z.
Definition system : list fl := whole [20; 40; 0; 0; 0; 0; 30; 20; 10; 0]%Z.
Definition inverters : list (list fl) := map whole [[10; 10]; [15; 25]; [0; 0]; [0; 0]; [0; 0]; [0; 0]; [10; 20]; [10; 10]; [5; 5]; [0; 0]]%Z.
Definition meter : list fl := whole [100; 140; 140; 140; 140; 140; 170; 190; 200; 200]%Z.
Definition thr : list Qc := [qz 1; qz 1].
Definition q (i : nat) : Qc := known_at expected_power i.
Definition m (i : nat) : Qc := known_at meter i.
Definition five_hours (t : Z) : Z := (t / (5 * hour))%Z.
Definition demo : result availability_result :=
  run None (evenly 0 hour 10) 2 system inverters meter expected_power (Some (whole [1; 1]%Z)) None None (qf 1 100, qf 99 100) five_hours.

Example C85_example : match demo with
  | Ok r => map (fun o => (o_start o, o_end o)) (r_outages r) = [(2, 5)]%nat /\ map o_type (r_outages r) = [Real] /\
            forallb (fun x => feq (fst x) (snd x)) (combine (r_loss_system r) (whole [0; 0; 0; 30; 50; 0; 0; 0; 0; 0]%Z)) = true /\
            forallb (fun x => feq (fst (fst (snd (fst x)))) (snd x)) (combine (r_results r) (whole [80; 0]%Z)) = true /\ List.length (r_results r) = 2%nat
  | Raise _ => False end.
Proof. vm_compute. auto 8. Qed.

(** An outage that starts in daylight (at the row of 4) is charged with more than it cost: 120 are missed, 180 reported. *)
Example C85_daylight : match run None (evenly 0 hour 10) 2 (whole [20; 0; 0; 0; 0; 0; 30; 20; 10; 0]%Z) (map whole [[10; 10]; [0; 0]; [0; 0]; [0; 0]; [0; 0]; [0; 0]; [10; 20]; [10; 10]; [5; 5]; [0; 0]]%Z)
    (whole [100; 100; 100; 100; 100; 100; 130; 150; 160; 160]%Z) expected_power (Some (whole [1; 1]%Z)) None None (qf 1 100, qf 99 100) five_hours with
  | Ok r => qeq (qsum (map (fun o => known_or_0 (o_loss o)) (r_outages r))) (qz 120) && qeq (qsum (map (fun y => known_or_0 (fst (fst (snd y)))) (r_results r))) (qz 180)
  | Raise _ => false end = true.
Proof. vm_compute. reflexivity. Qed.

Lemma demo_rows : exactly_or_not thr inverters (qz 10) q system.
Proof.
  intros i row H. do 10 (destruct i as [| i]; [injection H as <-; eexists; (split; [reflexivity |]); first [left; split; [repeat constructor | split; [reflexivity | apply Qc_is_canon; reflexivity]] | right; split; [repeat constructor; discriminate | discriminate]] |]).
  destruct i; discriminate H.
Qed.
Lemma demo_failed : forall i, failed thr inverters q i -> (i = 3 \/ i = 4)%nat.
Proof.
  intros i (Q & row & E & A).
  do 10 (destruct i as [| i]; [first [left; reflexivity | right; reflexivity | exfalso; discriminate Q | exfalso; injection E as <-; inversion A as [| t x ts xs L _]; apply L; reflexivity] |]).
  destruct i; discriminate E.
Qed.
Lemma demo_down : forall i, down thr inverters q i <-> (2 <= i <= 5)%nat.
Proof.
  intros i. split.
  - intros (j & F & N). apply demo_failed in F. assert ((i <= 1)%nat -> q 1%nat <= 0) as K1 by (intros L; apply N; lia). assert ((6 <= i)%nat -> q 6%nat <= 0) as K2 by (intros L; apply N; lia).
    destruct (Nat.le_gt_cases i 1) as [L | L]; [destruct (K1 L); reflexivity |]. destruct (Nat.le_gt_cases 6 i) as [L' | L']; [destruct (K2 L'); reflexivity |]. lia.
  - intros L. assert (i = 2 \/ i = 3 \/ i = 4 \/ i = 5)%nat as [-> | [-> | [-> | ->]]] by lia.
    + exists 3%nat. split; [split; [reflexivity |]; eexists; split; [reflexivity | repeat constructor; discriminate] |]. intros k K. assert (k = 2)%nat as -> by lia. discriminate.
    + exists 3%nat. split; [split; [reflexivity |]; eexists; split; [reflexivity | repeat constructor; discriminate] |]. intros k K. lia.
    + exists 4%nat. split; [split; [reflexivity |]; eexists; split; [reflexivity | repeat constructor; discriminate] |]. intros k K. lia.
    + exists 4%nat. split; [split; [reflexivity |]; eexists; split; [reflexivity | repeat constructor; discriminate] |]. intros k K. assert (k = 5)%nat as -> by lia. discriminate.
Qed.
Lemma demo_run : forall a b, down_from_to thr inverters q a b -> a = 2%nat /\ b = 5%nat.
Proof.
  intros a b ((L1 & L2) & H & A & B). change (length inverters) with 10%nat in *. pose proof (proj1 (demo_down a) (H a ltac:(lia))). pose proof (proj1 (demo_down b) (H b ltac:(lia))). split.
  - destruct a as [| a]; [lia |]. destruct (Nat.eq_dec a 1) as [-> | D]; [reflexivity |]. destruct (A a eq_refl). apply demo_down. lia.
  - destruct (Nat.eq_dec b 5) as [-> | D]; [reflexivity |]. destruct (B ltac:(lia)). apply demo_down. lia.
Qed.

(** All hypotheses of C85_total together. *)
Example C85_applied : exists r, demo = Ok r /\ qsum (map (fun y => known_or_0 (fst (fst (snd y)))) (r_results r)) = qz 80.
Proof.
  destruct (C85_total None 0 hour 10 2 (Some (whole [1; 1]%Z)) None None system meter expected_power inverters thr (qz 10) q (qf 1 100) (qf 99 100) five_hours) with (m := m) as (r & E & _ & T).
  - reflexivity.
  - lia.
  - lia.
  - intros row H. repeat (destruct H as [<- | H]; [split; [reflexivity |]; intros x X; repeat (destruct X as [<- | X]; [split; discriminate |]); destruct X |]). destruct H.
  - reflexivity.
  - reflexivity.
  - reflexivity.
  - reflexivity.
  - exact I.
  - intros x X. unfold meter, whole in X. apply in_map_iff in X. destruct X as (z & <- & _). split; discriminate.
  - intros i Hi. do 10 (destruct i as [| i]; [reflexivity |]). lia.
  - intros i Hi. do 10 (destruct i as [| i]; [discriminate |]). lia.
  - discriminate.
  - discriminate.
  - discriminate.
  - discriminate.
  - reflexivity.
  - reflexivity.
  - reflexivity.
  - exact demo_rows.
  - vm_compute. lia.
  - intros a b H. destruct (demo_run a b H) as [-> ->]. exists 3%nat. split; [lia | reflexivity].
  - intros s t H. apply Z.div_le_mono; [reflexivity | exact H].
  - intros i Hi. do 10 (destruct i as [| i]; [reflexivity |]). lia.
  - intros i p H. do 9 (destruct i as [| i]; [injection H as <-; apply Qc_is_canon; reflexivity |]). destruct i; discriminate H.
  - intros i row p Er A P. do 10 (destruct i as [| i]; [injection P as <-; first [reflexivity | exfalso; injection Er as <-; inversion A as [| t x ts xs L _]; apply L; reflexivity] |]). destruct i; discriminate Er.
  - intros D. apply demo_down in D. lia.
  - intros a b H. destruct (demo_run a b H) as [-> ->]. reflexivity.
  - exists r. split; [exact E |]. rewrite T. apply Qc_is_canon. vm_compute. reflexivity.
Qed.

Print Assumptions C85_outages.
Print Assumptions C85_meter.
Print Assumptions C85_total.
