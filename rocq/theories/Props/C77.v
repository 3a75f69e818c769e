(** C77: only equipment that stops costs availability *)

From Coq Require Import QArith Qcanon List ZArith Bool Arith Lia Permutation Sorted.
From Verif.Base Require Import QcExtra ISort Quantile Fl TimeSeries Calendar Rolling.
From Verif.Spec Require Import Stats Energy Availability Available.
From Verif.Model Require Import Energy Availability.
From Verif.Proofs Require Import AvailP14.
Import ListNotations.
Open Scope list_scope.
Open Scope Qc_scope.

(** Whatever the times, powers, sizes and limits: equipment that keeps running in daylight loses nothing. *)
Theorem C77_nothing_lost : forall k low sizes limits power expected rows thr,
  frame k rows -> rows <> [] -> length power = length rows -> match limits with Some l => length l = length rows | None => True end ->
  length thr = k -> is_threshold low (data rows) thr -> keeps_running thr rows expected ->
  (0 < k)%nat -> forall freq index cum quantiles period r,
  run freq index k power rows cum expected low sizes limits quantiles period = Ok r ->
  r_outages r = [] /\ r_loss_subsystem r = map (fun _ => Fin 0) power /\ r_loss_system r = map (fun _ => Fin 0) index /\ r_corrected r = cum.
Proof. exact nothing_lost. Qed.

(** At even times the analysis needs four rows that produce; no other availability than one is reported, and one exactly for the periods with a known change of the meter. *)
Theorem C77_available : forall freq t0 w n k power rows cum expected low sizes limits q1 q2 period thr,
  (0 < w)%Z -> (2 <= n)%nat -> (0 < k)%nat -> (forall s t, (s <= t)%Z -> (period s <= period t)%Z) ->
  frame k rows -> length rows = n -> length power = n -> length cum = n -> length expected = n ->
  match limits with Some l => length l = n | None => True end ->
  noinf power -> noinf cum -> noinf expected -> 0 <= q1 -> q1 <= 1 -> 0 <= q2 -> q2 <= 1 ->
  length thr = k -> is_threshold low (data rows) thr -> keeps_running thr rows expected ->
  let time i := (t0 + w * Z.of_nat i)%Z in
  let outcome := run freq (evenly t0 w n) k power rows cum expected low sizes limits (q1, q2) period in
  (producing power expected = 0%nat -> outcome = Raise IndexError) /\
  ((0 < producing power expected < 4)%nat -> outcome = Raise ValueError) /\
  ((4 <= producing power expected)%nat -> exists r, outcome = Ok r /\
    r_outages r = [] /\ r_corrected r = cum /\
    StronglySorted Z.lt (map fst (r_results r)) /\
    (forall p, In p (map fst (r_results r)) <-> (period t0 <= p <= period (time (n - 1)%nat))%Z) /\
    forall p l a v, In (p, (l, a, v)) (r_results r) ->
      l = (if (p <? period (time 1%nat))%Z then NaN else Fin 0) /\
      meter_change cum (fun i => (period (time i) =? p)%Z) a /\
      (v = Fin 1 \/ v = NaN) /\
      (v = Fin 1 <-> (period (time 1%nat) <= p)%Z /\ exists x, a = Fin x /\ x <> 0)).
Proof. exact full_availability. Qed.

(** Eight hours, dark at both ends; two unequal inverters whose powers vary, one reading is
    missing in the dark, and the limit of the system is below some powers. *)
Definition clock : list Z := evenly 0 3600000000000 8.
Definition whole (l : list Z) : list fl := map fz l.
Definition inverters : list (list fl) := [whole [0; 0]; whole [10; 15]; whole [40; 61]; whole [50; 70]; whole [45; 70]; whole [20; 31]; whole [2; 3]; [fz 0; NaN]]%Z.
Definition system : list fl := whole [0; 25; 101; 120; 115; 51; 5; 0]%Z.
Definition expected_power : list fl := whole [0; 20; 120; 120; 110; 60; 2; 0]%Z.
Definition meter : list fl := whole [1000; 1025; 1126; 1246; 1361; 1412; 1417; 1417]%Z.
Definition limit : list fl := map (fun _ => fz 110) system.
Definition four_hours (t : Z) : Z := (t / (4 * 3600000000000))%Z.
Definition day : result availability_result :=
  run None clock 2 system inverters meter expected_power (Some [fz 1; fz 1]) None (Some limit) (qf 1 100, qf 99 100) four_hours.

Example C77_hypotheses : keeps_running [qz 1; qz 1] inverters expected_power /\ producing system expected_power = 6%nat.
Proof.
  split; [| vm_compute; reflexivity]. intros i row H.
  destruct i as [| [| [| [| [| [| [| [| i]]]]]]]]; cbn in H; try (injection H as <-); try (destruct i; discriminate).
  - right. split; [repeat constructor; discriminate |]. exists (fz 0). split; [reflexivity |]. split; [discriminate |]. intros q E. injection E as <-. discriminate.
  - left. repeat constructor.
  - left. repeat constructor.
  - left. repeat constructor.
  - left. repeat constructor.
  - left. repeat constructor.
  - left. repeat constructor.
  - right. split; [repeat constructor; discriminate |]. exists (fz 0). split; [reflexivity |]. split; [discriminate |]. intros q E. injection E as <-. discriminate.
Qed.

Example C77_example : match day with
  | Ok r => r_outages r = [] /\ r_corrected r = meter /\
            forallb (fun x => feq (fst (fst (snd (fst x)))) (fz 0) && feq (snd (fst (snd (fst x)))) (snd x) && feq (snd (snd (fst x))) (fz 1))
                    (combine (r_results r) [fz 246; fz 56]) = true /\ List.length (r_results r) = 2%nat
  | Raise _ => False end.
Proof. vm_compute. auto. Qed.

Print Assumptions C77_nothing_lost.
Print Assumptions C77_available.
