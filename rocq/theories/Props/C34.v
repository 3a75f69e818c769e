(** C34: loss of single subsystems *)

From Coq Require Import QArith Qcanon List ZArith Bool Arith Lia Permutation Sorted.
From Verif.Base Require Import QcExtra ISort Quantile Fl TimeSeries Calendar Rolling.
From Verif.Spec Require Import Stats Interp Energy Availability.
From Verif.Model Require Import Energy Clipping Availability.
From Verif.Proofs Require Import AvailP AvailP2 AvailP3 AvailP4 AvailP5 AvailP6 AvailP7 AvailP8 AvailP9 AvailP10 AvailP11 AvailP12.
Import ListNotations.
Open Scope list_scope.
Open Scope Qc_scope.

(** Every row has its mask and a finite loss, as specified. *)
Theorem C34_loss : forall n low_threshold relative_sizes limits power rows thr sizes,
  frame n rows -> rows <> [] -> noinf power -> length power = length rows ->
  match limits with Some l => length l = length rows | None => True end ->
  length thr = n -> is_threshold low_threshold (data rows) thr ->
  length sizes = n -> is_size relative_sizes (data rows) thr sizes ->
  match relative_sizes with None => Forall (fun t => 0 <= t) thr | Some _ => forall s, In (Some s) sizes -> 0 < s end ->
  exists masks loss, calc_loss_subsystem n low_threshold relative_sizes limits power rows = (masks, map Fin loss) /\
    length masks = length rows /\ length loss = length rows /\
    forall i row, nth_error (data rows) i = Some row ->
      let l := subsystems row thr sizes in
      nth_error masks i = Some (map onlineb l) /\
      exists p x, nth_error power i = Some p /\ nth_error loss i = Some x /\ loss_at l (limit_at limits i) p x.
Proof. exact loss_subsystem_spec. Qed.

(** No loss is negative, none happens with everything online, the system limit holds, and the
    fraction online lies between the share that reports and one. *)
Theorem C34_bounds : forall l, (forall u s, In u l -> s_size u = Some s -> 0 < s) -> forall limit power x, loss_at l limit power x ->
  0 <= x /\
  ((forall u, In u l -> online u) -> x = 0) /\
  (forall m, limit = Some (Fin m) -> noinf [power] -> power <> NaN -> x + system_power power <= qmax m (system_power power)) /\
  (limit = None -> x <> 0 -> exists f, online_share l <= f /\ 0 < f /\ f <= 1 /\ (x + system_power power) * f = system_power power).
Proof. exact loss_bounds. Qed.

(** Default thresholds and sizes exist. *)
Theorem C34_thresholds : forall n D, D <> [] -> exists thr, length thr = n /\ is_threshold None D thr.
Proof. exact thresholds_exist. Qed.

Theorem C34_sizes : forall n D thr, exists sizes, length sizes = n /\ is_size None D thr sizes.
Proof. exact sizes_exist. Qed.

Theorem C34_sizes_positive : forall D thr sizes s, Forall (fun t => 0 <= t) thr -> full_rows (length thr) D -> length sizes = length thr ->
  is_size None D thr sizes -> In (Some s) sizes -> 0 < s.
Proof. exact sizes_positive. Qed.

(** Fourteen hours, two inverters; nothing reports at rows 5 to 7, one does not at row 10. *)
Definition hour : Z := 3600000000000.
Definition clock : list Z := evenly 0 hour 14.
Definition whole (l : list Z) : list fl := map fz l.
Definition inverters : list (list fl) := map whole
  [[0; 0]; [50; 50]; [50; 50]; [50; 50]; [50; 50]; [0; 0]; [0; 0]; [0; 0]; [50; 50]; [50; 50]; [50; 0]; [50; 50]; [50; 50]; [0; 0]]%Z.
Definition system : list fl := whole [0; 100; 100; 100; 100; 0; 0; 0; 100; 100; 50; 100; 100; 0]%Z.
Definition expected_power : list fl := whole [0; 10; 10; 10; 10; 10; 10; 10; 10; 10; 10; 10; 10; 0]%Z.
Definition meter : list fl := whole [0; 100; 200; 300; 400; 400; 400; 400; 500; 600; 650; 750; 850; 850]%Z.
Definition seven_hours (t : Z) : Z := (t / (7 * hour))%Z.
Definition demo_run : result availability_result :=
  run None clock 2 system inverters meter expected_power None None None (qf 1 100, qf 99 100) seven_hours.
Definition demo_masks : list (list bool) := fst (calc_loss_subsystem 2 None None None system inverters).
Definition demo_error : expectation :=
  Expectation (map (fmul (fz 10)) expected_power) (NaN :: tl (map (fmul (fz 10)) expected_power)) [(2%Z, ff (-1) 10); (4%Z, ff (-1) 20)] [(2%Z, ff 1 10); (4%Z, ff 1 20)].

Lemma noinf_whole : forall l, noinf (whole l).
Proof. intros l x Hx. unfold whole in Hx. apply in_map_iff in Hx. destruct Hx as (z & <- & _). split; discriminate. Qed.

(** Half of the system is lost at row 10; with a limit of 80 only 30 are. *)
Example C34_example :
  calc_loss_subsystem 2 None None None system inverters =
    (map (map (fun x => fgt x (fz 0))) inverters, whole [0; 0; 0; 0; 0; 0; 0; 0; 0; 0; 50; 0; 0; 0]%Z) /\
  snd (calc_loss_subsystem 2 None None (Some (map (fun _ => fz 80) system)) system inverters) = whole [0; 0; 0; 0; 0; 0; 0; 0; 0; 0; 30; 0; 0; 0]%Z.
Proof. split; fcompute. Qed.

(** Missing values: the second inverter reports nothing at row 1, and the system nothing at row 2. *)
Example C34_missing :
  snd (calc_loss_subsystem 2 (Some [fz 1; fz 1]) (Some [ff 3 2; ff 1 2]) None [fz 40; fz 30; NaN] [[fz 30; fz 10]; [fz 30; NaN]; [fz 30; NaN]]) =
    [fz 0; fz 10; fz 0].
Proof. fcompute. Qed.

Example C34_hypotheses : frame 2 inverters /\ noinf system /\ length system = length inverters /\
  is_threshold (Some [fz 1; fz 1]) (data inverters) [1; 1] /\ is_size (Some [fz 1; fz 1]) (data inverters) [1; 1] [Some 1; Some 1].
Proof.
  split; [| split; [apply noinf_whole | repeat split]]. intros r Hr. unfold inverters in Hr. apply in_map_iff in Hr. destruct Hr as (l & <- & Hl).
  split; [| apply noinf_whole]. repeat (destruct Hl as [<- | Hl]; [reflexivity |]). destruct Hl.
Qed.

Print Assumptions C34_loss.
Print Assumptions C34_bounds.
Print Assumptions C34_thresholds.
Print Assumptions C34_sizes.
Print Assumptions C34_sizes_positive.
