(** C62: cleaning events of the Kalman fit *)

From Coq Require Import QArith Qcanon List ZArith Bool Arith Lia Permutation Sorted.
From Verif.Base Require Import QcExtra ISort Quantile Fl TimeSeries Calendar Rolling.
From Verif.Spec Require Import Stats Theil Filters Soiling Cods TrackingSetup Tracking TrackingFit.
From Verif.Model Require Import Soiling CodsTools CodsKalman.
From Verif.Proofs Require Import FlP SoilP KalP1 KalP2 KalP3 KalP4 KalP5 KalP6 KalP7.
Import ListNotations.
Open Scope list_scope.
Open Scope Qc_scope.

(** Events to begin with. *)
Theorem C62_first : forall zs p, noinf zs ->
  (forall first, first_events zs p = Ok first -> first_found zs p first) /\
  (match p with Some b => (4 < count_true b)%nat -> List.length b = List.length zs | None => True end -> (11 <= List.length zs)%nat -> exists first, first_events zs p = Ok first) /\
  (forall b, p = Some b -> (4 < count_true b)%nat -> List.length b <> List.length zs -> first_events zs p = Raise ValueError) /\
  ((forall b, p = Some b -> (count_true b <= 4)%nat) -> (List.length zs < 11)%nat -> first_events zs p = Raise ValueError).
Proof. exact first_model. Qed.

(** Events for the next run. *)
Theorem C62_kept : forall k r levels rates prune limit, level r = map Fin levels -> rate r = map Fin rates -> ks_prune k = Fin prune -> ks_max_rate k = Fin limit ->
  (forall next, keep_events k r = Ok next -> kept_events prune limit levels rates (kr_events r) next) /\ ((9 <= List.length rates)%nat -> exists next, keep_events k r = Ok next).
Proof. exact kept_spec. Qed.

(** The same with the failure for fewer than nine rows. *)
Theorem C62_short : forall k r levels rates prune limit, level r = map Fin levels -> rate r = map Fin rates -> ks_prune k = Fin prune -> ks_max_rate k = Fin limit ->
  exists kept fast, (kr_events r = [] /\ kept = [] \/ kr_events r <> [] /\ plausible prune levels (kr_events r) kept) /\ too_fast limit rates fast /\
  let many := (2 <= List.length (filter (fun b => b) fast))%nat in
  (~ many -> keep_events k r = Ok kept) /\
  (many -> (9 <= List.length rates)%nat -> exists more out, collapsed 4 fast (map Fin rates) more /\ keep_events k r = Ok out /\ StronglySorted le out /\
     Permutation out (kept ++ filter (fun i => nth i more false) (seq 0 (List.length more)))) /\
  (many -> (List.length rates < 9)%nat -> keep_events k r = Raise ValueError).
Proof. exact keep_model. Qed.

(** During a run events never become more; new ones are the rows of the largest steps around an event; events near the ends stay; known changes of the level happen only on rows that are events at the end or soiling events. *)
Theorem C62_pass : forall v R med soiling start zs nows us events, pass v R med soiling start zs nows us events ->
  let n := List.length zs in let first := nth 0 events [] in let last := nth n events [] in
  (List.length last <= List.length first)%nat /\
  (forall j, In j last -> In j first \/ exists i, (7 < i /\ i + 7 < n)%nat /\ j <> i /\ biggest_step med i j /\ 0 < step_into med j) /\
  (forall j, In j first -> (j <= 7 \/ n <= j + 7)%nat -> In j last) /\
  (forall k, nth k us 0 <> 0 -> (7 < k /\ k + 7 < n)%nat /\ (In k last \/ In k soiling) /\
     exists before, nth k us 0 = nth (k + 3) med 0 - level_ahead (fst before) /\ In before nows /\ R < qz 4 * (nth k us 0 * nth k us 0)).
Proof. exact pass_events. Qed.

(** Medians with a step of 4 into row 10.  The event on row 8 moves there; an event on row 10 with a jump of at least half the deviation stays; otherwise it goes. *)
Definition with_step : list Qc := map qz [6; 6; 6; 6; 6; 6; 6; 6; 5; 5; 9; 9; 9; 9; 9; 9; 9; 9]%Z.
Definition at_level (l : Qc) : filter_state := FS (Vec (Fin l) (fz 0)) ident.
Example C62_example :
  control_input (noise_of 1 1) (at_level (qz 5)) (local_medians (map Fin with_step) 8) 8 [8]%nat = (fz 0, [10]%nat) /\
  control_input (noise_of 1 1) (at_level (qz 5)) (local_medians (map Fin with_step) 10) 10 [10]%nat = (fz 4, [10]%nat) /\
  control_input (noise_of 1 1) (at_level (qz 9)) (local_medians (map Fin with_step) 10) 10 [10]%nat = (fz 0, []) /\
  control_input (noise_of 1 1) (at_level (qz 5)) (local_medians (map Fin with_step) 8) 8 [8; 10]%nat = (fz 0, [10]%nat).
Proof. split; [fcompute|]. split; [fcompute|]. split; fcompute. Qed.
Example C62_biggest : biggest_step with_step 8 10 /\ 0 < step_into with_step 10.
Proof.
  split; [|reflexivity]. split; [lia|]. intros k H. assert (D : (k = 4 \/ k = 5 \/ k = 6 \/ k = 7 \/ k = 8 \/ k = 9 \/ k = 10 \/ k = 11 \/ k = 12 \/ k = 13)%nat) by lia.
  repeat (destruct D as [->|D]; [split; [intros C; discriminate C|intros C; (reflexivity || (exfalso; lia))]|]). subst k. split; [intros C; discriminate C|intros C; exfalso; lia].
Qed.
(** Levels fall after the event on row 1, below the fence of two others; rates above 1 on rows 3 and 4 give an event. *)
Definition few : kalman_run := Run (map (fun p => FS (Vec (fz (fst p)) (fz (snd p))) ident) (combine [9; 2; 2; 2; 2; 2; 2; 2; 9; 9; 9; 9; 9; 9; 9; 9; 9; 9]%Z [0; 0; 0; 3; 2; 0; 0; 0; 0; 0; 0; 0; 0; 0; 0; 0; 0; 0]%Z)) [1; 8; 9; 10; 11]%nat (fz 1) (fz 1).
Definition keep_setup (limit : fl) : kalman_setup := Setup [] (noise_of 1 1) (fz 0) (fz 0) [] [] (fz 1) limit false None false.
Example C62_keeps : keep_events (keep_setup (fz 1)) few = Ok [3; 8; 9; 10; 11]%nat /\ keep_events (keep_setup (fz 2)) few = Ok [8; 9; 10; 11]%nat.
Proof. split; vm_compute; reflexivity. Qed.
Example C62_begin : first_events (map fz [1; 1; 1; 1; 1; 1; 1; 1; 1; 1; 1; 9; 9; 9; 9; 9; 9; 9; 9; 9; 9; 9]%Z) None = Ok [11]%nat /\
  first_events (map fz [1; 1; 1]%Z) (Some [true; true; true; true; true]) = Raise ValueError /\ first_events (map fz [1; 1; 1]%Z) None = Raise ValueError /\
  first_events (map fz [1; 1; 1; 1; 1; 1]%Z) (Some [true; true; true; true; false; true]) = Ok [0; 1; 2; 3; 5]%nat.
Proof. split; [vm_compute; reflexivity|]. split; [|split]; vm_compute; reflexivity. Qed.

Print Assumptions C62_first.
Print Assumptions C62_kept.
Print Assumptions C62_short.
Print Assumptions C62_pass.
