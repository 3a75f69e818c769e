(** C90: the order of the subsystems in an availability analysis *)

From Coq Require Import QArith Qcanon List ZArith Bool Arith Lia Permutation Sorted.
From Verif.Base Require Import QcExtra ISort Quantile Fl TimeSeries Calendar Rolling.
From Verif.Spec Require Import Availability Reorder.
From Verif.Model Require Import Utilities Energy Clipping Availability AvailabilityPlots.
From Verif.Proofs Require Import AvailP16.
Import ListNotations.
Open Scope list_scope.
Open Scope Qc_scope.

(** The reporting mask of another order of the subsystems is the mask in that order; the loss is the same. *)
Theorem C90_loss : forall n p, an_order n p -> forall low sizes limits power rows, one_each n low -> one_each n sizes -> Forall (fun r => length r = n) rows ->
  calc_loss_subsystem n (option_map (reorder NaN p) low) (option_map (reorder NaN p) sizes) limits power (map (reorder NaN p) rows) =
  (map (reorder false p) (fst (calc_loss_subsystem n low sizes limits power rows)), snd (calc_loss_subsystem n low sizes limits power rows)).
Proof. exact calc_reorder. Qed.

(** All other results of run, and its exceptions, are the same. *)
Theorem C90_run : forall n p, an_order n p -> forall freq index system rows meter expected low sizes limits quantiles period,
  one_each n low -> one_each n sizes -> Forall (fun r => length r = n) rows ->
  run freq index n system (map (reorder NaN p) rows) meter expected (option_map (reorder NaN p) low) (option_map (reorder NaN p) sizes) limits quantiles period =
  bind (run freq index n system rows meter expected low sizes limits quantiles period) (fun r => Ok (relabelled p r)).
Proof. exact run_reorder. Qed.

(** The object is left in the same state, also after an exception. *)
Theorem C90_object : forall n p, an_order n p -> forall (q : plant) (g : run_options) (s : attributes), p_count q = n -> one_each n (g_low g) -> one_each n (g_sizes g) -> Forall (fun r => length r = n) (p_subsystem q) ->
  run_object (Plant (p_freq q) (p_index q) n (p_system q) (map (reorder NaN p) (p_subsystem q)) (p_meter q) (p_expected q))
    (RunOptions (option_map (reorder NaN p) (g_low g)) (option_map (reorder NaN p) (g_sizes g)) (g_limits g) (g_quantiles g) (g_period g)) s = run_object q g s.
Proof. exact object_reorder. Qed.

(** The figure differs only in the order of the subsystem curves. *)
Theorem C90_plot : forall p, forall (q : plant) (s : attributes),
  plot_object (Plant (p_freq q) (p_index q) (p_count q) (p_system q) (map (reorder NaN p) (p_subsystem q)) (p_meter q) (p_expected q)) s =
  bind (plot_object q s) (fun f => Ok (AvailabilityFigure (v_system f) (map (fun r => (fst r, (reorder NaN p) (snd r))) (v_subsystems f)) (v_lost f) (v_meter f) (v_outages f))).
Proof. exact plot_reorder. Qed.

(** With given thresholds and sizes a row is judged by itself: records can be cut at any row. *)
Theorem C90_local : forall n thr sizes power power' rows rows' limits limits',
  length rows = length power -> length limits = length power ->
  calc_loss_subsystem n (Some thr) (Some sizes) (Some (limits ++ limits')) (power ++ power') (rows ++ rows') =
    (fst (calc_loss_subsystem n (Some thr) (Some sizes) (Some limits) power rows) ++ fst (calc_loss_subsystem n (Some thr) (Some sizes) (Some limits') power' rows'),
     snd (calc_loss_subsystem n (Some thr) (Some sizes) (Some limits) power rows) ++ snd (calc_loss_subsystem n (Some thr) (Some sizes) (Some limits') power' rows')) /\
  calc_loss_subsystem n (Some thr) (Some sizes) None (power ++ power') (rows ++ rows') =
    (fst (calc_loss_subsystem n (Some thr) (Some sizes) None power rows) ++ fst (calc_loss_subsystem n (Some thr) (Some sizes) None power' rows'),
     snd (calc_loss_subsystem n (Some thr) (Some sizes) None power rows) ++ snd (calc_loss_subsystem n (Some thr) (Some sizes) None power' rows')).
Proof. exact calc_local. Qed.

(** Three inverters for ten hours; the second stops for two hours and all stop at the end of the morning. *)
Definition hour : Z := 3600000000000%Z.
Definition inverters : list (list fl) :=
  map (fun r => [fz (fst (fst r)); fz (snd (fst r)); fz (snd r)])
    [(4, 8, 4); (5, 10, 5); (6, 12, 6); (6, 0, 6); (5, 0, 5); (5, 10, 5); (0, 0, 0); (5, 10, 5); (4, 8, 4); (4, 8, 4)]%Z.
Definition system : list fl := map fz [16; 20; 24; 12; 10; 20; 0; 20; 16; 16]%Z.
Definition hoped : list fl := map fz [16; 20; 24; 24; 20; 20; 22; 20; 16; 16]%Z.
Definition meter : list fl := map fz [16; 36; 60; 72; 82; 102; 102; 122; 138; 154]%Z.
Definition hours : list Z := map (fun k => (hour * k)%Z) [1; 2; 3; 4; 5; 6; 7; 8; 9; 10]%Z.
Notation study rows low sizes := (run (Some hour) hours 3 system rows meter hoped low sizes None (qf 1 100, qf 99 100) (fun _ => 0%Z)).
Definition turned : list nat := [2; 0; 1]%nat.
Example C90_hypotheses : an_order 3 turned /\ Forall (fun r => length r = 3%nat) inverters /\ map (reorder NaN turned) inverters <> inverters.
Proof.
  split; [|split; [repeat constructor|discriminate]]. unfold an_order, turned. cbn [seq].
  apply Permutation_sym. apply (Permutation_cons_app [2%nat] [1%nat]). apply (Permutation_cons_app [2%nat] []). reflexivity.
Qed.
Example C90_applied : study (map (reorder NaN turned) inverters) None None = bind (study inverters None None) (fun r => Ok (relabelled turned r)).
Proof. exact (C90_run 3 turned (proj1 C90_hypotheses) (Some hour) hours system inverters meter hoped None None None (qf 1 100, qf 99 100) (fun _ => 0%Z) I I (proj1 (proj2 C90_hypotheses))). Qed.
Example C90_example : match study inverters None None with
  | Ok r => nth 3 (r_masks r) [] = [true; false; true] /\ nth 3 (r_masks (relabelled turned r)) [] = [true; true; false] /\
            r_loss_subsystem r = map fz [0; 0; 0; 12; 10; 0; 0; 0; 0; 0]%Z /\ length (r_outages r) = 1%nat
  | Raise _ => False end.
Proof. vm_compute. auto. Qed.

(** Replacing a subsystem by two with half its power each is not neutral: they count as smaller parts, so a smaller drop of the
    system is put down to them. *)
Definition halved (row : list fl) : list fl := match row with x :: r => fdiv x (fz 2) :: fdiv x (fz 2) :: r | [] => [] end.
Theorem C90_split_refuted : exists power rows, Forall (fun r => length r = 2%nat) rows /\
  snd (calc_loss_subsystem 2 None None None power rows) <> snd (calc_loss_subsystem 3 None None None power (map halved rows)).
Proof.
  exists (map fz [20; 20; 20; 16]%Z), [[fz 10; fz 10]; [fz 10; fz 10]; [fz 10; fz 10]; [fz 0; fz 10]].
  split; [repeat constructor|]. vm_compute. discriminate.
Qed.
Definition site : plant := Plant (Some hour) hours 3 system inverters meter hoped.
Definition settings : run_options := RunOptions (Some (map fz [1; 2; 1]%Z)) (Some [ff 3 4; ff 3 2; ff 3 4]) None (qf 1 100, qf 99 100) (fun _ => 0%Z).
Example C90_object_example :
  let q := Plant (Some hour) hours 3 system (map (reorder NaN turned) inverters) meter hoped in
  let g := RunOptions (Some (map fz [1; 1; 2]%Z)) (Some [ff 3 4; ff 3 4; ff 3 2]) None (qf 1 100, qf 99 100) (fun _ => 0%Z) in
  let s := fst (run_object site settings fresh) in
  run_object q g fresh = (s, Ok tt) /\
  match plot_object site s, plot_object q s with
  | Ok f, Ok f' => map snd (firstn 2 (v_subsystems f)) = [map fz [4; 8; 4]%Z; map fz [5; 10; 5]%Z] /\ map snd (firstn 2 (v_subsystems f')) = [map fz [4; 4; 8]%Z; map fz [5; 5; 10]%Z]
  | _, _ => False end.
Proof. cbv zeta. vm_compute. auto. Qed.
Example C90_local_example :
  snd (calc_loss_subsystem 3 (g_low settings) (g_sizes settings) None (firstn 4 system) (firstn 4 inverters)) = map fz [0; 0; 0; 12]%Z /\
  snd (calc_loss_subsystem 3 (g_low settings) (g_sizes settings) None (skipn 4 system) (skipn 4 inverters)) = map fz [10; 0; 0; 0; 0; 0]%Z.
Proof. split; vm_compute; reflexivity. Qed.
Print Assumptions C90_split_refuted.

Print Assumptions C90_loss.
Print Assumptions C90_run.
Print Assumptions C90_object.
Print Assumptions C90_plot.
Print Assumptions C90_local.
