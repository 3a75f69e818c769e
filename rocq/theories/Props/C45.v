(** C45: the schedule of the CODS decomposition *)

From Coq Require Import QArith Qcanon List ZArith Bool Arith Lia Permutation Sorted.
From Verif.Base Require Import QcExtra ISort Quantile Fl TimeSeries Calendar Rolling.
From Verif.Spec Require Import Stats Soiling Cods Seasonal CodsRun.
From Verif.Model Require Import Soiling CodsTools CodsKalman Cods.
From Verif.Proofs Require Import FlP CodsP5 CodsP6.
Import ListNotations.
Open Scope list_scope.
Open Scope Qc_scope.
From Coq Require Import String.

(** The fits carried out are the scheduled ones, at most [max] of them, and stop at the first convergence. *)
Theorem C45_schedule : forall (St : Type) (step : string -> bool -> nat -> St -> result (St * fl)) (order : list string) (max : nat) (criterion : fl),
  (1 <= List.length order)%nat -> forall first st fits errors r,
  iterate step (List.length order) max criterion max 0 order true 0 [first] st = (fits, errors, r) ->
  run_of step order max criterion first st fits errors r.
Proof. exact (fun St => @run_schedule St). Qed.

(** This determines the run. *)
Theorem C45_unique : forall (St : Type) (step : string -> bool -> nat -> St -> result (St * fl)) order max criterion first st fits errors r fits' errors' r',
  (1 <= List.length order)%nat ->
  run_of step order max criterion first st fits errors r -> run_of step order max criterion first st fits' errors' r' ->
  fits = fits' /\ errors = errors' /\ r = r'.
Proof. exact run_unique_fits. Qed.

(** The order used; one without the soiling component is refused. *)
Theorem C45_order : forall stl order,
  used_order stl order = (let o := if stl then filter (fun c => negb (String.eqb c "Rd")) order else order in
                          if in_dec string_dec "SR"%string o then Ok o else Raise ValueError).
Proof. exact used_order_spec. Qed.

(** The decomposition is such a run. *)
Theorem C45_decomposition : forall F adf order stl max sens crit prune sig ffill s fitted r,
  decompose F adf order stl max sens crit prune sig ffill s = (fitted, r) ->
  let o := if stl then filter (fun c => negb (String.eqb c "Rd")) order else order in
  (~ In "SR"%string o /\ fitted = [] /\ r = Raise ValueError) \/
  (In "SR"%string o /\ exists e, collapse_cleaning_events 5 (fst (ce_detection ffill 9 sens (vals s))) (diffs (snd (ce_detection ffill 9 sens (vals s)))) = Raise e /\ fitted = [] /\ r = Raise e) \/
  (In "SR"%string o /\ exists pce errors last,
     collapse_cleaning_events 5 (fst (ce_detection ffill 9 sens (vals s))) (diffs (snd (ce_detection ffill 9 sens (vals s)))) = Ok pce /\
     run_of (cods_step F stl ffill (times s) (vals s)) o max crit (rmse (fit_root F) (vals s) (ones (vals s)))
       (CS (ones (vals s)) (ones (vals s)) (ones (vals s)) None (fz 0) (vals s) (fz 1) pce sens prune) fitted errors last /\
     r = bind last (finish F adf sig (vals s))).
Proof. exact decompose_spec. Qed.

(** It never succeeds when soiling is not among the first two components. *)
Theorem C45_late_soiling : forall F adf (order : list string) (stl : bool) max sens crit prune sig ffill s d,
  let o := if stl then filter (fun c => negb (String.eqb c "Rd")) order else order in
  (forall i, (i < 2)%nat -> nth_error o i <> Some "SR"%string) ->
  snd (decompose F adf order stl max sens crit prune sig ffill s) <> Ok d.
Proof. exact late_soiling. Qed.

(** Errors that never improve: all components once, then again without perfect cleaning. *)
Definition flat_step (c : string) (p : bool) (ic : nat) (st : unit) : result (unit * fl) := Ok (tt, fz 1).
Definition flat_run (order : list string) (max : nat) := iterate flat_step (List.length order) max (ff 1 200) max 0 order true 0 [fz 1] tt.
Example C45_example : fst (fst (flat_run ["SC"; "SR"; "Rd"]%string 10)) = [("SC", true); ("SR", true); ("Rd", true); ("SC", false); ("SR", false); ("Rd", false)]%string /\
  fst (fst (flat_run ["SR"; "SC"]%string 3)) = [("SR", true); ("SC", true); ("SR", false)]%string /\
  used_order true ["SR"; "SC"; "Rd"]%string = Ok ["SR"; "SC"]%string /\ used_order false ["SC"; "Rd"]%string = Raise ValueError.
Proof. repeat split; vm_compute; reflexivity. Qed.
Example C45_hypotheses : exists errors r, run_of flat_step ["SC"; "SR"; "Rd"]%string 10 (ff 1 200) (fz 1) tt
    [("SC", true); ("SR", true); ("Rd", true); ("SC", false); ("SR", false); ("Rd", false)]%string errors r /\
  change_point 3 10 (ff 1 200) (fun i => nth i errors NaN) 3 /\ converged 3 10 (ff 1 200) (fun i => nth i errors NaN) 6.
Proof.
  exists (repeat (fz 1) 7), (Ok tt). split; [apply (C45_schedule _ flat_step ["SC"; "SR"; "Rd"]%string 10 (ff 1 200)); [cbn; lia|vm_compute; reflexivity]|].
  assert (CP : change_point 3 10 (ff 1 200) (fun i => nth i (repeat (fz 1) 7) NaN) 3).
  { split; [lia|]. split; [split; [lia|right; vm_compute; reflexivity]|]. intros i Hi [G _]. lia. }
  split; [exact CP|]. exists 3%nat. split; [exact CP|]. split; [lia|vm_compute; reflexivity].
Qed.

(** The comment in the code promises that soiling comes first after the change; it does not. *)
Definition soiling_first_claim : Prop := forall (order : list string) max fits errors r,
  In "SR"%string order -> iterate flat_step (List.length order) max (ff 1 200) max 0 order true 0 [fz 1] tt = (fits, errors, r) ->
  forall i c d, nth_error fits i = Some (d, true) -> nth_error fits (S i) = Some (c, false) -> c = "SR"%string.
Theorem C45_soiling_first_refuted : ~ soiling_first_claim.
Proof.
  intros H. destruct (flat_run ["SC"; "SR"; "Rd"]%string 10) as [[fits errors] r] eqn:E. pose proof E as E'. vm_compute in E'. injection E' as EF _ _.
  assert (C : "SC"%string = "SR"%string) by (apply (H ["SC"; "SR"; "Rd"]%string 10%nat fits errors r ltac:(right; left; reflexivity) E 2%nat "SC"%string "Rd"%string); rewrite <- EF; reflexivity).
  discriminate C.
Qed.
Print Assumptions C45_soiling_first_refuted.

Print Assumptions C45_schedule.
Print Assumptions C45_unique.
Print Assumptions C45_order.
Print Assumptions C45_decomposition.
Print Assumptions C45_late_soiling.
