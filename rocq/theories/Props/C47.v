(** C47: collapsing of detected cleaning events *)

From Coq Require Import QArith Qcanon List ZArith Bool Arith Lia Permutation Sorted.
From Verif.Base Require Import QcExtra ISort Quantile Fl TimeSeries Calendar Rolling.
From Verif.Spec Require Import Stats Filters Soiling Cods.
From Verif.Model Require Import Soiling CodsTools.
From Verif.Proofs Require Import CodsP CodsP2.
Import ListNotations.
Open Scope list_scope.
Open Scope Qc_scope.

(** The result is given by the islands of detected rows and the peaks of the metric around them. *)
Theorem C47_collapse : forall f ev metric out, List.length metric = List.length ev -> (0 < f)%nat -> (2 * f < List.length ev)%nat ->
  (collapse_cleaning_events f ev metric = Ok out <-> collapsed f ev metric out).
Proof. exact collapse_ok. Qed.

(** ValueError exactly when the metric is missing around an island. *)
Theorem C47_errors : forall f ev metric, List.length metric = List.length ev -> (0 < f)%nat -> (2 * f < List.length ev)%nat ->
  forall e, collapse_cleaning_events f ev metric = Raise e <->
  e = ValueError /\ exists isl se, islands ev f (List.length ev - f) f isl /\ In se isl /\ all_missing metric (fst se - f) (snd se + f).
Proof. exact collapse_raises. Qed.

(** No rows left between the edges, or no edge: ValueError. *)
Theorem C47_short : forall f ev metric, (f = 0 \/ List.length ev <= 2 * f \/ List.length metric <> List.length ev)%nat ->
  collapse_cleaning_events f ev metric = Raise ValueError.
Proof. exact collapse_short. Qed.

(** Every event is the peak of the metric within [f] rows of a run of detected rows away from the edges. *)
Theorem C47_near : forall f ev metric out i, collapse_cleaning_events f ev metric = Ok out -> detected out i ->
  exists s e, (f <= s <= e)%nat /\ (S e + f < List.length ev)%nat /\ (forall j, (s <= j <= e)%nat -> detected ev j) /\
    ~ detected ev (S e) /\ is_peak metric (s - f) (e + f) i.
Proof. exact collapse_near. Qed.

(** There are no more events than islands ... *)
Theorem C47_count : forall f ev metric out, collapse_cleaning_events f ev metric = Ok out ->
  exists isl, islands ev f (List.length ev - f) f isl /\
  forall l, NoDup l -> (forall i, In i l -> detected out i) -> (List.length l <= List.length isl)%nat.
Proof. exact collapse_count. Qed.

(** ... and some if there are islands. *)
Theorem C47_some : forall f ev metric out isl, collapse_cleaning_events f ev metric = Ok out ->
  islands ev f (List.length ev - f) f isl -> isl <> [] -> exists i, detected out i.
Proof. exact collapse_some. Qed.

Theorem C47_nothing : forall f ev metric, List.length metric = List.length ev -> (0 < f)%nat -> (2 * f < List.length ev)%nat ->
  (forall i, (f <= i < List.length ev - f)%nat -> ~ detected ev i) ->
  collapse_cleaning_events f ev metric = Ok (repeat false (List.length ev)).
Proof. exact collapse_nothing. Qed.

(** The islands always exist ... *)
Theorem C47_islands : forall ev f hi n a, (hi < a + n)%nat -> exists l, islands ev f hi a l.
Proof. exact islands_exist. Qed.

(** ... and are unique. *)
Theorem C47_islands_unique : forall ev f hi a l, islands ev f hi a l -> forall l', islands ev f hi a l' -> l = l'.
Proof. exact islands_unique. Qed.

(** Two islands, rows 3-4 and row 8, of 13. *)
Definition flags (l : list nat) (n : nat) : list bool := map (fun i => existsb (Nat.eqb i) l) (seq 0 n).
Definition heights : list fl := map fz [0; 1; 5; 2; 3; 1; 0; 0; 1; 4; 4; 0; 9]%Z.
Example C47_example : collapse_cleaning_events 2 (flags [3; 4; 8]%nat 13) heights = Ok (flags [2; 9]%nat 13).
Proof. vm_compute. reflexivity. Qed.
Example C47_hypotheses : islands (flags [3; 4; 8]%nat 13) 2 11 2 [(3, 4); (8, 8)]%nat /\
  is_peak heights 1 6 2 /\ is_peak heights 6 10 9 /\ all_missing [NaN; NaN; fz 1]%Qc 0 1.
Proof.
  split.
  { apply isl_take.
    - split; [lia|]. split; [|split].
      + intros i Hi. assert (i = 2%nat) as -> by lia. discriminate.
      + intros i Hi. assert (i = 3 \/ i = 4)%nat as [-> | ->] by lia; reflexivity.
      + discriminate.
    - lia.
    - apply isl_take; [|lia|].
      + split; [lia|]. split; [|split].
        * intros i Hi. assert (i = 7%nat) as -> by lia. discriminate.
        * intros i Hi. assert (i = 8%nat) as -> by lia. reflexivity.
        * discriminate.
      + apply isl_none. intros i Hi. lia. }
  split; [|split].
  - split; [lia|]. exists (fz 5). split; [reflexivity|]. split; [discriminate|]. split.
    + intros j y Hj E _. assert (j = 1 \/ j = 2 \/ j = 3 \/ j = 4 \/ j = 5 \/ j = 6)%nat as [-> | [-> | [-> | [-> | [-> | ->]]]]] by lia; injection E as <-; reflexivity.
    + intros j y Hj E _. assert (j = 1)%nat as -> by lia; injection E as <-; reflexivity.
  - split; [lia|]. exists (fz 4). split; [reflexivity|]. split; [discriminate|]. split.
    + intros j y Hj E _. assert (j = 6 \/ j = 7 \/ j = 8 \/ j = 9 \/ j = 10)%nat as [-> | [-> | [-> | [-> | ->]]]] by lia; injection E as <-; reflexivity.
    + intros j y Hj E _. assert (j = 6 \/ j = 7 \/ j = 8)%nat as [-> | [-> | ->]] by lia; injection E as <-; reflexivity.
  - intros j x Hj E. assert (j = 0 \/ j = 1)%nat as [-> | ->] by lia; injection E as <-; reflexivity.
Qed.

(** A run reaching the edge ends the search; the rows next to an island are skipped. *)
Example C47_edges : collapse_cleaning_events 2 (flags [3; 9; 10; 11]%nat 13) heights = Ok (flags [2]%nat 13) /\
  collapse_cleaning_events 2 (flags [3; 5]%nat 13) heights = Ok (flags [2]%nat 13) /\
  collapse_cleaning_events 2 (flags [0; 1; 12]%nat 13) heights = Ok (flags []%nat 13) /\
  collapse_cleaning_events 2 (flags [8]%nat 13) (map (fun _ => NaN) heights) = Raise ValueError.
Proof. repeat split; vm_compute; reflexivity. Qed.

(** Not true: that every island leaves an event.  The window of a later island may erase an earlier event. *)
Theorem C47_island_refuted : exists ev m out isl, islands ev 2 (List.length ev - 2) 2 isl /\ collapse_cleaning_events 2 ev m = Ok out /\
  List.length isl = 2%nat /\ forall i j, detected out i -> detected out j -> i = j.
Proof.
  exists (flags [3; 6]%nat 13), (map fz [0; 1; 1; 2; 3; 5; 0; 0; 1; 4; 4; 0; 9]%Z), (flags [5]%nat 13), [(3, 3); (6, 6)]%nat.
  split; [|split; [vm_compute; reflexivity|]; split; [reflexivity|]].
  - apply isl_take.
    + split; [lia|]. split; [|split].
      * intros i Hi. assert (i = 2%nat) as -> by lia. discriminate.
      * intros i Hi. assert (i = 3)%nat as -> by lia; reflexivity.
      * discriminate.
    + cbn. lia.
    + apply isl_take; [|cbn; lia|].
      * split; [lia|]. split; [|split].
        -- intros i Hi. lia.
        -- intros i Hi. assert (i = 6%nat) as -> by lia. reflexivity.
        -- discriminate.
      * apply isl_none. cbn. intros i Hi. assert (i = 9 \/ i = 10)%nat as [-> | ->] by lia; discriminate.
  - assert (forall i, detected (flags [5]%nat 13) i -> i = 5%nat) as H.
    { intros i Hi. assert (i < 13)%nat as L by (change 13%nat with (List.length (flags [5]%nat 13)); apply nth_error_Some; unfold detected in Hi; congruence).
      do 13 (destruct i as [|i]; [first [reflexivity | discriminate Hi]|]). lia. }
    intros i j Hi Hj. rewrite (H i Hi), (H j Hj). reflexivity.
Qed.
Print Assumptions C47_island_refuted.

Print Assumptions C47_collapse.
Print Assumptions C47_errors.
Print Assumptions C47_short.
Print Assumptions C47_near.
Print Assumptions C47_count.
Print Assumptions C47_some.
Print Assumptions C47_nothing.
Print Assumptions C47_islands.
Print Assumptions C47_islands_unique.
