(** C59: detection of cleaning and soiling shifts *)

From Coq Require Import QArith Qcanon List ZArith Bool Arith Lia Permutation Sorted.
From Verif.Base Require Import QcExtra ISort Quantile Fl TimeSeries Calendar Rolling.
From Verif.Spec Require Import Stats Filters Soiling Cods.
From Verif.Model Require Import Soiling CodsTools.
From Verif.Proofs Require Import FlP StatsP FiltersP2 SoilP2 CodsP CodsP3.
Import ListNotations.
Open Scope list_scope.
Open Scope Qc_scope.
From Coq Require Import String.
Definition true_rows_of (b : list bool) : list nat := filter (fun i => nth i b false) (seq 0 (List.length b)).

(** Cleaning events are the upward shifts of the rolling median. *)
Theorem C59_cleaning : forall b w tuner l i, noinf l -> (1 <= w)%nat ->
  (detected (fst (ce_detection b w (Fin tuner) l)) i <-> upward_shift b w tuner l i).
Proof. exact ce_detection_spec. Qed.

(** Soiling events are the downward shifts. *)
Theorem C59_soiling : forall b tuner l i, noinf l ->
  (detected (soiling_detection b (Fin tuner) l) i <-> downward_shift b tuner l i).
Proof. exact soiling_detection_spec. Qed.

(** If every step is the same fall, every one of them is a soiling event, whatever the tuning. *)
Theorem C59_steady : forall b tuner l f ds c i d, noinf l -> filled_rows b l f -> steps 9 f 0 ds -> (forall x, In x ds -> x = - c) -> 0 < c ->
  step_at 9 f i d -> detected (soiling_detection b (Fin tuner) l) i.
Proof. exact steady_decline. Qed.

(** Outliers are the values outside the fences. *)
Theorem C59_outliers : forall multiplier w l, l <> [] ->
  exists up low, (forall x, up x = true <-> above_fence multiplier l x) /\ (forall x, low x = true <-> below_fence multiplier l x) /\
  find_numeric_outliers (Fin multiplier) w (map Fin l) =
    Ok (if String.eqb w "upper" then Upper (map up l) else if String.eqb w "lower" then Lower (map low l)
        else if String.eqb w "both" then Both (map up l) (map low l) else Neither).
Proof. exact outliers_spec. Qed.

(** A missing value hides all of them. *)
Theorem C59_outliers_missing : forall multiplier l, In NaN l ->
  find_numeric_outliers multiplier "lower" l = Ok (Lower (map (fun _ => false) l)).
Proof. exact outliers_missing. Qed.

(** There is only one way to fill gaps. *)
Theorem C59_filled_unique : forall b l f g, filled_rows b l f -> filled_rows b l g -> f = g.
Proof. exact filled_rows_unique. Qed.

(** A fall by one a day, a cleaning of 20 on day 15 and a gap on day 3. *)
Definition cleaned : list fl := map (fun i => if (i =? 3)%nat then NaN else if (i <? 15)%nat then fz (100 - Z.of_nat i) else fz (120 - Z.of_nat i)) (seq 0 30).
Definition steady : list fl := map (fun i => fz (100 - Z.of_nat i)) (seq 0 20).
Example C59_example : true_rows_of (fst (ce_detection true 9 (ff 1 2) cleaned)) = [15]%nat /\
  true_rows_of (soiling_detection true (fz 5) cleaned) = [] /\
  true_rows_of (soiling_detection true (fz 5) steady) = seq 5 11 /\
  find_numeric_outliers (ff 3 2) "lower" (map fz [9; 8; 10; 9; 1; 20]%Z) = Ok (Lower [false; false; false; false; true; false]) /\
  find_numeric_outliers (ff 3 2) "upper" (map fz [9; 8; 10; 9; 1; 20]%Z) = Ok (Upper [false; false; false; false; false; true]) /\
  find_numeric_outliers (ff 3 2) "lower" [] = Raise UnboundLocalError.
Proof. repeat split; vm_compute; reflexivity. Qed.
Lemma cleaned_noinf : noinf cleaned.
Proof. intros x Hx. unfold cleaned in Hx. apply in_map_iff in Hx. destruct Hx as (i & <- & _). destruct (i =? 3)%nat; [split; discriminate|]. destruct (i <? 15)%nat; split; discriminate. Qed.
Lemma steady_noinf : noinf steady.
Proof. intros x Hx. unfold steady in Hx. apply in_map_iff in Hx. destruct Hx as (i & <- & _). split; discriminate. Qed.
Example C59_hypotheses : upward_shift true 9 (qf 1 2) cleaned 15 /\ (forall i, i <> 15%nat -> ~ upward_shift true 9 (qf 1 2) cleaned i) /\
  downward_shift true (qz 5) steady 7 /\ below_fence (qf 3 2) (map qz [9; 8; 10; 9; 1; 20]%Z) (qz 1) /\ filled_rows true [NaN; fz 1; NaN] [(0%Z, NaN); (1%Z, fz 1); (2%Z, fz 1)].
Proof.
  split; [apply ce_detection_spec; [exact cleaned_noinf|lia|vm_compute; reflexivity]|].
  split.
  { intros i Hi H. apply ce_detection_spec in H; [|exact cleaned_noinf|lia].
    assert (E : fst (ce_detection true 9 (ff 1 2) cleaned) = map (fun i => (i =? 15)%nat) (seq 0 30)) by (vm_compute; reflexivity).
    unfold detected in H. change (Fin (qf 1 2)) with (ff 1 2) in H. rewrite E in H. rewrite nth_error_map_some, nth_error_seq in H. destruct (i <? 30)%nat; [|discriminate H].
    injection H as H. apply Nat.eqb_eq in H. lia. }
  split; [apply soiling_detection_spec; [exact steady_noinf|vm_compute; reflexivity]|].
  split.
  { destruct (outliers_spec (qf 3 2) "lower" (map qz [9; 8; 10; 9; 1; 20]%Z) ltac:(discriminate)) as (up & low & _ & L & E).
    apply L. cbn [String.eqb Ascii.eqb Bool.eqb] in E. assert (K : find_numeric_outliers (Fin (qf 3 2)) "lower" (map Fin (map qz [9; 8; 10; 9; 1; 20]%Z)) = Ok (Lower [false; false; false; false; true; false])) by (vm_compute; reflexivity).
    rewrite K in E. injection E as _ _ _ _ E _. symmetry. exact E. }
  split; [reflexivity|]. intros [|[|[|i]]] t v E; try (destruct i; discriminate E); cbn in E; injection E as <- <-; (split; [reflexivity|]).
  - right. split; [reflexivity|]. intros q (j & Ej & Hj & _). assert (j = 0%nat) as -> by lia. discriminate Ej.
  - left. exists 1. split; [reflexivity|]. exists 1%nat. split; [reflexivity|]. split; [lia|]. intros m Hm. lia.
  - left. exists 1. split; [reflexivity|]. exists 1%nat. split; [reflexivity|]. split; [lia|]. intros m Hm. assert (m = 2%nat) as -> by lia. reflexivity.
Qed.

Print Assumptions C59_cleaning.
Print Assumptions C59_soiling.
Print Assumptions C59_steady.
Print Assumptions C59_outliers.
Print Assumptions C59_outliers_missing.
Print Assumptions C59_filled_unique.
