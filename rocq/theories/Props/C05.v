(** C05: order of the rows. *)

From Coq Require Import QArith Qcanon List ZArith Bool Permutation Sorted Lia.
From Verif.Base Require Import QcExtra ISort Quantile Fl Calendar.
From Verif.Spec Require Import Stats Time YoY.
From Verif.Model Require Import Utilities Bootstrap YearOnYear.
From Verif.Proofs Require Import StatsP FlP YoYP YoYP2 BootP.
From Verif.Props Require Import YoYDemo.
Import ListNotations.
Open Scope Qc_scope.

Theorem C05_row_order : forall infer sortv choice starts rc ep cl m s s',
  NoDup (times s) -> Permutation s s' ->
  degradation_year_on_year infer sortv choice starts rc ep cl m s =
  degradation_year_on_year infer sortv choice starts rc ep cl m s'.
Proof. exact yoy_perm. Qed.

Print Assumptions C05_row_order.

Example C05_example : NoDup (times demo_input) /\ Permutation demo_input (rev demo_input) /\
  demo_input <> rev demo_input.
Proof.
  split; [exact demo_nodup |]. split; [apply Permutation_rev |].
  intros H. apply (f_equal (fun l => hd 0%Z (times l))) in H. vm_compute in H. discriminate.
Qed.
