(** C03: exactly linear data. *)

From Coq Require Import QArith Qcanon List ZArith Bool Permutation Sorted Lia.
From Verif.Base Require Import QcExtra ISort Quantile Fl Calendar.
From Verif.Spec Require Import Stats Time YoY.
From Verif.Model Require Import Utilities Bootstrap YearOnYear.
From Verif.Proofs Require Import StatsP FlP YoYP YoYP2 BootP.
From Verif.Props Require Import YoYDemo.
Import ListNotations.
Open Scope Qc_scope.

(** [on_line a b input]: every available energy is [a + b t]. *)
Theorem C03_linear : forall infer sortv choice starts rc ep cl m input o a b rho,
  sorts_by_shifted sortv ->
  degradation_year_on_year infer sortv choice starts rc ep cl m input = Ok o ->
  (forall t e, In (t, e) input -> e = NaN \/ e = Fin (a + b * qz t)) ->
  yo_renorm o = Fin rho -> rho <> 0 ->
  yo_rate o = Fin (qz 100 * (b * qz (days 365)) / rho) /\
  forall dt v, In (dt, v) (yo_values o) -> v = Fin (qz 100 * (b * qz (days 365)) / rho).
Proof. exact yoy_linear. Qed.

Print Assumptions C03_linear.

(** A line losing 1 % of its value at the epoch of 2012 per 365 days, with rows at the
    demo dates and one missing energy. *)
Definition line_slope : Qc := - (1 / (qz 100 * qz (days 365))).
Definition line_start : Qc := 1 - line_slope * qz (at_date 2012 2 29).
Definition line_input : series :=
  map (fun r => (fst r, match snd r with NaN => NaN | _ => Fin (line_start + line_slope * qz (fst r)) end))
      demo_input.
Example C03_example :
  (forall t e, In (t, e) line_input -> e = NaN \/ e = Fin (line_start + line_slope * qz t)) /\
  exists o, degradation_year_on_year demo_infer demo_sortv demo_choice [] false (qz 95) (qz 68)
              NoUncertainty line_input = Ok o /\ yo_renorm o = Fin 1 /\ yo_rate o = fz (-1).
Proof.
  split.
  - intros t e H. unfold line_input in H. apply in_map_iff in H. destruct H as ([t' e'] & E & _).
    injection E as <- <-. destruct e'; auto.
  - eexists. split; [vm_compute; reflexivity |]. split; [reflexivity |]. vm_compute. f_equal. qc_canon.
Qed.
