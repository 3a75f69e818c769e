(** C02: year-on-year pairs. *)

From Coq Require Import QArith Qcanon List ZArith Bool Permutation Sorted Lia.
From Verif.Base Require Import QcExtra ISort Quantile Fl Calendar.
From Verif.Spec Require Import Stats Time YoY.
From Verif.Model Require Import Utilities Bootstrap YearOnYear.
From Verif.Proofs Require Import StatsP FlP YoYP YoYP2 YoYP3 BootP.
From Verif.Props Require Import YoYDemo.
Import ListNotations.
Open Scope Qc_scope.

(** Every reported value belongs to a pair: the partner lands latest among the rows
    landing at or before the point, at most eight days before it, and the value is the
    percent change per 365-day year; the pair is 365 to 374 days apart. *)
Theorem C02_values_sound : forall infer sortv choice starts rc ep cl m input o,
  sorts_by_shifted sortv ->
  degradation_year_on_year infer sortv choice starts rc ep cl m input = Ok o ->
  forall dt v, In (dt, v) (yo_values o) ->
    v <> NaN /\
    exists e r, In (dt, e) input /\ is_partner input dt r /\
      v = pair_value (yo_renorm o) dt e r /\ (days 365 <= dt - fst r <= days 374)%Z.
Proof. exact yoy_values_sound. Qed.

(** Every point within reach of some other point gets a value, unless the value is
    not available. *)
Theorem C02_values_complete : forall infer sortv choice starts rc ep cl m input o,
  sorts_by_shifted sortv ->
  degradation_year_on_year infer sortv choice starts rc ep cl m input = Ok o ->
  forall dt e, In (dt, e) input ->
    (exists t er, In (t, er) input /\ in_reach t dt) ->
    (forall r, is_partner input dt r -> pair_value (yo_renorm o) dt e r <> NaN) ->
    exists r, is_partner input dt r /\ In (dt, pair_value (yo_renorm o) dt e r) (yo_values o).
Proof. exact yoy_values_complete. Qed.

(** Each point has at most one value, in time order. *)
Theorem C02_values_once : forall infer sortv choice starts rc ep cl m input o,
  NoDup (times input) ->
  degradation_year_on_year infer sortv choice starts rc ep cl m input = Ok o ->
  StronglySorted Z.lt (times (yo_values o)).
Proof. exact yoy_values_once. Qed.

(** The value of a pair of finite energies is finite. *)
Theorem C02_value_available : forall rho dt e t er, rho <> 0 -> (days 365 <= dt - t)%Z ->
  pair_value (Fin rho) dt (Fin e) (t, Fin er) =
  Fin (qz 100 * (e / rho - er / rho) / (qz (dt - t) / qz (days 365))).
Proof. exact pair_value_fin. Qed.

(** Exactly these: there is a choice of one partner for every point that can have one, the same for points
    whose partners land on the same instant, and the reported values are those of the chosen pairs. *)
Theorem C02_pairs : forall infer sortv choice starts rc ep cl m input o,
  sorts_by_shifted sortv -> NoDup (times input) ->
  degradation_year_on_year infer sortv choice starts rc ep cl m input = Ok o ->
  exists pick, partner_choice input pick /\ values_of_pairs input pick (yo_renorm o) (yo_values o).
Proof. exact yoy_values_pairs. Qed.

(** There is only one choice unless rows land on the same instant. *)
Theorem C02_one_choice : forall input p p', NoDup (times input) -> no_clash input ->
  partner_choice input p -> partner_choice input p' -> forall dt, p dt = p' dt.
Proof. exact choice_unique. Qed.

(** 28 and 29 February of a leap year do: then the contract of the sort, whose default is not stable, does
    not determine the rate. *)
Theorem C02_determined_refuted : exists sortv1 sortv2 input o1 o2,
  sorts_by_shifted sortv1 /\ sorts_by_shifted sortv2 /\ NoDup (times input) /\
  degradation_year_on_year demo_infer sortv1 demo_choice [] false (qz 95) (qz 68) NoUncertainty input = Ok o1 /\
  degradation_year_on_year demo_infer sortv2 demo_choice [] false (qz 95) (qz 68) NoUncertainty input = Ok o2 /\
  yo_rate o1 <> yo_rate o2.
Proof.
  exists demo_sortv, other_sortv, leap_input, (leap_out demo_sortv NoUncertainty), (leap_out other_sortv NoUncertainty).
  split; [exact demo_sortv_ok |]. split; [exact other_sortv_ok |]. split; [exact leap_nodup |].
  split; [vm_compute; reflexivity |]. split; [vm_compute; reflexivity |]. vm_compute. discriminate.
Qed.

Print Assumptions C02_pairs.
Print Assumptions C02_one_choice.
Print Assumptions C02_determined_refuted.
Print Assumptions C02_values_sound.
Print Assumptions C02_values_complete.
Print Assumptions C02_values_once.
Print Assumptions C02_value_available.

(** 29 February 2012 is the partner of 28 February 2013 (365 days later) and of
    5 March 2013 (370 days later). *)
Example C02_example :
  sorts_by_shifted demo_sortv /\ NoDup (times demo_input) /\
  demo_run false NoUncertainty = Ok (demo_out false NoUncertainty) /\
  times (yo_values (demo_out false NoUncertainty)) =
    [at_date 2013 2 28; at_date 2013 3 5; at_date 2014 2 28] /\
  vals (yo_values (demo_out false NoUncertainty)) = [fz (-5); ff (-219) 37; fz (-5)] /\
  in_reach (at_date 2012 2 29) (at_date 2013 3 5).
Proof.
  split; [exact demo_sortv_ok |]. split; [exact demo_nodup |]. split; [exact demo_ok |].
  split; [vm_compute; reflexivity |].
  split; [vm_compute; repeat (f_equal; try qc_canon) |].
  exists (at_date 2013 2 28). split; [| vm_compute; split; discriminate].
  apply one_year_later_iff. vm_compute. reflexivity.
Qed.

(** With 28 and 29 February the hypotheses of the theorem on pairs hold; three points, two values. *)
Example C02_leap_example : NoDup (times leap_input) /\ ~ no_clash leap_input /\
  leap_run demo_sortv NoUncertainty = Ok (leap_out demo_sortv NoUncertainty) /\
  times (yo_values (leap_out demo_sortv NoUncertainty)) = [at_date 2013 2 28; at_date 2014 2 28] /\
  vals (yo_values (leap_out demo_sortv NoUncertainty)) = [fz (-3); fz (-5)] /\
  vals (yo_values (leap_out other_sortv NoUncertainty)) = [ff (-1825) 366; fz (-5)].
Proof.
  split; [exact leap_nodup |]. split; [exact leap_clash |]. split; [vm_compute; reflexivity |]. split; [vm_compute; reflexivity |].
  split; vm_compute; repeat (f_equal; try qc_canon).
Qed.
