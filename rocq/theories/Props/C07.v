(** C07: usage_of_points. *)

From Coq Require Import QArith Qcanon List ZArith Bool Permutation Sorted Lia.
From Verif.Base Require Import QcExtra ISort Quantile Fl Calendar.
From Verif.Spec Require Import Stats Time YoY.
From Verif.Model Require Import Utilities Bootstrap YearOnYear.
From Verif.Proofs Require Import StatsP FlP YoYP YoYP2 YoYP3 BootP.
From Verif.Props Require Import YoYDemo.
Import ListNotations.
Open Scope Qc_scope.

(** One entry per input row in time order; each is the sum of "this point ends a
    reported pair" and "the first row matched to this point has a value". *)
Theorem C07_usage : forall infer sortv choice starts rc ep cl m input o,
  sorts_by_shifted sortv -> no_clash input -> NoDup (times input) ->
  degradation_year_on_year infer sortv choice starts rc ep cl m input = Ok o ->
  Permutation (times input) (map fst (yo_usage o)) /\ Sorted Z.lt (map fst (yo_usage o)) /\
  forall t u, In (t, u) (yo_usage o) ->
    exists b c, u = (b + c)%Z /\ (b = 0 \/ b = 1)%Z /\ (c = 0 \/ c = 1)%Z /\
      (b = 1%Z <-> ends_pair (yo_values o) t) /\
      (c = 1%Z <-> exists dt, first_matched input t dt /\ ends_pair (yo_values o) dt).
Proof. exact yoy_usage. Qed.

(** With every energy available it is the documented count. *)
Theorem C07_usage_documented : forall infer sortv choice starts rc ep cl m input o rho,
  sorts_by_shifted sortv -> no_clash input -> NoDup (times input) ->
  degradation_year_on_year infer sortv choice starts rc ep cl m input = Ok o ->
  (forall t e, In (t, e) input -> exists q, e = Fin q) -> yo_renorm o = Fin rho -> rho <> 0 ->
  forall t u, In (t, u) (yo_usage o) ->
    exists b c, u = (b + c)%Z /\ (b = 0 \/ b = 1)%Z /\ (c = 0 \/ c = 1)%Z /\
      (b = 1%Z <-> ends_pair (yo_values o) t) /\
      (c = 1%Z <-> starts_pair input (yo_values o) t).
Proof. exact yoy_usage_documented. Qed.

(** The same for any timestamps, with the choice of partners that gives the reported values. *)
Theorem C07_usage_leap : forall infer sortv choice starts rc ep cl m input o,
  sorts_by_shifted sortv -> NoDup (times input) ->
  degradation_year_on_year infer sortv choice starts rc ep cl m input = Ok o ->
  Permutation (times input) (map fst (yo_usage o)) /\ Sorted Z.lt (map fst (yo_usage o)) /\
  exists pick, partner_choice input pick /\ values_of_pairs input pick (yo_renorm o) (yo_values o) /\
    forall t u, In (t, u) (yo_usage o) ->
      exists b c, u = (b + c)%Z /\ (b = 0 \/ b = 1)%Z /\ (c = 0 \/ c = 1)%Z /\
        (b = 1%Z <-> ends_pair (yo_values o) t) /\
        (c = 1%Z <-> exists dt, first_picked input pick t dt /\ ends_pair (yo_values o) dt).
Proof. exact yoy_usage_pairs. Qed.

Theorem C07_usage_documented_leap : forall infer sortv choice starts rc ep cl m input o rho,
  sorts_by_shifted sortv -> NoDup (times input) ->
  degradation_year_on_year infer sortv choice starts rc ep cl m input = Ok o ->
  (forall t e, In (t, e) input -> exists q, e = Fin q) -> yo_renorm o = Fin rho -> rho <> 0 ->
  exists pick, partner_choice input pick /\ values_of_pairs input pick (yo_renorm o) (yo_values o) /\
    forall t u, In (t, u) (yo_usage o) ->
      exists b c, u = (b + c)%Z /\ (b = 0 \/ b = 1)%Z /\ (c = 0 \/ c = 1)%Z /\
        (b = 1%Z <-> ends_pair (yo_values o) t) /\
        (c = 1%Z <-> exists dt e, pick dt = Some (t, e) /\ ends_pair (yo_values o) dt).
Proof. exact yoy_documented_pairs. Qed.

(** In general it is not: a point that starts a reported pair can be reported unused. *)
Definition undercount_input : series :=
  [(at_date 2012 1 1, ff 100 100); (at_date 2013 1 1, NaN); (at_date 2013 1 3, ff 95 100);
   (at_date 2014 1 1, ff 94 100)].
Theorem C07_documented_refuted : exists o t,
  degradation_year_on_year demo_infer demo_sortv demo_choice [] false (qz 95) (qz 68)
    NoUncertainty undercount_input = Ok o /\
  starts_pair undercount_input (yo_values o) t /\ In (t, 0%Z) (yo_usage o).
Proof.
  eexists. exists (at_date 2012 1 1). split; [vm_compute; reflexivity |]. split.
  - exists (at_date 2013 1 3), (ff 100 100). eexists. split.
    + vm_compute. left. reflexivity.
    + split; [left; reflexivity |]. exists (at_date 2013 1 1).
      split; [apply one_year_later_iff; vm_compute; reflexivity |].
      split; [vm_compute; discriminate |]. split; [vm_compute; discriminate |].
      intros [t2 e2] t3 Hin Hy Hle. apply one_year_later_eq in Hy. cbn [fst] in Hy. subst t3.
      revert Hle. cbn [undercount_input In] in Hin.
      repeat (destruct Hin as [Hin | Hin]; [injection Hin as <- <-; vm_compute; congruence |]).
      destruct Hin.
  - vm_compute. auto.
Qed.

Print Assumptions C07_usage.
Print Assumptions C07_usage_documented.
Print Assumptions C07_usage_leap.
Print Assumptions C07_usage_documented_leap.
Print Assumptions C07_documented_refuted.

Example C07_example :
  no_clash demo_input /\ NoDup (times demo_input) /\
  demo_run false NoUncertainty = Ok (demo_out false NoUncertainty) /\
  map snd (yo_usage (demo_out false NoUncertainty)) = [1; 2; 1; 0; 1]%Z.
Proof.
  split; [exact demo_no_clash |]. split; [exact demo_nodup |]. split; [exact demo_ok |].
  vm_compute. reflexivity.
Qed.

(** Of 28 and 29 February one is used, by either sort. *)
Example C07_leap_example : NoDup (times leap_input) /\ ~ no_clash leap_input /\ (forall t e, In (t, e) leap_input -> exists q, e = Fin q) /\
  leap_run demo_sortv NoUncertainty = Ok (leap_out demo_sortv NoUncertainty) /\ yo_renorm (leap_out demo_sortv NoUncertainty) = Fin 1 /\
  map snd (yo_usage (leap_out demo_sortv NoUncertainty)) = [0; 1; 2; 1]%Z /\ map snd (yo_usage (leap_out other_sortv NoUncertainty)) = [1; 0; 2; 1]%Z.
Proof.
  split; [exact leap_nodup |]. split; [exact leap_clash |]. split; [exact leap_finite |]. split; [vm_compute; reflexivity |]. split; [vm_compute; reflexivity |].
  split; vm_compute; reflexivity.
Qed.
