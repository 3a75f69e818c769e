(** C81: days without a value hide year-on-year pairs *)

From Coq Require Import QArith Qcanon List ZArith Bool Arith Lia Permutation Sorted.
From Verif.Base Require Import QcExtra ISort Quantile Fl Calendar.
From Verif.Spec Require Import Stats Time YoY Window Wrong Unknown.
From Verif.Model Require Import Utilities Bootstrap YearOnYear.
From Verif.Proofs Require Import StatsP FlP YoYP YoYP2 YoYP3 WindowP WrongP UnknownP.
Import ListNotations.
Open Scope list_scope.
Open Scope Qc_scope.
From Verif.Props Require Import YoYDemo.
Open Scope Qc_scope.

(** With the same factor, an analysis has exactly those values of the analysis of the rows that have a value whose pair is not hidden by a row without one. *)
Theorem C81_rows : forall infer infer' sortv sortv' choice choice' starts starts' rc rc' ep cl ep' cl' m m' x o o',
  sorts_by_shifted sortv -> sorts_by_shifted sortv' -> NoDup (times x) ->
  degradation_year_on_year infer sortv choice starts rc ep cl m x = Ok o ->
  degradation_year_on_year infer' sortv' choice' starts' rc' ep' cl' m' (known_rows x) = Ok o' ->
  yo_renorm o' = yo_renorm o ->
  forall dt v, one_partner x dt -> one_partner (known_rows x) dt ->
  (In (dt, v) (yo_values o) <-> In (dt, v) (yo_values o') /\ forall r, ~ hidden x dt r).
Proof. exact known_values. Qed.

(** In an index of all days, with or without values, the pairs are exactly those of a day and the same day of the year before, if both have values (28 and 29 February apart): the eight days are of no use. *)
Theorem C81_daily : forall infer sortv choice starts rc ep cl m x first last o dt v,
  sorts_by_shifted sortv -> NoDup (times x) -> daily_from first last x -> In dt (times x) -> ~ late_february dt ->
  degradation_year_on_year infer sortv choice starts rc ep cl m x = Ok o ->
  (In (dt, v) (yo_values o) <-> v <> NaN /\ exists t0 e0 e, one_year_later t0 dt /\ In (t0, e0) x /\ In (dt, e) x /\ v = pair_value (yo_renorm o) dt e (t0, e0)).
Proof. exact daily_value. Qed.

(** Two pairs; for the first a row without a value lands later than the row with one. *)
Definition with_gap : series := [(at_date 2012 3 10, fz 8); (at_date 2012 3 12, NaN); (at_date 2013 3 12, fz 4); (at_date 2014 3 12, fz 3)].
Definition analysis (s : series) : result yoy_out :=
  degradation_year_on_year demo_infer demo_sortv demo_choice [] false (qz 95) (qz 68) NoUncertainty s.
Definition out_of (r : result yoy_out) : yoy_out := match r with Ok o => o | Raise _ => no_out end.
Lemma gap_nodup : NoDup (times with_gap).
Proof. repeat constructor; cbn [In map fst]; intros H; repeat (destruct H as [H | H]; [vm_compute in H; discriminate |]); exact H. Qed.
Lemma gap_no_clash : no_clash with_gap.
Proof.
  intros r1 r2 t H1 H2 L1 L2. apply one_year_later_eq in L1, L2. rewrite L1 in L2. clear L1. cbn [In with_gap] in H1, H2.
  repeat (destruct H1 as [<- | H1]; [repeat (destruct H2 as [<- | H2]; [try reflexivity; vm_compute in L2; discriminate |]); contradiction |]). contradiction.
Qed.
Example C81_example :
  let all := out_of (analysis with_gap) in let known := out_of (analysis (known_rows with_gap)) in
  analysis with_gap = Ok all /\ analysis (known_rows with_gap) = Ok known /\ yo_renorm known = yo_renorm all /\
  times (yo_values all) = [at_date 2014 3 12] /\ times (yo_values known) = [at_date 2013 3 12; at_date 2014 3 12] /\
  one_partner with_gap (at_date 2013 3 12) /\ one_partner (known_rows with_gap) (at_date 2013 3 12) /\ hidden with_gap (at_date 2013 3 12) (at_date 2012 3 10, fz 8).
Proof.
  assert (no_clash (known_rows with_gap)) as NK by (intros r1 r2 t H1 H2; apply known_In in H1, H2; apply gap_no_clash; [apply H1 | apply H2]).
  assert (forall x, NoDup (times x) -> no_clash x -> forall dt, one_partner x dt) as ONE.
  { intros x N C dt r1 r2 P1 P2. apply (nodup_fst_inj x); [exact N | apply P1 | apply P2 |]. rewrite (partner_unique _ _ _ _ C P1 P2). reflexivity. }
  split; [vm_compute; reflexivity |]. split; [vm_compute; reflexivity |]. split; [vm_compute; reflexivity |]. split; [vm_compute; reflexivity |]. split; [vm_compute; reflexivity |].
  split; [apply ONE; [exact gap_nodup | exact gap_no_clash] |]. split; [apply ONE; [apply nodup_part; exact gap_nodup | exact NK] |].
  split.
  - split; [left; reflexivity |]. exists (add_years 1 (at_date 2012 3 10)). split; [apply add_years_one_spec |]. split; [vm_compute; discriminate |]. split; [vm_compute; discriminate |].
    intros r2 t2 I L B. apply one_year_later_eq in L. cbn [known_rows with_gap filter snd In fz] in I.
    repeat (destruct I as [<- | I]; [subst t2; first [vm_compute; discriminate | exfalso; apply B; vm_compute; reflexivity] |]). contradiction.
  - exists (at_date 2012 3 12), (add_years 1 (at_date 2012 3 10)), (add_years 1 (at_date 2012 3 12)). split; [right; left; reflexivity |]. split; [apply add_years_one_spec |]. split; [apply add_years_one_spec |].
    split; [vm_compute; reflexivity | vm_compute; discriminate].
Qed.
Theorem C81_only_known_refuted : ~ (forall infer sortv choice starts ep cl x o o', sorts_by_shifted sortv -> NoDup (times x) -> no_clash x ->
  degradation_year_on_year infer sortv choice starts false ep cl NoUncertainty x = Ok o ->
  degradation_year_on_year infer sortv choice starts false ep cl NoUncertainty (known_rows x) = Ok o' -> yo_values o' = yo_values o).
Proof.
  intros H. assert (yo_values (out_of (analysis (known_rows with_gap))) = yo_values (out_of (analysis with_gap))) as E.
  { apply (H demo_infer demo_sortv demo_choice [] (qz 95) (qz 68) with_gap); [exact demo_sortv_ok | exact gap_nodup | exact gap_no_clash | vm_compute; reflexivity | vm_compute; reflexivity]. }
  apply (f_equal (@List.length _)) in E. vm_compute in E. discriminate.
Qed.
Print Assumptions C81_only_known_refuted.

(** 740 days from 1 March 2013, one of them, 11 March 2013, without a value: there is no
    value for 11 March 2014. *)
Definition days740 : series := map (fun k => ((Z.of_nat k + 15765) * ns_day, if (k =? 10)%nat then NaN else Fin (qz (Z.of_nat k))))%Z (seq 0 740).
Lemma days740_In : forall t v, In (t, v) days740 <-> exists k, (k < 740)%nat /\ t = ((Z.of_nat k + 15765) * ns_day)%Z /\ v = if (k =? 10)%nat then NaN else Fin (qz (Z.of_nat k)).
Proof.
  intros t v. unfold days740. rewrite in_map_iff. split.
  - intros (k & E & K). injection E as <- <-. apply in_seq in K. exists k. split; [lia | split; reflexivity].
  - intros (k & K & -> & ->). exists k. split; [reflexivity |]. apply in_seq. lia.
Qed.
Lemma days740_daily : daily_from 15765 16504 days740.
Proof.
  intros t. unfold times. rewrite in_map_iff. split.
  - intros ([u v] & E & I). cbn in E. subst u. apply days740_In in I. destruct I as (k & K & -> & _). exists (Z.of_nat k + 15765)%Z. split; [lia | reflexivity].
  - intros (z & Hz & ->). exists ((z * ns_day)%Z, if (Z.to_nat (z - 15765) =? 10)%nat then NaN else Fin (qz (Z.of_nat (Z.to_nat (z - 15765))))). split; [reflexivity |].
    apply days740_In. exists (Z.to_nat (z - 15765)). split; [lia |]. split; [f_equal; lia | reflexivity].
Qed.
Lemma days740_nodup : NoDup (times days740).
Proof. unfold days740, times. rewrite map_map. cbn [fst]. apply FinFun.Injective_map_NoDup; [| apply seq_NoDup]. intros i j E. apply Z.mul_reg_r in E; [lia | discriminate]. Qed.
Transparent add_years land.
Lemma days740_no_clash : no_clash days740.
Proof.
  assert (forall k, (k < 740)%nat -> land (Z.of_nat k + 15765) = (Z.of_nat k + 15765 + if (k <? 730)%nat then 365 else 366)%Z) as LA.
  { assert (forallb (fun k => (land (Z.of_nat k + 15765) =? Z.of_nat k + 15765 + if (k <? 730)%nat then 365 else 366)%Z) (seq 0 740) = true) as F by (vm_compute; reflexivity).
    rewrite forallb_forall in F. intros k K. apply Z.eqb_eq. apply F. apply in_seq. lia. }
  assert (forall i j, (i < j)%nat -> (j < 740)%nat -> (land (Z.of_nat i + 15765) < land (Z.of_nat j + 15765))%Z) as LT.
  { intros i j A B. rewrite !LA by lia. destruct (Nat.ltb_spec i 730), (Nat.ltb_spec j 730); lia. }
  intros [t1 v1] [t2 v2] t I1 I2 L1 L2. apply days740_In in I1, I2. destruct I1 as (i & Hi & -> & _), I2 as (j & Hj & -> & _). cbn [fst] in *.
  apply one_year_later_eq in L1, L2. rewrite land_midnight in L1, L2. rewrite L1 in L2. apply Z.mul_reg_r in L2; [| discriminate].
  destruct (lt_eq_lt_dec i j) as [[C | ->] | C]; [specialize (LT i j C Hj); lia | reflexivity | specialize (LT j i C Hi); lia].
Qed.
Opaque add_years land.
Example C81_daily_example : exists o, analysis days740 = Ok o /\ ~ exists v, In (at_date 2014 3 11, v) (yo_values o).
Proof.
  assert (In (at_date 2014 3 11, Fin (qz 375)) days740) as I by (apply days740_In; exists 375%nat; split; [lia | split; vm_compute; reflexivity]).
  assert (In (at_date 2014 3 12, Fin (qz 376)) days740) as J by (apply days740_In; exists 376%nat; split; [lia | split; vm_compute; reflexivity]).
  assert (exists o, analysis days740 = Ok o) as [o R].
  { apply (yoy_ok_iff demo_infer demo_sortv demo_choice [] (qz 95) (qz 68) days740 demo_sortv_ok); [discriminate | exact days740_nodup | exact days740_no_clash | |].
    - intros t e K. apply days740_In in K. destruct K as (k & _ & _ & ->). destruct (k =? 10)%nat; [left; reflexivity | right; eexists; reflexivity].
    - split.
      + intros (ts & fi & la & f2 & _ & _ & [Hf Hf'] & [Hl Hl'] & Y & C). cbn in C.
        assert (fi <= 15765 * ns_day)%Z by (apply Hf'; apply days740_daily; exists 15765%Z; split; [lia | reflexivity]). assert (16504 * ns_day <= la)%Z by (apply Hl'; apply days740_daily; exists 16504%Z; split; [lia | reflexivity]).
        assert (fi = 15765 * ns_day)%Z as -> by (apply days740_daily in Hf; destruct Hf as (z & Hz & ->); pose proof ns_day_pos; nia).
        apply years_later_eq in Y. assert (f2 = 16495 * ns_day)%Z as -> by (rewrite Y; vm_compute; reflexivity). pose proof ns_day_pos. nia.
      + exists (at_date 2014 3 12), (Fin (qz 376)), (at_date 2013 3 12, Fin (qz 11)). split; [exact J |]. split; [| split; discriminate].
        split; [apply days740_In; exists 11%nat; split; [lia | split; vm_compute; reflexivity] |]. exists (at_date 2014 3 12).
        split; [apply one_year_later_iff; vm_compute; reflexivity |]. split; [lia |]. split; [unfold eight_days; lia |]. intros r2 t2 _ _ B. exact B. }
  exists o. split; [exact R |]. intros [v V].
  assert (~ late_february (at_date 2014 3 11)) as NF.
  { intros (y & d & Hd & Vd & E). apply Z.mul_reg_r in E; [| discriminate]. apply (f_equal civil_of_day) in E. rewrite (civil_of_day_inv _ Vd) in E. vm_compute in E. discriminate. }
  apply (C81_daily demo_infer demo_sortv demo_choice [] false (qz 95) (qz 68) NoUncertainty days740 15765 16504 o (at_date 2014 3 11) v demo_sortv_ok days740_nodup days740_daily (in_map fst _ _ I) NF R) in V.
  destruct V as (N & t0 & e0 & e & L & I0 & _ & E).
  assert (t0 = at_date 2013 3 11) as ->.
  { apply (daily_origin 15765 16504 days740 (at_date 2014 3 11)); [exact days740_daily | exact NF | exact (in_map fst _ _ I0) | apply days740_daily; exists 15775%Z; split; [lia | vm_compute; reflexivity] | exact (in_map fst _ _ I) | exact L |].
    apply one_year_later_iff. vm_compute. reflexivity. }
  assert (e0 = NaN) as ->.
  { apply (one_value days740 (at_date 2013 3 11) e0 NaN days740_nodup I0). apply days740_In. exists 10%nat. split; [lia | split; [vm_compute; reflexivity | reflexivity]]. }
  apply N. rewrite E. apply pair_value_nan. right. reflexivity.
Qed.

Print Assumptions C81_rows.
Print Assumptions C81_daily.
