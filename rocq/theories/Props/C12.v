(** C12: the Mann-Kendall test. *)

From Coq Require Import QArith Qcanon List ZArith Bool Permutation Sorted Lia.
From Verif.Base Require Import QcExtra Quantile Fl.
From Verif.Spec Require Import Regression.
From Verif.Model Require Import Regression.
From Verif.Proofs Require Import MannKendallP.
Import ListNotations.
Open Scope Qc_scope.

(** S counts rising minus falling pairs. *)
Theorem C12_statistic : forall x, mk_s x = concordance x.
Proof. exact mk_s_concordance. Qed.

Theorem C12_reversed : forall x, mk_s (rev x) = (- mk_s x)%Z.
Proof. exact mk_s_rev. Qed.

Theorem C12_negated : forall x, mk_s (map Qcopp x) = (- mk_s x)%Z.
Proof. exact mk_s_opp. Qed.

Theorem C12_monotone_transform : forall f x, (forall a b, a < b -> f a < f b) -> mk_s (map f x) = mk_s x.
Proof. exact mk_s_mono. Qed.

Theorem C12_bound : forall x, let n := Z.of_nat (length x) in (- (n * (n - 1)) <= 2 * mk_s x <= n * (n - 1))%Z.
Proof. exact mk_s_bound. Qed.

Theorem C12_maximum : forall x, let n := Z.of_nat (length x) in
  (2 * mk_s x = n * (n - 1))%Z <-> StronglySorted Qclt x.
Proof. exact mk_s_max. Qed.

Theorem C12_minimum : forall x, let n := Z.of_nat (length x) in
  (2 * mk_s x = - (n * (n - 1)))%Z <-> StronglySorted (fun a b => b < a) x.
Proof. exact mk_s_min. Qed.

(** The reported trend, on squares: S = [concordance x], the critical value is [z]. *)
Theorem C12_trend : forall z x,
  (mk_test z x = Increasing <-> (0 < concordance x)%Z /\
     z * z * mk_var x < qz ((concordance x - 1) * (concordance x - 1))) /\
  (mk_test z x = Decreasing <-> (concordance x < 0)%Z /\
     z * z * mk_var x < qz ((concordance x + 1) * (concordance x + 1))).
Proof. exact mk_test_iff. Qed.

Theorem C12_trend_reversed : forall z x, mk_test z (rev x) =
  match mk_test z x with Increasing => Decreasing | Decreasing => Increasing | NoTrend => NoTrend end.
Proof. exact mk_test_rev. Qed.

Theorem C12_trend_negated : forall z x, mk_test z (map Qcopp x) =
  match mk_test z x with Increasing => Decreasing | Decreasing => Increasing | NoTrend => NoTrend end.
Proof. exact mk_test_opp. Qed.

Theorem C12_trend_transform : forall z f x, (forall a b, a < b -> f a < f b) ->
  mk_test z (map f x) = mk_test z x.
Proof. exact mk_test_mono. Qed.

(** The variance: right without ties, too large with ties (by twice the tie terms). *)
Theorem C12_variance : forall x vs, distinct_values x vs ->
  mk_var x = mann_kendall_variance x vs + (1 + 1) * tie_terms x vs / qz 18.
Proof. exact mk_var_spec. Qed.

Theorem C12_variance_inflated : forall x vs, distinct_values x vs ->
  (NoDup x -> mk_var x = mann_kendall_variance x vs) /\
  (~ NoDup x -> mann_kendall_variance x vs < qz (group_term (Z.of_nat (length x))) / qz 18 /\
                qz (group_term (Z.of_nat (length x))) / qz 18 < mk_var x).
Proof. exact mk_var_inflated. Qed.

(** The tie correction changes answers: with critical value 1.96 this series has a
    significant increase, and the code reports no trend. *)
Definition c12_tied : list Qc := map qz [0; 0; 1; 2; 3]%Z.
Theorem C12_tie_correction_refuted :
  ~ (forall z x vs, distinct_values x vs -> (0 < concordance x)%Z ->
       z * z * mann_kendall_variance x vs < qz ((concordance x - 1) * (concordance x - 1)) ->
       mk_test z x = Increasing).
Proof.
  intros H. specialize (H (qf 49 25) c12_tied (map qz [0; 1; 2; 3]%Z)).
  assert (mk_test (qf 49 25) c12_tied = NoTrend) as E by (vm_compute; reflexivity).
  rewrite E in H. discriminate H.
  - split.
    + cbn [map]. repeat (constructor; [intros K; cbn [In] in K; decompose [or] K; try contradiction;
        match goal with H : qz _ = qz _ |- _ => apply qz_inj in H; discriminate end |]). constructor.
    + intros v. cbn. tauto.
  - reflexivity.
  - apply qlt_spec. vm_compute. reflexivity.
Qed.

Print Assumptions C12_statistic.
Print Assumptions C12_reversed.
Print Assumptions C12_negated.
Print Assumptions C12_monotone_transform.
Print Assumptions C12_bound.
Print Assumptions C12_maximum.
Print Assumptions C12_minimum.
Print Assumptions C12_trend.
Print Assumptions C12_trend_reversed.
Print Assumptions C12_trend_negated.
Print Assumptions C12_trend_transform.
Print Assumptions C12_variance.
Print Assumptions C12_variance_inflated.
Print Assumptions C12_tie_correction_refuted.

Example C12_example :
  mk_s (map qz [3; 1; 4; 1; 5]%Z) = 3%Z /\ mk_test (qf 49 25) (map qz [1; 2; 3; 4; 5; 6]%Z) = Increasing /\
  mk_test (qf 49 25) (map qz [6; 5; 4; 3; 2; 1]%Z) = Decreasing.
Proof. vm_compute. repeat split. Qed.
