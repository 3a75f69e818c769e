(** C10: ordinary least squares degradation rate. *)

From Coq Require Import QArith Qcanon List ZArith Bool Lia.
From Verif.Base Require Import QcExtra Quantile Fl Calendar.
From Verif.Spec Require Import Stats Regression.
From Verif.Model Require Import Bootstrap Regression.
From Verif.Proofs Require Import RegressionP UncertaintyP EdgeP RegressionP2.
Import ListNotations.
Open Scope Qc_scope.

(** The reported line has the least sum of squared deviations, and is the only one
    when two available values have different times. *)
Theorem C10_least_squares : forall draws cl t0 e0 s o,
  degradation_ols draws cl ((t0, e0) :: s) = Ok o ->
  forall b m,
    sq_error t0 ((t0, e0) :: s) (o_intercept o) (o_slope o) <= sq_error t0 ((t0, e0) :: s) b m /\
    ((exists t1 t2 y1 y2, In (t1, Fin y1) ((t0, e0) :: s) /\ In (t2, Fin y2) ((t0, e0) :: s) /\ t1 <> t2) ->
     sq_error t0 ((t0, e0) :: s) b m = sq_error t0 ((t0, e0) :: s) (o_intercept o) (o_slope o) ->
     b = o_intercept o /\ m = o_slope o).
Proof. exact ols_least_squares. Qed.

(** The rate is 100 times slope over intercept. *)
Theorem C10_rate : forall draws cl s o, degradation_ols draws cl s = Ok o ->
  o_rate o = fdiv (Fin (qz 100 * o_slope o)) (Fin (o_intercept o)).
Proof. exact ols_reported. Qed.

Theorem C10_succeeds : forall draws cl s, 0 <= cl -> cl <= qz 100 -> enough_points s ->
  exists o, degradation_ols draws cl s = Ok o.
Proof. exact ols_succeeds. Qed.

(** Exact lines are recovered. *)
Theorem C10_exact_line : forall draws cl t0 e0 s o a c,
  degradation_ols draws cl ((t0, e0) :: s) = Ok o ->
  enough_points ((t0, e0) :: s) -> on_line_from t0 a c ((t0, e0) :: s) ->
  o_slope o = c /\ o_intercept o = a /\ o_mse o = 0 /\ o_var_b o = 0 /\ o_var_m o = 0 /\
  (a <> 0 -> o_rate o = Fin (qz 100 * c / a)).
Proof. exact ols_exact_line. Qed.

(** Rows without a value have no effect (the first row fixes the time origin). *)
Theorem C10_ignores_missing : forall draws cl r s,
  degradation_ols draws cl (r :: s) =
  degradation_ols draws cl (r :: filter (fun r => notnan (snd r)) s).
Proof. exact ols_ignores_nan. Qed.

(** Moving all timestamps has no effect. *)
Theorem C10_shift : forall draws cl d s,
  degradation_ols draws cl (map (fun r => (fst r + d, snd r)%Z) s) = degradation_ols draws cl s.
Proof. exact ols_shift. Qed.

(** Multiplying the data by a non-zero constant does not change the rate; with a
    positive constant the interval is the same too, for draws that scale with the
    parameters (as [multivariate_normal] does under a fixed seed). *)
Theorem C10_scale_rate : forall draws cl k s o, k <> 0 -> 0 <= cl -> cl <= qz 100 ->
  degradation_ols draws cl s = Ok o -> o_intercept o <> 0 ->
  exists ci, degradation_ols draws cl
    (map (fun r => (fst r, match snd r with Fin y => Fin (k * y) | e => e end)) s) =
  Ok (mk_ols_out (o_rate o) ci (k * o_slope o) (k * o_intercept o)
                 (k * k * o_mse o) (k * k * o_var_b o) (k * k * o_var_m o)).
Proof. exact ols_scale_rate. Qed.

Theorem C10_scale : forall draws cl k s, 0 < k -> equivariant draws ->
  (forall o, degradation_ols draws cl s = Ok o -> o_intercept o <> 0) ->
  degradation_ols draws cl
    (map (fun r => (fst r, match snd r with Fin y => Fin (k * y) | e => e end)) s) =
  match degradation_ols draws cl s with
  | Ok o => Ok (mk_ols_out (o_rate o) (o_ci o) (k * o_slope o) (k * o_intercept o)
                 (k * k * o_mse o) (k * k * o_var_b o) (k * k * o_var_m o))
  | Raise e => Raise e
  end.
Proof. exact ols_scale. Qed.

(** The squared rmse is the residual sum of squares over n - 2, the squared standard errors
    are the diagonal of its product with the inverse normal matrix, and the interval ends
    are percentiles of 100 times slope over intercept of the draws. *)
Theorem C10_uncertainty : forall draws cl t0 e0 s o, let d := (t0, e0) :: s in
  degradation_ols draws cl d = Ok o -> enough_points d ->
  o_mse o * qz (Z.of_nat (length (finvals (map snd d))) - 2) = sq_error t0 d (o_intercept o) (o_slope o) /\
  exists vc, is_covariance t0 d (o_mse o) (o_var_b o) vc (o_var_m o) /\
    forall sample, draws (o_intercept o, o_slope o) (o_var_b o, vc, o_var_m o) =
                   map (fun p => (Fin (fst p), Fin (snd p))) sample ->
      sample <> [] -> (forall p, In p sample -> fst p <> 0) -> 0 <= cl -> cl <= qz 100 ->
      exists lo hi, o_ci o = (Fin (lo * qz 100), Fin (hi * qz 100)) /\
        is_percentile (qz 50 - cl / qz 2) (map (fun p => snd p / fst p) sample) lo /\
        is_percentile (qz 50 + cl / qz 2) (map (fun p => snd p / fst p) sample) hi.
Proof. exact ols_uncertainty. Qed.

(** Without rows there is no first timestamp. *)
Theorem C10_empty : forall draws cl, degradation_ols draws cl [] = Raise IndexError.
Proof. exact ols_empty. Qed.

(** When the regression fails and when it succeeds. *)
Theorem C10_outcomes : forall draws cl t0 e0 s, 0 <= cl -> cl <= qz 100 -> let d := (t0, e0) :: s in let k := List.length (finvals (vals d)) in
  (k = 0%nat -> degradation_ols draws cl d = Raise ValueError) /\
  (spread_out d -> ((k <= 2)%nat -> degradation_ols draws cl d = Raise LinAlgError) /\ ((3 <= k)%nat -> exists o, degradation_ols draws cl d = Ok o)) /\
  (~ spread_out d -> (k = 1%nat -> degradation_ols draws cl d = Raise LinAlgError) /\ ((2 <= k)%nat -> exists o, degradation_ols draws cl d = Ok o)).
Proof. exact ols_outcomes. Qed.

(** All values at one time (duplicate timestamps): of the lines with the least error the one with the smallest coefficients, with one
    degree of freedom less, and the covariance along it. *)
Theorem C10_one_time : forall draws cl t0 e0 s o t y, let d := (t0, e0) :: s in
  degradation_ols draws cl d = Ok o -> ~ spread_out d -> In (t, Fin y) d ->
  let x := years_between t0 t in let n := Z.of_nat (List.length (finvals (vals d))) in
  o_intercept o + o_slope o * x = qmean (finvals (vals d)) /\
  (forall b m, sq_error t0 d b m = sq_error t0 d (o_intercept o) (o_slope o) ->
     o_intercept o * o_intercept o + o_slope o * o_slope o <= b * b + m * m) /\
  o_mse o * qz (n - 1) = sq_error t0 d (o_intercept o) (o_slope o) /\
  o_var_b o * (qz n * (1 + x * x) * (1 + x * x)) = o_mse o /\ o_var_m o = x * x * o_var_b o /\
  degradation_CI (draws (o_intercept o, o_slope o) (o_var_b o, x * o_var_b o, o_var_m o)) cl = Ok (o_ci o).
Proof. exact ols_one_time. Qed.

(** Three values, the first of them missing, two at the same time half a year later. *)
Example C10_one_time_example :
  match degradation_ols (fun p c => [(Fin (fst p), Fin (snd p))]) (qz 68) [(0, NaN); (182 * ns_day + ns_day / 2, fz 4); (182 * ns_day + ns_day / 2, fz 6)]%Z with
  | Ok o => (qeq (o_intercept o) (qz 4) && qeq (o_slope o) (qz 2) && qeq (o_mse o) (qz 2) && qeq (o_var_b o) (qf 16 25))%bool
  | Raise _ => false end = true.
Proof. vm_compute. reflexivity. Qed.

Print Assumptions C10_least_squares.
Print Assumptions C10_rate.
Print Assumptions C10_succeeds.
Print Assumptions C10_exact_line.
Print Assumptions C10_ignores_missing.
Print Assumptions C10_shift.
Print Assumptions C10_scale_rate.
Print Assumptions C10_scale.
Print Assumptions C10_uncertainty.

(** Four rows, one missing, on the line 2 - 0.1 t, half a year apart. *)
Definition c10_half : Z := (ns_day * 365 / 2)%Z.
Definition c10_series : series :=
  [ (0%Z, Fin (qz 2)); (c10_half, NaN); ((2 * c10_half)%Z, Fin (qf 19 10)); ((4 * c10_half)%Z, Fin (qf 18 10)) ].
(** Draws around the parameters, scaled like the standard deviations. *)
Definition c10_draws (p : Qc * Qc) (c : Qc * Qc * Qc) : list (fl * fl) :=
  [ (Fin (fst p), Fin (snd p)); (Fin (qf 1 2 * fst p), Fin (snd p)) ].

Example C10_example :
  enough_points c10_series /\ on_line_from 0 (qz 2) (qf (-1) 10) c10_series /\ equivariant c10_draws /\
  exists o, degradation_ols c10_draws (qz 68) c10_series = Ok o /\ o_rate o = fz (-5) /\ o_intercept o = qz 2.
Proof.
  split.
  { split; [| cbn; lia]. exists 0%Z, (2 * c10_half)%Z, (qz 2), (qf 19 10). cbn [In c10_series].
    split; [auto |]. split; [auto |]. discriminate. }
  split.
  { intros t e H. cbn [In c10_series] in H.
    decompose [or] H; try contradiction; match goal with E : (_, _) = (_, _) |- _ => injection E as <- <- end;
      auto; right; f_equal; qc_canon. }
  split.
  { intros k Hk b m vb vc vm. unfold c10_draws. cbn [map fst snd fdiv].
    replace (qf 1 2 * (k * b)) with (k * (qf 1 2 * b)) by ring.
    assert (k <> 0) as Hk' by (apply Qc_pos_neq; exact Hk).
    assert (forall u, match Fin (k * m) with Fin x => fdiv (Fin (k * m)) (Fin (k * u)) | _ => NaN end = fdiv (Fin m) (Fin u)) as E.
    { intros u. cbn [fdiv]. destruct (qeq u 0) eqn:Eu; qb.
      - subst u. replace (k * 0) with 0 by ring. assert (qeq 0 0 = true) as -> by (apply qeq_spec; reflexivity).
        unfold inf_sgn. destruct (qlt 0 m) eqn:M1; qb.
        { assert (0 < k * m) as K by (apply Qc_mul_pos; assumption). apply qlt_spec in K. rewrite K. reflexivity. }
        assert (qlt 0 (k * m) = false) as -> by (apply qlt_false; qnra).
        destruct (qlt m 0) eqn:M2; qb.
        { assert (0 < k * - m) as K by (apply Qc_mul_pos; [assumption | qlra]).
          assert (qlt (k * m) 0 = true) as -> by (apply qlt_spec; replace (k * m) with (- (k * - m)) by ring; qlra). reflexivity. }
        assert (qlt (k * m) 0 = false) as -> by (apply qlt_false; qnra). reflexivity.
      - assert (qeq (k * u) 0 = false) as ->. { apply qeq_false. intros K. apply Qcmult_integral in K. tauto. }
        f_equal. field. auto. }
    cbn [fdiv] in E. rewrite !E. reflexivity. }
  eexists. split; [vm_compute; reflexivity |]. split; [vm_compute; f_equal; qc_canon | vm_compute; qc_canon].
Qed.

(** Noisy data: residual sum of squares 1/6 on three points, so the squared rmse is 1/6. *)
Definition c10_noisy : series :=
  [ (0%Z, Fin (qz 2)); ((2 * c10_half)%Z, Fin (qf 3 2)); ((4 * c10_half)%Z, Fin (qz 2)) ].
Example C10_uncertainty_example :
  enough_points c10_noisy /\
  exists o, degradation_ols c10_draws (qz 68) c10_noisy = Ok o /\ o_mse o = qf 1 6 /\ o_var_m o = qf 1 12 /\
    o_var_b o = qf 5 36.
Proof.
  split.
  { split; [| cbn; lia]. exists 0%Z, (2 * c10_half)%Z, (qz 2), (qf 3 2). cbn [In c10_noisy].
    split; [auto |]. split; [auto |]. discriminate. }
  eexists. split; [vm_compute; reflexivity |]. repeat split; vm_compute; qc_canon.
Qed.
Print Assumptions C10_empty.
Print Assumptions C10_outcomes.
Print Assumptions C10_one_time.
