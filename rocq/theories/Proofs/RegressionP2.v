(** Outcomes of the regression, and its solution when all rows have the same time. *)

From Coq Require Import QArith Qcanon List ZArith Bool Arith Lia.
From Verif.Base Require Import QcExtra Quantile Fl TimeSeries Calendar.
From Verif.Model Require Import Bootstrap Regression.
From Verif.Spec Require Import Stats Regression.
From Verif.Proofs Require Import StatsP RegressionP.
Import ListNotations.
Open Scope list_scope.
Open Scope Qc_scope.

Lemma same_times : forall t0 s, ~ spread_out s -> ols_points t0 s <> [] -> exists t y, In (t, Fin y) s /\ forall p, In p (ols_points t0 s) -> fst p = years_between t0 t.
Proof.
  intros t0 s N H. destruct (ols_points t0 s) as [|[x y] l] eqn:E; [contradiction|]. assert (In (x, y) (ols_points t0 s)) as I by (rewrite E; left; reflexivity).
  apply ols_points_In in I. destruct I as (t & I & Ex). exists t, y. split; [exact I|]. intros [x' y'] J. rewrite <- E in J. apply ols_points_In in J. destruct J as (t' & J & ->). cbn [fst].
  destruct (Z.eq_dec t' t) as [->|D]; [reflexivity|]. exfalso. apply N. exists t', t, y', y. split; [exact J|]. split; [exact I|exact D].
Qed.
Lemma mean_same : forall (l : list Qc) x, l <> [] -> (forall y, In y l -> y = x) -> qmean l = x.
Proof.
  intros l x N H. unfold qmean. assert (qsum l = x * qlen l) as ->.
  { clear N. unfold qlen. induction l as [|y l IH]; [change (0 = x * 0); ring|]. rewrite qsum_cons, IH by (intros z I; apply H; right; exact I). rewrite (H y (or_introl eq_refl)). cbn [List.length]. rewrite Nat2Z.inj_succ. unfold Z.succ. rewrite qz_add. change (qz 1) with 1. ring. }
  unfold Qcdiv. rewrite <- Qcmult_assoc, Qcmult_inv_r; [ring|]. unfold qlen. intros C. destruct l as [|y l]; [contradiction|]. assert (0 < qz (Z.of_nat (List.length (y :: l)))) as P by (apply qz_pos; cbn [List.length]; lia). rewrite C in P. discriminate P.
Qed.
Lemma same_sxx : forall l x, l <> [] -> (forall p, In p l -> fst p = x) -> sxx l = 0 /\ qmean (xs_of l) = x.
Proof.
  intros l x N H. assert (qmean (xs_of l) = x) as E by (apply mean_same; [unfold xs_of; destruct l; [contradiction|discriminate]|intros y I; unfold xs_of in I; apply in_map_iff in I; destruct I as (p & <- & I); apply H; exact I]).
  split; [|exact E]. unfold sxx. rewrite E. clear -H. induction l as [|p l IH]; [reflexivity|]. cbn [map]. rewrite qsum_cons, IH by (intros q I; apply H; right; exact I). rewrite (H p (or_introl eq_refl)). ring.
Qed.

Lemma ols_outcomes : forall draws cl t0 e0 s, 0 <= cl -> cl <= qz 100 -> let d := (t0, e0) :: s in let k := List.length (finvals (vals d)) in
  (k = 0%nat -> degradation_ols draws cl d = Raise ValueError) /\
  (spread_out d -> ((k <= 2)%nat -> degradation_ols draws cl d = Raise LinAlgError) /\ ((3 <= k)%nat -> exists o, degradation_ols draws cl d = Ok o)) /\
  (~ spread_out d -> (k = 1%nat -> degradation_ols draws cl d = Raise LinAlgError) /\ ((2 <= k)%nat -> exists o, degradation_ols draws cl d = Ok o)).
Proof.
  intros draws cl t0 e0 s H0 H1 d k. pose proof (ols_points_length t0 d) as L. fold k in L. clearbody k. change (degradation_ols draws cl d) with (regress draws cl (ols_points t0 d)).
  assert (RF : (1 <= k)%nat -> (k <= ols_rank (ols_points t0 d))%nat -> regress draws cl (ols_points t0 d) = Raise LinAlgError).
  { intros K R. unfold regress. destruct (ols_points t0 d) as [|p l]; [cbn in L; lia|]. rewrite (proj2 (Nat.leb_le _ _)) by lia. reflexivity. }
  assert (RO : (ols_rank (ols_points t0 d) < k)%nat -> exists o, regress draws cl (ols_points t0 d) = Ok o) by (intros R; apply regress_ok_iff; [exact H0|exact H1|lia]).
  split; [|split].
  - intros K. destruct (ols_points t0 d); [reflexivity|cbn in L; lia].
  - intros (t1 & t2 & y1 & y2 & I1 & I2 & D). pose proof (two_times_sxx t0 d t1 t2 y1 y2 I1 I2 D) as X. assert (ols_rank (ols_points t0 d) = 2%nat) as E2 by (unfold ols_rank; destruct (qeq _ _) eqn:E; [apply qeq_spec in E; contradiction|reflexivity]).
    split; [|intros K; apply RO; lia]. intros K. apply RF; [|lia]. rewrite <- L. assert (In (years_between t0 t1, y1) (ols_points t0 d)) as I by (apply ols_points_In; eauto). destruct (ols_points t0 d); [destruct I|cbn; lia].
  - intros N. assert (E1 : (1 <= k)%nat -> ols_rank (ols_points t0 d) = 1%nat).
    { intros K. assert (ols_points t0 d <> []) as NE by (intros C; rewrite C in L; cbn in L; lia). destruct (same_times t0 d N NE) as (t & y & _ & HS). destruct (same_sxx _ _ NE HS) as [X _].
      unfold ols_rank. rewrite X. reflexivity. }
    split; intros K; [apply RF; [lia|rewrite E1; lia]|apply RO; rewrite E1; lia].
Qed.

(** All values at one time: of the lines with the least error the one with the smallest coefficients. *)
Lemma ols_one_time : forall draws cl t0 e0 s o t y, let d := (t0, e0) :: s in
  degradation_ols draws cl d = Ok o -> ~ spread_out d -> In (t, Fin y) d ->
  let x := years_between t0 t in let n := Z.of_nat (List.length (finvals (vals d))) in
  o_intercept o + o_slope o * x = qmean (finvals (vals d)) /\
  (forall b m, sq_error t0 d b m = sq_error t0 d (o_intercept o) (o_slope o) ->
     o_intercept o * o_intercept o + o_slope o * o_slope o <= b * b + m * m) /\
  o_mse o * qz (n - 1) = sq_error t0 d (o_intercept o) (o_slope o) /\
  o_var_b o * (qz n * (1 + x * x) * (1 + x * x)) = o_mse o /\ o_var_m o = x * x * o_var_b o /\
  degradation_CI (draws (o_intercept o, o_slope o) (o_var_b o, x * o_var_b o, o_var_m o)) cl = Ok (o_ci o).
Proof.
  intros draws cl t0 e0 s o t y d E N I x n. change (regress draws cl (ols_points t0 d) = Ok o) in E. apply regress_Ok in E. destruct E as (NE & R & F & _ & EC & EM & EV).
  destruct (same_times t0 d N NE) as (t' & y' & I' & HS). assert (t' = t) as ->.
  { destruct (Z.eq_dec t' t) as [Q|D]; [exact Q|]. exfalso. apply N. exists t', t, y', y. split; [exact I'|]. split; [exact I|exact D]. }
  fold x in HS. destruct (same_sxx _ _ NE HS) as [X MX]. pose proof (ols_points_length t0 d) as L.
  assert (YS : ys_of (ols_points t0 d) = finvals (vals d)).
  { clear. unfold ys_of, vals. generalize d as l. induction l as [|[u e] l IH]; [reflexivity|]. destruct e; cbn [ols_points map snd finvals flat_map app]; try exact IH. cbn. f_equal. exact IH. }
  assert (D1 : 1 + x * x <> 0) by (intros C; assert (0 < 1 + x * x) as P by qnra; rewrite C in P; discriminate P).
  unfold ols_fit in F. rewrite X in F. change (qeq 0 0) with true in F. cbv iota zeta in F. rewrite MX, YS in F. set (mu := qmean (finvals (vals d))) in *.
  assert (FB : o_intercept o = mu / (1 + x * x)) by (injection F; intros _ Q; symmetry; exact Q). assert (FM : o_slope o = x * (mu / (1 + x * x))) by (injection F; intros Q _; symmetry; exact Q).
  assert (LV : o_intercept o + o_slope o * x = mu).
  { rewrite FB, FM. unfold Qcdiv. replace (mu * / (1 + x * x) + x * (mu * / (1 + x * x)) * x) with (mu * ((1 + x * x) * / (1 + x * x))) by ring. rewrite Qcmult_inv_r by exact D1. ring. }
  assert (RK : ols_rank (ols_points t0 d) = 1%nat) by (unfold ols_rank; rewrite X; reflexivity).
  assert (MS : o_mse o * qz (n - 1) = sq_error t0 d (o_intercept o) (o_slope o)).
  { rewrite EM. unfold ols_mse. destruct (ols_fit (ols_points t0 d)) as [b m] eqn:EF. assert (b = o_intercept o /\ m = o_slope o) as [-> ->].
    { unfold ols_fit in EF. rewrite X in EF. change (qeq 0 0) with true in EF. cbv iota zeta in EF. rewrite MX, YS in EF. fold mu in EF. injection EF as <- <-. split; congruence. }
    rewrite sq_error_eq, RK, L. fold n. change (Z.of_nat 1) with 1%Z. unfold Qcdiv. rewrite <- Qcmult_assoc, (Qcmult_comm (/ _)), Qcmult_inv_r; [ring|].
    rewrite RK, L in R. intros C. assert (0 < qz (n - 1)) as P by (apply qz_pos; unfold n; lia). rewrite C in P. discriminate P. }
  split; [exact LV|]. split; [|split; [exact MS|]].
  - intros b m Q.
    assert (SE : forall b m, sq_error t0 d b m = sq_error t0 d (o_intercept o) (o_slope o) + qz n * (b + m * x - mu) * (b + m * x - mu)).
    { intros b1 m1. rewrite !sq_error_eq. unfold ssr.
      assert (G : forall l c, (forall p, In p l -> fst p = x) -> qsum (map (fun p => (snd p - (b1 + m1 * fst p)) * (snd p - (b1 + m1 * fst p))) l) =
        qsum (map (fun p => (snd p - c) * (snd p - c)) l) + (1 + 1) * (c - (b1 + m1 * x)) * (qsum (map snd l) - c * qz (Z.of_nat (List.length l))) + qz (Z.of_nat (List.length l)) * (b1 + m1 * x - c) * (b1 + m1 * x - c)).
      { intros l c. induction l as [|p l IH]; intros H; [change (0 = 0 + (1 + 1) * (c - (b1 + m1 * x)) * (0 - c * 0) + 0 * (b1 + m1 * x - c) * (b1 + m1 * x - c)); ring|]. cbn [map List.length]. rewrite !qsum_cons, IH by (intros q J; apply H; right; exact J). rewrite (H p (or_introl eq_refl)), Nat2Z.inj_succ. unfold Z.succ. rewrite qz_add. change (qz 1) with 1. ring. }
      rewrite (G _ mu HS).
      assert (qsum (map snd (ols_points t0 d)) = mu * qz (Z.of_nat (List.length (ols_points t0 d)))) as ->.
      { change (map snd (ols_points t0 d)) with (ys_of (ols_points t0 d)). rewrite YS. unfold mu, qmean, qlen. rewrite L. unfold Qcdiv. rewrite <- Qcmult_assoc, (Qcmult_comm (/ _)), Qcmult_inv_r; [ring|].
        rewrite RK, L in R. intros C. assert (0 < qz n) as P by (apply qz_pos; unfold n; lia). unfold n in P. rewrite C in P. discriminate P. }
      rewrite L. fold n.
      assert (qsum (map (fun p => (snd p - (o_intercept o + o_slope o * fst p)) * (snd p - (o_intercept o + o_slope o * fst p))) (ols_points t0 d)) = qsum (map (fun p => (snd p - mu) * (snd p - mu)) (ols_points t0 d))) as ->; [|ring].
      f_equal. apply map_ext_in. intros p J. rewrite (HS p J), LV. reflexivity. }
    rewrite (SE b m) in Q. assert (b + m * x = mu) as BM.
    { assert (0 < qz n) as P by (apply qz_pos; unfold n; rewrite RK, L in R; lia). assert (qz n * (b + m * x - mu) * (b + m * x - mu) = 0) as Z0 by (set (a := qz n * (b + m * x - mu) * (b + m * x - mu)) in *; set (c := sq_error t0 d (o_intercept o) (o_slope o)) in *; qlra).
      apply Qcmult_integral in Z0. destruct Z0 as [Z0|Z0]; [apply Qcmult_integral in Z0; destruct Z0 as [Z0|Z0]; [rewrite Z0 in P; discriminate P|]|]; qlra. }
    rewrite FB, FM. set (c := mu / (1 + x * x)). assert (mu = c * (1 + x * x)) as EMu by (unfold c; unfold Qcdiv; rewrite <- Qcmult_assoc, (Qcmult_comm (/ _)), Qcmult_inv_r by exact D1; ring).
    assert (b = c * (1 + x * x) - m * x) as -> by (rewrite <- EMu, <- BM; ring). clear. assert (0 <= (m - x * c) * (m - x * c) * (1 + x * x)) as P by (apply Qc_mul_nonneg; qnra).
    replace ((c * (1 + x * x) - m * x) * (c * (1 + x * x) - m * x) + m * m) with ((m - x * c) * (m - x * c) * (1 + x * x) + (c * c + x * c * (x * c))) by ring. qlra.
  - unfold ols_cov in EV, EC. rewrite X in EV, EC. change (qeq 0 0) with true in EV, EC. cbv iota zeta in EV, EC. rewrite MX, <- EM in EV, EC. unfold qlen in EV, EC. rewrite L in EV, EC. fold n in EV, EC.
    set (c := o_mse o / (qz n * (1 + x * x) * (1 + x * x))) in *. cbn [fst snd] in EV. injection EV as EB EM'. rewrite <- EB, <- EM'. split; [|split; [ring|exact EC]].
    unfold c, Qcdiv. rewrite <- Qcmult_assoc, (Qcmult_comm (/ _)), Qcmult_inv_r; [ring|]. intros C. apply Qcmult_integral in C. destruct C as [C|C]; [|contradiction]. apply Qcmult_integral in C. destruct C as [C|C]; [|contradiction].
    assert (0 < qz n) as P by (apply qz_pos; unfold n; rewrite RK, L in R; lia). rewrite C in P. discriminate P.
Qed.
