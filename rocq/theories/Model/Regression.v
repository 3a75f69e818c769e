(** Model of degradation_ols, degradation_classical_decomposition, _mk_test and
    _degradation_CI, /repo/rdtools/degradation.py:11-177 and 359-451.

    Values are finite or NaN ([fl] without infinities is expected; infinite rows
    are treated like the finite ones would be by statsmodels only as far as the
    theorems require, i.e. the theorems assume there are none).

    External code:
    - statsmodels OLS is replaced by the closed form of the least squares solution
      (theorem C10_least_squares shows it minimises the sum of squared residuals);
      with all regressors equal, the pseudo-inverse picks the solution of least norm;
    - [draws params cov]: [np.random.multivariate_normal] (degradation.py:445);
    - [zcrit]: [norm.ppf(1 - alpha / 2)] (degradation.py:416).
    Square roots are not taken: [o_mse] is the square of the reported rmse and
    [o_var_b], [o_var_m] are the squares of the reported standard errors. *)

From Coq Require Import QArith Qcanon List ZArith Bool Arith.
From Verif.Base Require Import QcExtra Quantile Fl Calendar.
From Verif.Model Require Import Bootstrap.
Import ListNotations.
Open Scope Qc_scope.

(** degradation.py:41-43: elapsed days over 365. *)
Definition years_since (t0 t : Z) : Qc := qz (t - t0) / qz ns_day / qz 365.

(** Rows kept by [missing='drop'], degradation.py:49-51. *)
Fixpoint ols_points (t0 : Z) (s : series) : list (Qc * Qc) :=
  match s with
  | [] => []
  | (t, Fin y) :: s' => (years_since t0 t, y) :: ols_points t0 s'
  | _ :: s' => ols_points t0 s'
  end.

Definition xs_of (l : list (Qc * Qc)) : list Qc := map fst l.
Definition ys_of (l : list (Qc * Qc)) : list Qc := map snd l.
Definition sxx (l : list (Qc * Qc)) : Qc :=
  qsum (map (fun p => (fst p - qmean (xs_of l)) * (fst p - qmean (xs_of l))) l).
Definition sxy (l : list (Qc * Qc)) : Qc :=
  qsum (map (fun p => (fst p - qmean (xs_of l)) * (snd p - qmean (ys_of l))) l).

(** Intercept and slope, degradation.py:53-56. *)
Definition ols_fit (l : list (Qc * Qc)) : Qc * Qc :=
  if qeq (sxx l) 0 then
    let x := qmean (xs_of l) in
    (qmean (ys_of l) / (1 + x * x), x * (qmean (ys_of l) / (1 + x * x)))
  else
    let m := sxy l / sxx l in (qmean (ys_of l) - m * qmean (xs_of l), m).

Definition ssr (l : list (Qc * Qc)) (b m : Qc) : Qc :=
  qsum (map (fun p => (snd p - (b + m * fst p)) * (snd p - (b + m * fst p))) l).

(** Rank of the regressor matrix. *)
Definition ols_rank (l : list (Qc * Qc)) : nat := if qeq (sxx l) 0 then 1%nat else 2%nat.

(** [results.mse_resid]: sum of squared residuals over the residual degrees of
    freedom. *)
Definition ols_mse (l : list (Qc * Qc)) : Qc :=
  let (b, m) := ols_fit l in ssr l b m / qz (Z.of_nat (length l) - Z.of_nat (ols_rank l)).

(** Covariance of the parameters: (intercept, cross, slope) entries of
    [mse * pinv(X'X)]. *)
Definition ols_cov (l : list (Qc * Qc)) : Qc * Qc * Qc :=
  let n := qlen l in let x := qmean (xs_of l) in
  if qeq (sxx l) 0 then
    let c := ols_mse l / (n * (1 + x * x) * (1 + x * x)) in (c, x * c, x * x * c)
  else
    (ols_mse l * (1 / n + x * x / sxx l), - (ols_mse l * x / sxx l), ols_mse l / sxx l).

Record ols_out : Type := mk_ols_out {
  o_rate : fl; o_ci : fl * fl; o_slope : Qc; o_intercept : Qc;
  o_mse : Qc; o_var_b : Qc; o_var_m : Qc }.

(** degradation.py:428-451. *)
Definition degradation_CI (dist : list (fl * fl)) (confidence_level : Qc) : result (fl * fl) :=
  bind (percentile_ci confidence_level (map (fun p => fdiv (snd p) (fst p)) dist)) (fun ci =>
  Ok (fmul (fst ci) (fz 100), fmul (snd ci) (fz 100))).

(** degradation.py:46-79 and 140-177: regression on the given points.  No points:
    statsmodels raises ValueError.  No residual degrees of freedom: [mse_resid] is
    0/0 or x/0, the covariance is not finite and the singular value decomposition
    inside [multivariate_normal] raises LinAlgError. *)
Definition regress (draws : Qc * Qc -> Qc * Qc * Qc -> list (fl * fl)) (confidence_level : Qc)
    (l : list (Qc * Qc)) : result ols_out :=
  match l with
  | [] => Raise ValueError
  | _ =>
    if (length l <=? ols_rank l)%nat then Raise LinAlgError else
    let (b, m) := ols_fit l in
    let '(vb, _, vm) := ols_cov l in
    bind (degradation_CI (draws (b, m) (ols_cov l)) confidence_level) (fun ci =>
    Ok (mk_ols_out (fdiv (Fin (qz 100 * m)) (Fin b)) ci m b (ols_mse l) vb vm))
  end.

(** degradation.py:11-79.  An empty series makes [df.index[0]] raise IndexError. *)
Definition degradation_ols (draws : Qc * Qc -> Qc * Qc * Qc -> list (fl * fl))
    (confidence_level : Qc) (s : series) : result ols_out :=
  match s with
  | [] => Raise IndexError
  | (t0, _) :: _ => regress draws confidence_level (ols_points t0 s)
  end.

(** ** Mann-Kendall *)

(** degradation.py:389: sum over i < j of sign(x_j - x_i). *)
Fixpoint mk_s (x : list Qc) : Z :=
  match x with
  | [] => 0%Z
  | a :: x' => (fold_right Z.add 0 (map (fun b => qsgn (b - a)) x') + mk_s x')%Z
  end.

(** degradation.py:392: [np.unique]. *)
Definition unique_q (x : list Qc) : list Qc := nodup Qc_eq_dec x.

(** degradation.py:403. *)
Definition count_q (v : Qc) (x : list Qc) : Z := Z.of_nat (length (filter (qeq v) x)).

(** degradation.py:396-405. *)
Definition mk_var (x : list Qc) : Qc :=
  let n := Z.of_nat (length x) in
  if (length x =? length (unique_q x))%nat then qz (n * (n - 1) * (2 * n + 5)) / qz 18
  else
    (qz (n * (n - 1) * (2 * n + 5)) +
     qsum (map (fun v => let t := count_q v x in qz (t * (t - 1) * (2 * t + 5))) (unique_q x))) / qz 18.

Inductive mk_trend : Type := Decreasing | Increasing | NoTrend.

(** degradation.py:407-423: [z = (s -+ 1)/sqrt(var)]; [abs z > zcrit] is decided on
    squares (zcrit >= 0 and var > 0 whenever s <> 0). *)
Definition mk_test (zcrit : Qc) (x : list Qc) : mk_trend :=
  let s := mk_s x in let v := mk_var x in
  let h (d : Z) := qlt (zcrit * zcrit * v) (qz (d * d)) in
  if (0 <? s)%Z then (if h (s - 1)%Z then Increasing else NoTrend)
  else if (s <? 0)%Z then (if h (s + 1)%Z then Decreasing else NoTrend)
  else NoTrend.

(** ** Classical decomposition *)

(** Positions of the rows kept by [dropna()], degradation.py:119. *)
Definition kept_positions (s : series) : list nat :=
  filter (fun i => notnan (snd (nth i s (0%Z, NaN)))) (seq 0 (length s)).

(** Constant differences. *)
Fixpoint progression (d : nat) (l : list nat) : bool :=
  match l with
  | a :: ((b :: _) as l') => (b - a =? d)%nat && progression d l'
  | _ => true
  end.

(** [df_check_freq.index.freq is None], degradation.py:119-121: pandas keeps the
    frequency through a row selection whose positions form a slice. *)
Definition freq_lost (has_freq : bool) (s : series) : bool :=
  negb has_freq ||
  match kept_positions s with
  | [] => true
  | [_] => false
  | a :: ((b :: _) as l) => negb (progression (b - a) (a :: l))
  end.

(** [rolling('365d', center=True).mean()], degradation.py:132: the window is
    (t - 182.5 d, t + 182.5 d]; NaN values are skipped. *)
Definition rolling_year (s : series) (t : Z) : fl :=
  fmean (vals (filter (fun r => ((- (365 * ns_day) <? 2 * (fst r - t)) &&
                                 (2 * (fst r - t) <=? 365 * ns_day))%Z) s)).

(** degradation.py:132-136. *)
Definition energy_ma (s : series) : series :=
  match s with
  | [] => []
  | (t0, _) :: _ =>
    let last := fst (List.last s (t0, NaN)) in
    map (fun r =>
      (fst r,
       if qle (years_since t0 t0 + qf 1 2) (years_since t0 (fst r)) &&
          qle (years_since t0 (fst r)) (years_since t0 last - qf 1 2)
       then rolling_year s (fst r) else NaN)) s
  end.

Record cd_out : Type := mk_cd_out { cd_ols : ols_out; cd_series : series; cd_trend : mk_trend }.

(** degradation.py:82-177. *)
Definition classical_decomposition (draws : Qc * Qc -> Qc * Qc * Qc -> list (fl * fl))
    (zcrit confidence_level : Qc) (has_freq : bool) (s : series) : result cd_out :=
  if freq_lost has_freq s then Raise ValueError else
  match s with
  | [] => Raise ValueError
  | (t0, _) :: _ =>
    let ma := energy_ma s in
    bind (regress draws confidence_level (ols_points t0 ma)) (fun o =>
    Ok (mk_cd_out o ma (mk_test zcrit (finvals (vals ma)))))
  end.
