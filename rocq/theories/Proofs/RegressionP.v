(** Least squares: normal equations, optimality, invariances. *)

From Coq Require Import QArith Qcanon List ZArith Bool Permutation Sorted Lia Arith.
From Verif.Base Require Import QcExtra ISort Quantile Fl Calendar.
From Verif.Spec Require Import Stats Regression.
From Verif.Model Require Import Bootstrap Regression.
From Verif.Proofs Require Import StatsP FlP.
Import ListNotations.
Open Scope Qc_scope.

Lemma years_eq : forall t0 t, years_since t0 t = years_between t0 t.
Proof.
  intros t0 t. unfold years_since, years_between.
  replace (qz (365 * 86400 * 1000000000)) with (qz ns_day * qz 365)
    by (rewrite <- qz_mul; f_equal).
  assert (qz ns_day <> 0) by (apply qz_neq0; discriminate).
  assert (qz 365 <> 0) by (apply qz_neq0; discriminate).
  field. auto.
Qed.

(** ** Sums over points *)

Section Sums.
  Variable l : list (Qc * Qc).
  Hypothesis Hl : l <> [].
  Let X (p : Qc * Qc) := fst p.
  Let Y (p : Qc * Qc) := snd p.
  Let S (f : Qc * Qc -> Qc) := qsum (map f l).

  Lemma S_add : forall f g, S (fun p => f p + g p) = S f + S g.
  Proof. intros f g. apply qsum_map_add. Qed.
  Lemma S_scale : forall f c, S (fun p => c * f p) = c * S f.
  Proof. intros f c. apply qsum_map_scale. Qed.
  Lemma S_const : forall c, S (fun _ => c) = qlen l * c.
  Proof. intros c. apply qsum_const. Qed.
  Lemma S_ext : forall f g, (forall p, f p = g p) -> S f = S g.
  Proof. intros f g H. unfold S. f_equal. apply map_ext. exact H. Qed.

  Lemma len_ne0 : qlen l <> 0.
  Proof. apply Qc_pos_neq, qlen_pos, Hl. Qed.

  Lemma mean_x : qmean (xs_of l) = S X / qlen l.
  Proof. unfold qmean, xs_of, S, X, qlen. rewrite map_length. reflexivity. Qed.
  Lemma mean_y : qmean (ys_of l) = S Y / qlen l.
  Proof. unfold qmean, ys_of, S, Y, qlen. rewrite map_length. reflexivity. Qed.

  Lemma sxx_raw : sxx l = S (fun p => X p * X p) - S X * S X / qlen l.
  Proof.
    pose proof len_ne0 as Hn. unfold sxx. set (mx := qmean (xs_of l)).
    change (qsum (map (fun p => (fst p - mx) * (fst p - mx)) l))
      with (S (fun p => (X p - mx) * (X p - mx))).
    rewrite (S_ext _ (fun p => (X p * X p + (- (qz 2) * mx) * X p) + mx * mx)).
    - rewrite S_add, S_add, S_scale, S_const. unfold mx. rewrite mean_x.
      change (qz 2) with (1 + 1). field. exact Hn.
    - intros p. change (qz 2) with (1 + 1). ring.
  Qed.

  Lemma sxy_raw : sxy l = S (fun p => X p * Y p) - S X * S Y / qlen l.
  Proof.
    pose proof len_ne0 as Hn. unfold sxy. set (mx := qmean (xs_of l)). set (my := qmean (ys_of l)).
    change (qsum (map (fun p => (fst p - mx) * (snd p - my)) l))
      with (S (fun p => (X p - mx) * (Y p - my))).
    rewrite (S_ext _ (fun p => ((X p * Y p + (- mx) * Y p) + (- my) * X p) + mx * my)).
    - rewrite !S_add, !S_scale, S_const. unfold mx, my. rewrite mean_x, mean_y. field. exact Hn.
    - intros p. ring.
  Qed.

  Lemma ssr_raw : forall b m, ssr l b m =
    S (fun p => Y p * Y p) - (1 + 1) * b * S Y - (1 + 1) * m * S (fun p => X p * Y p)
    + qlen l * b * b + (1 + 1) * b * m * S X + m * m * S (fun p => X p * X p).
  Proof.
    intros b m. unfold ssr.
    change (qsum (map (fun p => (snd p - (b + m * fst p)) * (snd p - (b + m * fst p))) l))
      with (S (fun p => (Y p - (b + m * X p)) * (Y p - (b + m * X p)))).
    rewrite (S_ext _ (fun p => (((((Y p * Y p) + (- (1 + 1) * b) * Y p) + (- (1 + 1) * m) * (X p * Y p))
                               + b * b) + ((1 + 1) * b * m) * X p) + (m * m) * (X p * X p)))
      by (intros p; ring).
    rewrite !S_add, !S_scale, S_const. ring.
  Qed.

  Lemma sxx_nonneg : 0 <= sxx l.
  Proof.
    unfold sxx. apply qsum_nonneg. apply Forall_forall. intros x Hx.
    apply in_map_iff in Hx. destruct Hx as (p & <- & _).
    set (d := fst p - qmean (xs_of l)). qnra.
  Qed.

  (** Decomposition of the error around the fit. *)
  Lemma ssr_decomp : forall b m b' m',
    S (fun p => Y p - (b + m * X p)) = 0 -> S (fun p => X p * (Y p - (b + m * X p))) = 0 ->
    ssr l b' m' = ssr l b m +
      (qlen l * (((b' - b) + (m' - m) * qmean (xs_of l)) * ((b' - b) + (m' - m) * qmean (xs_of l)))
       + sxx l * ((m' - m) * (m' - m))).
  Proof.
    intros b m b' m' N1 N2. pose proof len_ne0 as Hn.
    assert (S Y - qlen l * b - m * S X = 0) as E1.
    { rewrite <- N1. rewrite (S_ext (fun p => Y p - (b + m * X p)) (fun p => (Y p + (- b)) + (- m) * X p)) by (intros; ring).
      rewrite !S_add, S_scale, S_const. ring. }
    assert (S (fun p => X p * Y p) - b * S X - m * S (fun p => X p * X p) = 0) as E2.
    { rewrite <- N2.
      rewrite (S_ext (fun p => X p * (Y p - (b + m * X p)))
                     (fun p => (X p * Y p + (- b) * X p) + (- m) * (X p * X p))) by (intros; ring).
      rewrite !S_add, !S_scale. ring. }
    rewrite !ssr_raw, mean_x, sxx_raw.
    set (n := qlen l) in *. set (sx := S X) in *. set (sy := S Y) in *.
    set (xx := S (fun p => X p * X p)) in *. set (xy := S (fun p => X p * Y p)) in *.
    set (yy := S (fun p => Y p * Y p)).
    assert (sy = n * b + m * sx) as -> by (rewrite <- (Qcplus_0_l (n * b + m * sx)), <- E1; ring).
    assert (xy = b * sx + m * xx) as -> by (rewrite <- (Qcplus_0_l (b * sx + m * xx)), <- E2; ring).
    field. exact Hn.
  Qed.

  Lemma sxx_zero_all : sxx l = 0 -> forall p, In p l -> fst p = qmean (xs_of l).
  Proof.
    intros H p Hp. unfold sxx in H. set (mx := qmean (xs_of l)) in *.
    assert (forall l', (forall q, In q l' -> In q l) ->
      qsum (map (fun p => (fst p - mx) * (fst p - mx)) l') = 0 -> forall p, In p l' -> fst p = mx) as G.
    { clear. induction l' as [| q l' IH]; intros Hin H p Hp; [destruct Hp |].
      cbn [map] in H. rewrite qsum_cons in H.
      assert (0 <= qsum (map (fun p => (fst p - mx) * (fst p - mx)) l')) as Hr.
      { apply qsum_nonneg. apply Forall_forall. intros x Hx. apply in_map_iff in Hx.
        destruct Hx as (p0 & <- & _). set (d := fst p0 - mx). qnra. }
      assert (0 <= (fst q - mx) * (fst q - mx)) as Hq by (set (d := fst q - mx); qnra).
      assert (fst q - mx = 0) as Eq.
      { assert ((fst q - mx) * (fst q - mx) = 0) as Z by (apply Qcle_antisym; qlra).
        apply Qcmult_integral in Z. tauto. }
      assert (qsum (map (fun p => (fst p - mx) * (fst p - mx)) l') = 0) as Zr by (apply Qcle_antisym; qlra).
      destruct Hp as [<- | Hp]; [qlra | apply IH; auto]. intros q' Hq'. apply Hin. right. exact Hq'. }
    apply (G l); auto.
  Qed.

  Lemma fit_normal : let (b, m) := ols_fit l in
    S (fun p => Y p - (b + m * X p)) = 0 /\ S (fun p => X p * (Y p - (b + m * X p))) = 0.
  Proof.
    pose proof len_ne0 as Hn. unfold ols_fit.
    destruct (qeq (sxx l) 0) eqn:E.
    - qb. set (x := qmean (xs_of l)). set (y := qmean (ys_of l)).
      assert (forall p, In p l -> X p = x) as HX by (apply sxx_zero_all, E).
      assert (1 + x * x <> 0) as Hd by (assert (0 <= x * x) by qnra; qlra).
      assert (S (fun p => Y p - (y / (1 + x * x) + x * (y / (1 + x * x)) * X p)) = 0) as G1.
      { assert (S (fun p => Y p - (y / (1 + x * x) + x * (y / (1 + x * x)) * X p)) =
                S (fun p => Y p + (- y))) as ->.
        { unfold S. f_equal. apply map_ext_in. intros p Hp. rewrite (HX p Hp). field. exact Hd. }
        rewrite S_add, S_const. unfold y. rewrite mean_y. field. exact Hn. }
      split; [exact G1 |].
      assert (S (fun p => X p * (Y p - (y / (1 + x * x) + x * (y / (1 + x * x)) * X p))) =
              S (fun p => x * (Y p - (y / (1 + x * x) + x * (y / (1 + x * x)) * X p)))) as ->.
      { unfold S. f_equal. apply map_ext_in. intros p Hp. rewrite (HX p Hp). reflexivity. }
      rewrite S_scale. rewrite G1. ring.
    - qb. set (m := sxy l / sxx l). 
      rewrite (S_ext (fun p => Y p - (qmean (ys_of l) - m * qmean (xs_of l) + m * X p))
                 (fun p => (Y p + (- m) * X p) + (- (qmean (ys_of l) - m * qmean (xs_of l))))) by (intros; ring).
      rewrite (S_ext (fun p => X p * (Y p - (qmean (ys_of l) - m * qmean (xs_of l) + m * X p)))
                 (fun p => (X p * Y p + (- m) * (X p * X p)) + (- (qmean (ys_of l) - m * qmean (xs_of l))) * X p))
        by (intros; ring).
      rewrite !S_add, !S_scale, S_const. rewrite mean_x, mean_y. split.
      + field. exact Hn.
      + assert (m * sxx l = sxy l) as Em by (unfold m; apply Qc_div_mul; exact E).
        rewrite sxx_raw, sxy_raw in Em.
        set (n := qlen l) in *. set (sx := S X) in *. set (sy := S Y) in *.
        set (xx := S (fun p => X p * X p)) in *. set (xy := S (fun p => X p * Y p)) in *.
        assert (xy = m * (xx - sx * sx / n) + sx * sy / n) as -> by (rewrite Em; ring).
        field. exact Hn.
  Qed.

  Lemma fit_optimal : let (b, m) := ols_fit l in
    forall b' m', ssr l b m <= ssr l b' m' /\
      (sxx l <> 0 -> ssr l b' m' = ssr l b m -> b' = b /\ m' = m).
  Proof.
    pose proof fit_normal as N. destruct (ols_fit l) as [b m]. destruct N as [N1 N2].
    intros b' m'. rewrite (ssr_decomp b m b' m' N1 N2).
    pose proof (qlen_pos _ l Hl) as Hn. pose proof sxx_nonneg as Hs.
    set (u := (b' - b) + (m' - m) * qmean (xs_of l)).
    assert (0 <= qlen l * (u * u)) as A by (apply Qc_mul_nonneg; [qlra | qnra]).
    assert (0 <= sxx l * ((m' - m) * (m' - m))) as B by (apply Qc_mul_nonneg; [exact Hs | set (d := m' - m); qnra]).
    split; [qlra |]. intros Hx HE.
    assert (qlen l * (u * u) = 0) as Z1 by (apply Qcle_antisym; qlra).
    assert (sxx l * ((m' - m) * (m' - m)) = 0) as Z2 by (apply Qcle_antisym; qlra).
    apply Qcmult_integral in Z2. destruct Z2 as [Z2 | Z2]; [contradiction |].
    apply Qcmult_integral in Z2. assert (m' - m = 0) as Dm by tauto.
    apply Qcmult_integral in Z1. destruct Z1 as [Z1 | Z1]; [exfalso; revert Z1; apply len_ne0 |].
    apply Qcmult_integral in Z1. assert (u = 0) as Du by tauto.
    unfold u in Du. rewrite Dm in Du. split; qlra.
  Qed.

  (** Exact lines. *)
  Lemma fit_line : forall a c, (forall p, In p l -> snd p = a + c * fst p) -> sxx l <> 0 ->
    ols_fit l = (a, c) /\ ssr l a c = 0.
  Proof.
    intros a c HP Hx. pose proof fit_optimal as F. destruct (ols_fit l) as [b m].
    assert (ssr l a c = 0) as Z.
    { unfold ssr. rewrite (map_ext_in _ (fun _ => 0)).
      - rewrite qsum_const. ring.
      - intros p Hp. rewrite (HP p Hp). ring. }
    split; [| exact Z]. destruct (F a c) as [F1 F2].
    assert (0 <= ssr l b m) as N.
    { unfold ssr. apply qsum_nonneg. apply Forall_forall. intros x Hx'. apply in_map_iff in Hx'.
      destruct Hx' as (p & <- & _). set (d := snd p - (b + m * fst p)). qnra. }
    destruct (F2 Hx) as [-> ->]; [apply Qcle_antisym; qlra | reflexivity].
  Qed.
End Sums.

(** ** degradation_ols *)

Lemma ols_points_In : forall t0 s x y, In (x, y) (ols_points t0 s) <->
  exists t, In (t, Fin y) s /\ x = years_between t0 t.
Proof.
  intros t0 s x y. induction s as [| [t e] s IH]; cbn [ols_points].
  - split; [intros [] | intros (t & [] & _)].
  - destruct e as [| | q |]; cbn [In]; rewrite IH; clear IH.
    + split; [intros (t' & H & E); exists t'; auto | intros (t' & [H | H] & E); [discriminate | exists t'; auto]].
    + split; [intros (t' & H & E); exists t'; auto | intros (t' & [H | H] & E); [discriminate | exists t'; auto]].
    + rewrite years_eq. split.
      * intros [H | (t' & H & E)]; [| exists t'; auto]. injection H as <- <-. exists t. auto.
      * intros (t' & [H | H] & E); [injection H as <- <-; left; rewrite E; reflexivity | right; exists t'; auto].
    + split; [intros (t' & H & E); exists t'; auto | intros (t' & [H | H] & E); [discriminate | exists t'; auto]].
Qed.

Lemma ols_points_length : forall t0 s, length (ols_points t0 s) = length (finvals (vals s)).
Proof.
  intros t0 s. unfold vals. induction s as [| [t e] s IH]; [reflexivity |].
  destruct e; cbn; rewrite ?IH; reflexivity.
Qed.

Lemma sq_error_eq : forall t0 s b m, sq_error t0 s b m = ssr (ols_points t0 s) b m.
Proof.
  intros t0 s b m. induction s as [| [t e] s IH]; [reflexivity |].
  destruct e; cbn [sq_error ols_points]; try exact IH.
  unfold ssr in *. cbn [map]. rewrite qsum_cons, IH. cbn [fst snd]. rewrite years_eq. reflexivity.
Qed.

Lemma years_between_inj : forall t0 t1 t2, years_between t0 t1 = years_between t0 t2 -> t1 = t2.
Proof.
  intros t0 t1 t2 H. unfold years_between in H.
  assert (qz (365 * 86400 * 1000000000) <> 0) as N by (apply qz_neq0; discriminate).
  apply (f_equal (fun x => x * qz (365 * 86400 * 1000000000))) in H.
  rewrite !Qc_div_mul in H by exact N. apply qz_inj in H. lia.
Qed.

Lemma two_times_sxx : forall t0 s t1 t2 y1 y2, In (t1, Fin y1) s -> In (t2, Fin y2) s -> t1 <> t2 ->
  sxx (ols_points t0 s) <> 0.
Proof.
  intros t0 s t1 t2 y1 y2 H1 H2 Hne H.
  assert (In (years_between t0 t1, y1) (ols_points t0 s)) as I1 by (apply ols_points_In; eauto).
  assert (In (years_between t0 t2, y2) (ols_points t0 s)) as I2 by (apply ols_points_In; eauto).
  pose proof (sxx_zero_all _ H _ I1) as E1. pose proof (sxx_zero_all _ H _ I2) as E2.
  cbn [fst] in *. apply Hne, (years_between_inj t0). congruence.
Qed.

Lemma np_percentile_ok : forall p l, 0 <= p -> p <= qz 100 -> exists v, np_percentile p l = Ok v.
Proof.
  intros p l H0 H1. unfold np_percentile.
  apply qle_spec in H0, H1. rewrite H0, H1. eexists. reflexivity.
Qed.

Lemma percentile_ci_ok : forall c l, 0 <= c -> c <= qz 100 -> exists ci, percentile_ci c l = Ok ci.
Proof.
  intros c l H0 H1. destruct (ci_lo_range c H0 H1) as [A B]. unfold percentile_ci.
  destruct (np_percentile_ok (qz 50 - c / qz 2) l) as [v E]; [qlra | qlra |]. rewrite E. cbn.
  destruct (np_percentile_ok (qz 50 + c / qz 2) l) as [v' E']; [qlra | qlra |]. rewrite E'. cbn. eauto.
Qed.

Lemma degradation_CI_ok : forall d c, 0 <= c -> c <= qz 100 -> exists ci, degradation_CI d c = Ok ci.
Proof.
  intros d c H0 H1. unfold degradation_CI.
  destruct (percentile_ci_ok c (map (fun p => fdiv (snd p) (fst p)) d) H0 H1) as [ci E]. rewrite E.
  cbn. eauto.
Qed.

Lemma regress_Ok : forall draws cl l o, regress draws cl l = Ok o ->
  l <> [] /\ (ols_rank l < length l)%nat /\ ols_fit l = (o_intercept o, o_slope o) /\
  o_rate o = fdiv (Fin (qz 100 * o_slope o)) (Fin (o_intercept o)) /\
  degradation_CI (draws (o_intercept o, o_slope o) (ols_cov l)) cl = Ok (o_ci o) /\
  o_mse o = ols_mse l /\ ols_cov l = (o_var_b o, snd (fst (ols_cov l)), o_var_m o).
Proof.
  intros draws cl l o H. unfold regress in H. destruct l as [| p l]; [discriminate |].
  destruct (length (p :: l) <=? ols_rank (p :: l))%nat eqn:R; [discriminate |].
  apply Nat.leb_gt in R.
  destruct (ols_fit (p :: l)) as [b m] eqn:F. destruct (ols_cov (p :: l)) as [[vb vc] vm] eqn:C.
  destruct (degradation_CI _ _) as [ci |] eqn:D; [| discriminate]. cbn [bind] in H. injection H as <-.
  cbn [o_intercept o_slope o_rate o_ci o_mse o_var_b o_var_m fst snd].
  split; [discriminate |]. split; [exact R |]. auto.
Qed.

Lemma regress_ok_iff : forall draws cl l, 0 <= cl -> cl <= qz 100 ->
  ((exists o, regress draws cl l = Ok o) <-> (ols_rank l < length l)%nat).
Proof.
  intros draws cl l H0 H1. split.
  - intros [o H]. apply regress_Ok in H. tauto.
  - intros H. unfold regress. destruct l as [| p l]; [cbn in H; lia |].
    assert (length (p :: l) <=? ols_rank (p :: l) = false)%nat as -> by (apply Nat.leb_gt; exact H).
    destruct (ols_fit (p :: l)) as [b m]. destruct (ols_cov (p :: l)) as [[vb vc] vm] eqn:E.
    destruct (degradation_CI_ok (draws (b, m) (vb, vc, vm)) cl H0 H1) as [ci Eci]. rewrite Eci.
    cbn. eauto.
Qed.

Lemma ols_least_squares : forall draws cl t0 e0 s o,
  degradation_ols draws cl ((t0, e0) :: s) = Ok o ->
  forall b m,
    sq_error t0 ((t0, e0) :: s) (o_intercept o) (o_slope o) <= sq_error t0 ((t0, e0) :: s) b m /\
    ((exists t1 t2 y1 y2, In (t1, Fin y1) ((t0, e0) :: s) /\ In (t2, Fin y2) ((t0, e0) :: s) /\ t1 <> t2) ->
     sq_error t0 ((t0, e0) :: s) b m = sq_error t0 ((t0, e0) :: s) (o_intercept o) (o_slope o) ->
     b = o_intercept o /\ m = o_slope o).
Proof.
  intros draws cl t0 e0 s o H b m. cbn [degradation_ols] in H.
  apply regress_Ok in H. destruct H as (Hl & _ & F & _).
  pose proof (fit_optimal _ Hl) as O. rewrite F in O. destruct (O b m) as [O1 O2].
  rewrite !sq_error_eq. split; [exact O1 |].
  intros (t1 & t2 & y1 & y2 & H1 & H2 & Hne) HE. apply O2; [| exact HE].
  exact (two_times_sxx t0 _ t1 t2 y1 y2 H1 H2 Hne).
Qed.

Lemma ols_reported : forall draws cl s o, degradation_ols draws cl s = Ok o ->
  o_rate o = fdiv (Fin (qz 100 * o_slope o)) (Fin (o_intercept o)).
Proof.
  intros draws cl [| [t0 e0] s] o H; [discriminate |]. apply regress_Ok in H. tauto.
Qed.

Lemma enough_rank : forall t0 s, enough_points s -> (ols_rank (ols_points t0 s) < length (ols_points t0 s))%nat.
Proof.
  intros t0 s [_ H]. rewrite ols_points_length. unfold ols_rank, vals. destruct (qeq _ _); lia.
Qed.

Lemma ols_succeeds : forall draws cl s, 0 <= cl -> cl <= qz 100 -> enough_points s ->
  exists o, degradation_ols draws cl s = Ok o.
Proof.
  intros draws cl s H0 H1 HE. destruct s as [| [t0 e0] s].
  - destruct HE as [_ H]. cbn in H. lia.
  - cbn [degradation_ols]. apply regress_ok_iff; auto. apply enough_rank, HE.
Qed.

Lemma ols_exact_line : forall draws cl t0 e0 s o a c,
  degradation_ols draws cl ((t0, e0) :: s) = Ok o ->
  enough_points ((t0, e0) :: s) -> on_line_from t0 a c ((t0, e0) :: s) ->
  o_slope o = c /\ o_intercept o = a /\ o_mse o = 0 /\ o_var_b o = 0 /\ o_var_m o = 0 /\
  (a <> 0 -> o_rate o = Fin (qz 100 * c / a)).
Proof.
  intros draws cl t0 e0 s o a c H HE HL. cbn [degradation_ols] in H.
  apply regress_Ok in H. destruct H as (Hl & Hr & F & ER & _ & EM & EC).
  assert (sxx (ols_points t0 ((t0, e0) :: s)) <> 0) as Hx.
  { destruct HE as [(t1 & t2 & y1 & y2 & H1 & H2 & Hne) _]. exact (two_times_sxx t0 _ t1 t2 y1 y2 H1 H2 Hne). }
  assert (forall p, In p (ols_points t0 ((t0, e0) :: s)) -> snd p = a + c * fst p) as HP.
  { intros [x y] Hp. apply ols_points_In in Hp. destruct Hp as (t & Hin & ->). cbn [fst snd].
    destruct (HL _ _ Hin) as [E | E]; [discriminate | injection E; auto]. }
  destruct (fit_line _ Hl a c HP Hx) as [F' Z]. rewrite F' in F. injection F as Ea Ec.
  assert (ols_mse (ols_points t0 ((t0, e0) :: s)) = 0) as M0.
  { unfold ols_mse. rewrite F', Z. unfold Qcdiv. ring. }
  split; [symmetry; exact Ec |]. split; [symmetry; exact Ea |].
  split; [rewrite EM; exact M0 |].
  unfold ols_cov in EC. rewrite M0 in EC. destruct (qeq _ 0) eqn:E0; [qb; contradiction |].
  cbn [fst snd] in EC. injection EC as Eb Em.
  split; [rewrite <- Eb; ring |]. split; [rewrite <- Em; unfold Qcdiv; ring |].
  intros Ha. rewrite ER, <- Ea, <- Ec. cbn [fdiv]. destruct (qeq a 0) eqn:E1; [qb; contradiction |].
  reflexivity.
Qed.

(** Rows without a value have no effect (except for fixing the time origin). *)
Lemma ols_points_nan : forall t0 s,
  ols_points t0 s = ols_points t0 (filter (fun r => notnan (snd r)) s).
Proof.
  intros t0 s. induction s as [| [t e] s IH]; [reflexivity |].
  destruct e; cbn; rewrite IH; reflexivity.
Qed.

Lemma ols_ignores_nan : forall draws cl r s,
  degradation_ols draws cl (r :: s) =
  degradation_ols draws cl (r :: filter (fun r => notnan (snd r)) s).
Proof.
  intros draws cl [t0 e0] s. cbn [degradation_ols]. f_equal.
  cbn [ols_points]. rewrite <- ols_points_nan. reflexivity.
Qed.

Lemma ols_shift : forall draws cl d s,
  degradation_ols draws cl (map (fun r => (fst r + d, snd r)%Z) s) = degradation_ols draws cl s.
Proof.
  intros draws cl d [| [t0 e0] s]; [reflexivity |]. cbn [map degradation_ols fst snd]. f_equal.
  change ((t0 + d, e0)%Z :: map (fun r => (fst r + d, snd r)%Z) s)
    with (map (fun r => (fst r + d, snd r)%Z) ((t0, e0) :: s)).
  induction ((t0, e0) :: s) as [| [t e] l IH]; [reflexivity |].
  cbn [map fst snd ols_points]. rewrite IH.
  assert (years_since (t0 + d) (t + d) = years_since t0 t) as ->; [| reflexivity].
  unfold years_since. f_equal. f_equal. f_equal. lia.
Qed.

(** ** Scaling the values *)

Definition yscale (k : Qc) (l : list (Qc * Qc)) : list (Qc * Qc) := map (fun p => (fst p, k * snd p)) l.

Lemma ols_points_scale : forall k t0 s,
  ols_points t0 (map (fun r => (fst r, match snd r with Fin y => Fin (k * y) | e => e end)) s) =
  yscale k (ols_points t0 s).
Proof.
  intros k t0 s. induction s as [| [t e] s IH]; [reflexivity |].
  destruct e; cbn; rewrite IH; reflexivity.
Qed.

Lemma xs_yscale : forall k l, xs_of (yscale k l) = xs_of l.
Proof. intros k l. unfold xs_of, yscale. rewrite map_map. reflexivity. Qed.

Lemma qmean_ys_yscale : forall k l, qmean (ys_of (yscale k l)) = k * qmean (ys_of l).
Proof.
  intros k l. unfold qmean, ys_of, yscale. rewrite map_map. cbn [snd].
  rewrite (qsum_map_scale _ snd). unfold qlen. rewrite !map_length. unfold Qcdiv. ring.
Qed.

Lemma sxx_yscale : forall k l, sxx (yscale k l) = sxx l.
Proof. intros k l. unfold sxx. rewrite xs_yscale. unfold yscale. rewrite map_map. reflexivity. Qed.

Lemma sxy_yscale : forall k l, sxy (yscale k l) = k * sxy l.
Proof.
  intros k l. unfold sxy. rewrite xs_yscale, qmean_ys_yscale. unfold yscale. rewrite map_map. cbn [fst snd].
  rewrite <- qsum_map_scale. f_equal. apply map_ext. intros p. ring.
Qed.

Lemma fit_yscale : forall k l, ols_fit (yscale k l) = (k * fst (ols_fit l), k * snd (ols_fit l)).
Proof.
  intros k l. unfold ols_fit. rewrite sxx_yscale, sxy_yscale, qmean_ys_yscale, xs_yscale.
  destruct (qeq (sxx l) 0); cbn [fst snd]; f_equal; unfold Qcdiv; ring.
Qed.

Lemma ssr_yscale : forall k l b m, ssr (yscale k l) (k * b) (k * m) = k * k * ssr l b m.
Proof.
  intros k l b m. unfold ssr, yscale. rewrite map_map. cbn [fst snd].
  rewrite <- qsum_map_scale. f_equal. apply map_ext. intros p. ring.
Qed.

Lemma mse_yscale : forall k l, ols_mse (yscale k l) = k * k * ols_mse l.
Proof.
  intros k l. unfold ols_mse. rewrite fit_yscale. destruct (ols_fit l) as [b m]. cbn [fst snd].
  rewrite ssr_yscale. unfold ols_rank. rewrite sxx_yscale. unfold yscale. rewrite map_length.
  unfold Qcdiv. ring.
Qed.

Lemma cov_yscale : forall k l, ols_cov (yscale k l) =
  (k * k * fst (fst (ols_cov l)), k * k * snd (fst (ols_cov l)), k * k * snd (ols_cov l)).
Proof.
  intros k l. unfold ols_cov. rewrite sxx_yscale, mse_yscale, xs_yscale.
  assert (qlen (yscale k l) = qlen l) as -> by (unfold qlen, yscale; rewrite map_length; reflexivity).
  destruct (qeq (sxx l) 0); cbn [fst snd]; (apply f_equal2; [apply f_equal2 |]); unfold Qcdiv; rewrite ?Qcinv_mult_distr; ring.
Qed.

(** The draws of the multivariate normal scale with their parameters. *)
Definition equivariant_at (k : Qc) (draws : Qc * Qc -> Qc * Qc * Qc -> list (fl * fl)) : Prop :=
  forall b m cb cc cm,
    map (fun p => fdiv (snd p) (fst p)) (draws (k * b, k * m) (k * k * cb, k * k * cc, k * k * cm)) =
    map (fun p => fdiv (snd p) (fst p)) (draws (b, m) (cb, cc, cm)).
Definition equivariant (draws : Qc * Qc -> Qc * Qc * Qc -> list (fl * fl)) : Prop :=
  forall k, 0 < k -> equivariant_at k draws.

Lemma ols_scale_at : forall draws cl k s, k <> 0 -> equivariant_at k draws ->
  (forall o, degradation_ols draws cl s = Ok o -> o_intercept o <> 0) ->
  degradation_ols draws cl
    (map (fun r => (fst r, match snd r with Fin y => Fin (k * y) | e => e end)) s) =
  match degradation_ols draws cl s with
  | Ok o => Ok (mk_ols_out (o_rate o) (o_ci o) (k * o_slope o) (k * o_intercept o)
                 (k * k * o_mse o) (k * k * o_var_b o) (k * k * o_var_m o))
  | Raise e => Raise e
  end.
Proof.
  intros draws cl k s Hk HE HB. destruct s as [| [t0 e0] s]; [reflexivity |].
  set (s0 := (t0, e0) :: s) in *.
  change (degradation_ols draws cl s0) with (regress draws cl (ols_points t0 s0)) in *.
  transitivity (regress draws cl (yscale k (ols_points t0 s0))).
  { rewrite <- ols_points_scale. reflexivity. }
  revert HB. generalize (ols_points t0 s0) as l. clear s0 s. intros l HB.
  destruct l as [| p l]; [reflexivity |].
  assert (forall q l', regress draws cl (q :: l') =
    if (length (q :: l') <=? ols_rank (q :: l'))%nat then Raise LinAlgError else
    let (b, m) := ols_fit (q :: l') in
    let '(vb, _, vm) := ols_cov (q :: l') in
    bind (degradation_CI (draws (b, m) (ols_cov (q :: l'))) cl) (fun ci =>
    Ok (mk_ols_out (fdiv (Fin (qz 100 * m)) (Fin b)) ci m b (ols_mse (q :: l')) vb vm))) as RE
    by reflexivity.
  change (yscale k (p :: l)) with ((fst p, k * snd p) :: yscale k l). rewrite RE.
  change ((fst p, k * snd p) :: yscale k l) with (yscale k (p :: l)).
  rewrite RE in HB. rewrite RE. set (l0 := p :: l) in *. clearbody l0. clear RE.
  assert (length (yscale k l0) = length l0) as -> by apply map_length.
  assert (ols_rank (yscale k l0) = ols_rank l0) as ->.
  { unfold ols_rank. rewrite sxx_yscale. reflexivity. }
  destruct (length l0 <=? ols_rank l0)%nat; [reflexivity |].
  rewrite fit_yscale, cov_yscale, mse_yscale.
  destruct (ols_fit l0) as [b m]. destruct (ols_cov l0) as [[vb vc] vm]. cbn [fst snd].
  unfold degradation_CI in *. rewrite (HE b m vb vc vm).
  destruct (percentile_ci _ _) as [ci |]; [| reflexivity].
  cbn [bind o_rate o_ci o_slope o_intercept o_mse o_var_b o_var_m] in *.
  specialize (HB _ eq_refl). cbn [o_intercept] in HB.
  f_equal. f_equal. cbn [fdiv].
  destruct (qeq b 0) eqn:Eb; [qb; contradiction |].
  destruct (qeq (k * b) 0) eqn:E2.
  - qb. exfalso. apply Qcmult_integral in E2. tauto.
  - f_equal. field. auto.
Qed.

Lemma ols_scale : forall draws cl k s, 0 < k -> equivariant draws ->
  (forall o, degradation_ols draws cl s = Ok o -> o_intercept o <> 0) ->
  degradation_ols draws cl
    (map (fun r => (fst r, match snd r with Fin y => Fin (k * y) | e => e end)) s) =
  match degradation_ols draws cl s with
  | Ok o => Ok (mk_ols_out (o_rate o) (o_ci o) (k * o_slope o) (k * o_intercept o)
                 (k * k * o_mse o) (k * k * o_var_b o) (k * k * o_var_m o))
  | Raise e => Raise e
  end.
Proof.
  intros draws cl k s Hk HE. apply ols_scale_at; [apply Qc_pos_neq, Hk | apply HE, Hk].
Qed.

(** The draws only matter for the interval. *)
Lemma ols_draws : forall draws draws' cl s o, 0 <= cl -> cl <= qz 100 -> degradation_ols draws cl s = Ok o ->
  exists ci, degradation_ols draws' cl s =
    Ok (mk_ols_out (o_rate o) ci (o_slope o) (o_intercept o) (o_mse o) (o_var_b o) (o_var_m o)).
Proof.
  intros draws draws' cl s o H0 H1 H. destruct s as [| [t0 e0] s]; [discriminate |].
  cbn [degradation_ols] in *. revert H. generalize (ols_points t0 ((t0, e0) :: s)) as l. intros l H.
  pose proof H as H'. apply regress_Ok in H. destruct H as (Hl & Hr & F & ER & EC & EM & EV).
  destruct (proj2 (regress_ok_iff draws' cl l H0 H1) Hr) as (o' & HO').
  exists (o_ci o'). rewrite HO'. apply regress_Ok in HO'. destruct HO' as (_ & _ & F' & ER' & _ & EM' & EV').
  rewrite F in F'. injection F' as Eb Em. rewrite EV in EV'. injection EV' as Evb Evm.
  destruct o' as [r ci m b mse vb vm]. cbn [o_rate o_ci o_slope o_intercept o_mse o_var_b o_var_m] in *.
  subst. rewrite ER, EM. reflexivity.
Qed.

Lemma ols_scale_rate : forall draws cl k s o, k <> 0 -> 0 <= cl -> cl <= qz 100 ->
  degradation_ols draws cl s = Ok o -> o_intercept o <> 0 ->
  exists ci, degradation_ols draws cl
    (map (fun r => (fst r, match snd r with Fin y => Fin (k * y) | e => e end)) s) =
  Ok (mk_ols_out (o_rate o) ci (k * o_slope o) (k * o_intercept o)
                 (k * k * o_mse o) (k * k * o_var_b o) (k * k * o_var_m o)).
Proof.
  intros draws cl k s o Hk H0 H1 H HB.
  destruct (ols_draws draws (fun _ _ => []) cl s o H0 H1 H) as (ci & H').
  pose proof (ols_scale_at (fun _ _ => []) cl k s Hk) as S.
  rewrite H' in S. specialize (S ltac:(intros ? ? ? ? ?; reflexivity)).
  specialize (S ltac:(intros ? E; injection E as <-; exact HB)). cbn [o_rate o_ci o_slope o_intercept o_mse o_var_b o_var_m] in S.
  destruct (ols_draws _ draws cl _ _ H0 H1 S) as (ci' & H2). exists ci'. exact H2.
Qed.
