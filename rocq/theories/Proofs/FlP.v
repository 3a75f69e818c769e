(** Positive scaling of floats and of the reductions built on them. *)

From Coq Require Import QArith Qcanon List ZArith Bool Permutation Sorted Lia Arith.
From Verif.Base Require Import QcExtra ISort Quantile Fl.
From Verif.Model Require Import Utilities.
Import ListNotations.
Open Scope Qc_scope.

Definition fscale (k : Qc) (x : fl) : fl := fmul (Fin k) x.

Lemma filter_map_comm : forall A B (f : A -> B) (p : B -> bool) l,
  filter p (map f l) = map f (filter (fun x => p (f x)) l).
Proof.
  intros A B f p l. induction l as [| x l IH]; [reflexivity |]. cbn.
  destruct (p (f x)); cbn; rewrite IH; reflexivity.
Qed.

Section Scale.
  Variable k : Qc.
  Hypothesis Hk : 0 < k.

  Lemma qlt_0_k : qlt 0 k = true.
  Proof. qb. exact Hk. Qed.

  Lemma inf_sgn_k : inf_sgn k = PInf.
  Proof. unfold inf_sgn. rewrite qlt_0_k. reflexivity. Qed.

  Lemma inf_sgn_neg_k : inf_sgn (- k) = NInf.
  Proof.
    unfold inf_sgn. assert (qlt 0 (- k) = false) as -> by (qb; qlra).
    assert (qlt (- k) 0 = true) as -> by (qb; qlra). reflexivity.
  Qed.

  Lemma fscale_PInf : fscale k PInf = PInf.
  Proof. cbn. apply inf_sgn_k. Qed.
  Lemma fscale_NInf : fscale k NInf = NInf.
  Proof. cbn. apply inf_sgn_neg_k. Qed.
  Lemma fscale_Fin : forall q, fscale k (Fin q) = Fin (k * q).
  Proof. reflexivity. Qed.
  Lemma fscale_NaN : fscale k NaN = NaN.
  Proof. reflexivity. Qed.

  Ltac fsc := rewrite ?fscale_PInf, ?fscale_NInf, ?fscale_Fin, ?fscale_NaN.

  Lemma isnan_fscale : forall x, isnan (fscale k x) = isnan x.
  Proof. intros []; fsc; reflexivity. Qed.

  Lemma fle_fscale : forall x y, fle (fscale k x) (fscale k y) = fle x y.
  Proof.
    intros [] []; fsc; cbn; try reflexivity.
    destruct (qle q q0) eqn:E; qb; qnra.
  Qed.

  Lemma flt_fscale : forall x y, flt (fscale k x) (fscale k y) = flt x y.
  Proof.
    intros [] []; fsc; cbn; try reflexivity.
    destruct (qlt q q0) eqn:E; qb; qnra.
  Qed.

  Lemma fadd_fscale : forall x y, fadd (fscale k x) (fscale k y) = fscale k (fadd x y).
  Proof. intros [] []; cbn [fadd]; fsc; cbn [fadd]; try reflexivity. f_equal. ring. Qed.

  Lemma fneg_fscale : forall x, fneg (fscale k x) = fscale k (fneg x).
  Proof. intros []; cbn [fneg]; fsc; cbn [fneg]; try reflexivity. f_equal. ring. Qed.

  Lemma fsub_fscale : forall x y, fsub (fscale k x) (fscale k y) = fscale k (fsub x y).
  Proof. intros x y. unfold fsub. rewrite fneg_fscale. apply fadd_fscale. Qed.

  Lemma inf_sgn_scale : forall a, inf_sgn (k * a) = inf_sgn a.
  Proof.
    intros a. unfold inf_sgn.
    destruct (qlt 0 a) eqn:E1.
    - assert (qlt 0 (k * a) = true) as -> by (qb; qnra). reflexivity.
    - assert (qlt 0 (k * a) = false) as -> by (qb; qnra).
      destruct (qlt a 0) eqn:E2.
      + assert (qlt (k * a) 0 = true) as -> by (qb; qnra). reflexivity.
      + assert (qlt (k * a) 0 = false) as -> by (qb; qnra). reflexivity.
  Qed.

  Lemma fscale_inf_sgn : forall a, fscale k (inf_sgn a) = inf_sgn a.
  Proof.
    intros a. unfold inf_sgn. destruct (qlt 0 a); [apply fscale_PInf |].
    destruct (qlt a 0); [apply fscale_NInf | reflexivity].
  Qed.

  Lemma fmul_fscale_l : forall x y, fmul (fscale k x) y = fscale k (fmul x y).
  Proof.
    intros [] []; fsc; cbn [fmul]; fsc; rewrite ?fscale_inf_sgn; try reflexivity.
    - replace (- (k * q)) with (k * (- q)) by ring. apply inf_sgn_scale.
    - f_equal. ring.
    - apply inf_sgn_scale.
  Qed.

  Lemma fdiv_fscale : forall x y, fdiv (fscale k x) (fscale k y) = fdiv x y.
  Proof.
    intros [] []; fsc; cbn [fdiv]; try reflexivity.
    - replace (- (k * q)) with (k * (- q)) by ring. rewrite inf_sgn_scale.
      destruct (qeq q 0) eqn:E.
      + qb. subst q. rewrite Qcmult_0_r. destruct (qeq 0 0) eqn:E'; [reflexivity | qb; congruence].
      + destruct (qeq (k * q) 0) eqn:E'; [| reflexivity]. qb. exfalso.
        apply (Qc_mul_neq0 k q); auto. apply Qc_pos_neq, Hk.
    - rewrite inf_sgn_scale. destruct (qeq q0 0) eqn:E.
      + qb. subst q0. rewrite Qcmult_0_r. destruct (qeq 0 0) eqn:E'; [reflexivity | qb; congruence].
      + destruct (qeq (k * q0) 0) eqn:E'.
        * qb. exfalso. apply (Qc_mul_neq0 k q0); auto. apply Qc_pos_neq, Hk.
        * f_equal. qb. field. split; auto. apply Qc_pos_neq, Hk.
    - rewrite inf_sgn_scale. destruct (qeq q 0) eqn:E.
      + qb. subst q. rewrite Qcmult_0_r. destruct (qeq 0 0) eqn:E'; [reflexivity | qb; congruence].
      + destruct (qeq (k * q) 0) eqn:E'; [| reflexivity]. qb. exfalso.
        apply (Qc_mul_neq0 k q); auto. apply Qc_pos_neq, Hk.
  Qed.

  Lemma fdiv_fscale_l : forall x c, c <> 0 -> fdiv (fscale k x) (Fin c) = fscale k (fdiv x (Fin c)).
  Proof.
    intros x c Hc. destruct x; cbn [fdiv]; fsc; cbn [fdiv]; try reflexivity;
      destruct (qeq c 0) eqn:E; qb; try congruence; rewrite ?fscale_inf_sgn; try reflexivity.
    rewrite fscale_Fin. f_equal. field. exact Hc.
  Qed.

  Lemma dropna_fscale : forall l, dropna (map (fscale k) l) = map (fscale k) (dropna l).
  Proof.
    intros l. unfold dropna. rewrite filter_map_comm. f_equal. apply filter_ext.
    intros x. unfold notnan. rewrite isnan_fscale. reflexivity.
  Qed.

  Lemma fsort_fscale : forall l, fsort (map (fscale k) l) = map (fscale k) (fsort l).
  Proof. intros l. apply isort_map. apply fle_fscale. Qed.

  Lemma nth_fscale : forall i l, nth i (map (fscale k) l) NaN = fscale k (nth i l NaN).
  Proof. intros i l. rewrite <- (map_nth (fscale k)). reflexivity. Qed.

  Lemma fquantile_fscale : forall q l, fquantile q (map (fscale k) l) = fscale k (fquantile q l).
  Proof.
    intros q l. unfold fquantile. rewrite dropna_fscale, fsort_fscale.
    destruct (fsort (dropna l)) as [| x s']; [reflexivity |].
    set (s := x :: s'). change (map (fscale k) s) with (fscale k x :: map (fscale k) s').
    cbv iota. change (fscale k x :: map (fscale k) s') with (map (fscale k) s).
    rewrite map_length. subst s. cbv iota.
    rewrite !nth_fscale, fsub_fscale, fmul_fscale_l, fadd_fscale. reflexivity.
  Qed.

  Lemma fmedian_fscale : forall l, fmedian (map (fscale k) l) = fscale k (fmedian l).
  Proof.
    intros l. unfold fmedian. rewrite dropna_fscale, fsort_fscale.
    destruct (fsort (dropna l)) as [| x s']; [reflexivity |].
    set (s := x :: s'). change (map (fscale k) s) with (fscale k x :: map (fscale k) s').
    cbv iota. change (fscale k x :: map (fscale k) s') with (map (fscale k) s).
    rewrite map_length. subst s. cbv iota.
    destruct (Nat.even _).
    - rewrite !nth_fscale, fadd_fscale. apply fdiv_fscale_l. discriminate.
    - apply nth_fscale.
  Qed.

  Lemma fsum_fscale : forall l, fsum (map (fscale k) l) = fscale k (fsum l).
  Proof.
    intros l. unfold fsum. rewrite dropna_fscale. induction (dropna l) as [| x l' IH]; cbn.
    - f_equal. ring.
    - rewrite IH. apply fadd_fscale.
  Qed.

  Lemma fillna0_fscale : forall x, fillna0 (fscale k x) = fscale k (fillna0 x).
  Proof.
    intros x. unfold fillna0. rewrite isnan_fscale. destruct (isnan x); [| reflexivity].
    rewrite fscale_Fin. f_equal. ring.
  Qed.

  Lemma robust_small_fscale : forall q l, robust_small q (map (fscale k) l) = fscale k (robust_small q l).
  Proof.
    intros q l. unfold robust_small.
    assert (map fillna0 (map (fscale k) l) = map (fscale k) (map fillna0 l)) as ->.
    { rewrite !map_map. apply map_ext. apply fillna0_fscale. }
    rewrite fquantile_fscale. apply fdiv_fscale_l. discriminate.
  Qed.

  Lemma robust_keep_fscale : forall q l, robust_keep q (map (fscale k) l) = map (fscale k) (robust_keep q l).
  Proof.
    intros q l. unfold robust_keep. rewrite robust_small_fscale, filter_map_comm. f_equal.
    apply filter_ext. intros x. unfold fgt. apply flt_fscale.
  Qed.

  Lemma robust_median_fscale : forall q l,
    robust_median q (map (fscale k) l) = fscale k (robust_median q l).
  Proof. intros q l. unfold robust_median. rewrite robust_keep_fscale. apply fmedian_fscale. Qed.

  Lemma robust_quantile_fscale : forall q l,
    robust_quantile q (map (fscale k) l) = fscale k (robust_quantile q l).
  Proof. intros q l. unfold robust_quantile. rewrite robust_keep_fscale. apply fquantile_fscale. Qed.

  Lemma fcount_fscale : forall l, fcount (map (fscale k) l) = fcount l.
  Proof. intros l. unfold fcount. rewrite dropna_fscale. apply map_length. Qed.

  Lemma fmean_fscale : forall l, fmean (map (fscale k) l) = fscale k (fmean l).
  Proof.
    intros l. unfold fmean. rewrite fsum_fscale, fcount_fscale.
    destruct (Nat.eq_dec (fcount l) 0) as [E | E].
    - rewrite E. unfold fsum, fcount in *. apply length_zero_iff_nil in E. rewrite E.
      cbn. rewrite Qcmult_0_r. reflexivity.
    - apply fdiv_fscale_l. apply qz_neq0. lia.
  Qed.

  Lemma robust_mean_fscale : forall q l,
    robust_mean q (map (fscale k) l) = fscale k (robust_mean q l).
  Proof. intros q l. unfold robust_mean. rewrite robust_keep_fscale. apply fmean_fscale. Qed.
End Scale.
