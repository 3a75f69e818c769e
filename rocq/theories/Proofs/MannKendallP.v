(** The Mann-Kendall test. *)

From Coq Require Import QArith Qcanon List ZArith Bool Permutation Sorted Lia Arith.
From Verif.Base Require Import QcExtra ISort Quantile Fl.
From Verif.Spec Require Import Regression.
From Verif.Model Require Import Regression.
Import ListNotations.
Open Scope Qc_scope.

Fixpoint zsum (l : list Z) : Z := match l with [] => 0%Z | x :: l' => (x + zsum l')%Z end.

Lemma zsum_fold : forall l, fold_right Z.add 0%Z l = zsum l.
Proof. induction l as [| x l IH]; [reflexivity |]. cbn [fold_right zsum]. rewrite IH. reflexivity. Qed.
Definition row_s (a : Qc) (x : list Qc) : Z := zsum (map (fun b => qsgn (b - a)) x).

Lemma zsum_app : forall a b, zsum (a ++ b) = (zsum a + zsum b)%Z.
Proof. intros a b. induction a as [| x a IH]; cbn in *; [lia |]. rewrite IH. lia. Qed.

Lemma mk_s_cons : forall a x, mk_s (a :: x) = (row_s a x + mk_s x)%Z.
Proof. intros a x. cbn [mk_s]. rewrite zsum_fold. reflexivity. Qed.

Lemma qsgn_opp : forall a, qsgn (- a) = (- qsgn a)%Z.
Proof. intros a. unfold qsgn. qcases; try lia; exfalso; qlra. Qed.

Lemma qsgn_cases : forall a b,
  (b < a /\ qsgn (a - b) = 1%Z) \/ (a < b /\ qsgn (a - b) = (-1)%Z) \/ (a = b /\ qsgn (a - b) = 0%Z).
Proof.
  intros a b. unfold qsgn. qcases.
  - left. split; [qlra | reflexivity].
  - right. left. split; [qlra | reflexivity].
  - right. right. split; [apply Qcle_antisym; qlra | reflexivity].
Qed.

Lemma mk_s_snoc : forall x a, mk_s (x ++ [a]) = (mk_s x - row_s a x)%Z.
Proof.
  induction x as [| b x IH]; intros a; [reflexivity |].
  cbn [app]. rewrite !mk_s_cons, IH. unfold row_s. rewrite map_app, zsum_app. cbn.
  replace (b - a) with (- (a - b)) by ring. rewrite qsgn_opp. unfold row_s in IH. lia.
Qed.

Lemma row_s_rev : forall a x, row_s a (rev x) = row_s a x.
Proof.
  intros a x. unfold row_s. induction x as [| b x IH]; [reflexivity |].
  cbn [rev]. rewrite map_app, zsum_app, IH. cbn. lia.
Qed.

Lemma mk_s_rev : forall x, mk_s (rev x) = (- mk_s x)%Z.
Proof.
  induction x as [| a x IH]; [reflexivity |].
  cbn [rev]. rewrite mk_s_snoc, IH, row_s_rev, mk_s_cons. lia.
Qed.

Lemma mk_s_opp : forall x, mk_s (map Qcopp x) = (- mk_s x)%Z.
Proof.
  induction x as [| a x IH]; [reflexivity |].
  cbn [map]. rewrite !mk_s_cons, IH. unfold row_s. rewrite map_map.
  assert (zsum (map (fun b => qsgn (- b - - a)) x) = (- zsum (map (fun b => qsgn (b - a)) x))%Z) as ->; [| lia].
  clear. induction x as [| b x IH]; [reflexivity |]. cbn in *. rewrite IH.
  replace (- b - - a) with (- (b - a)) by ring. rewrite qsgn_opp. lia.
Qed.

Lemma mk_s_mono : forall f x, (forall a b, a < b -> f a < f b) -> mk_s (map f x) = mk_s x.
Proof.
  intros f x Hf. induction x as [| a x IH]; [reflexivity |].
  cbn [map]. rewrite !mk_s_cons, IH. f_equal. unfold row_s. rewrite map_map. f_equal.
  apply map_ext. intros b.
  destruct (qsgn_cases b a) as [[H ->] | [[H ->] | [H ->]]];
    destruct (qsgn_cases (f b) (f a)) as [[H' E] | [[H' E] | [H' E]]]; rewrite E; try reflexivity; exfalso.
  - specialize (Hf _ _ H). qlra.
  - specialize (Hf _ _ H). rewrite H' in Hf. apply (Qclt_irrefl _ Hf).
  - specialize (Hf _ _ H). qlra.
  - specialize (Hf _ _ H). rewrite H' in Hf. apply (Qclt_irrefl _ Hf).
  - subst b. apply (Qclt_irrefl _ H').
  - subst b. apply (Qclt_irrefl _ H').
Qed.

Lemma concordance_app : forall (p : Qc * Qc -> bool) l1 l2,
  Z.of_nat (length (filter p (l1 ++ l2))) = (Z.of_nat (length (filter p l1)) + Z.of_nat (length (filter p l2)))%Z.
Proof. intros p l1 l2. rewrite filter_app, app_length. lia. Qed.

Lemma mk_s_concordance : forall x, mk_s x = concordance x.
Proof.
  induction x as [| a x IH]; [reflexivity |].
  rewrite mk_s_cons, IH. unfold concordance. cbn [pairs]. rewrite !concordance_app.
  assert (row_s a x = Z.of_nat (length (filter rises (map (fun b => (a, b)) x))) -
                      Z.of_nat (length (filter falls (map (fun b => (a, b)) x))))%Z as ->; [| lia].
  clear. induction x as [| b x IH]; [reflexivity |].
  unfold row_s in *. cbn [map zsum filter].
  rewrite IH. unfold rises at 2, falls at 2. cbn [fst snd].
  destruct (qsgn_cases b a) as [[H ->] | [[H ->] | [H ->]]].
  - assert (qlt a b = true) as -> by (apply qlt_spec; exact H).
    assert (qlt b a = false) as -> by (apply qlt_false; qlra). cbn [length]. lia.
  - assert (qlt b a = true) as -> by (apply qlt_spec; exact H).
    assert (qlt a b = false) as -> by (apply qlt_false; qlra). cbn [length]. lia.
  - subst b. assert (qlt a a = false) as -> by (apply qlt_false; qlra). lia.
Qed.

Lemma row_s_bound : forall a x, (- Z.of_nat (length x) <= row_s a x <= Z.of_nat (length x))%Z.
Proof.
  intros a x. unfold row_s. induction x as [| b x IH]; [cbn; lia |].
  cbn [map zsum length].
  destruct (qsgn_cases b a) as [[H ->] | [[H ->] | [H ->]]]; lia.
Qed.

Lemma row_s_full : forall a x, row_s a x = Z.of_nat (length x) <-> Forall (fun b => a < b) x.
Proof.
  intros a x. induction x as [| b x IH]; [split; [constructor | reflexivity] |].
  pose proof (row_s_bound a x) as B. unfold row_s in *.
  cbn [map zsum length].
  split.
  - intros H. destruct (qsgn_cases b a) as [[H' E] | [[H' E] | [H' E]]]; rewrite E in H; try lia.
    constructor; [exact H' |]. apply IH. lia.
  - intros H. inversion H as [| ? ? Hb Hx]; subst. apply IH in Hx.
    destruct (qsgn_cases b a) as [[H' E] | [[H' E] | [H' E]]]; rewrite E; try lia; exfalso.
    + qlra.
    + subst. apply (Qclt_irrefl _ Hb).
Qed.

Lemma mk_s_bound : forall x, let n := Z.of_nat (length x) in (- (n * (n - 1)) <= 2 * mk_s x <= n * (n - 1))%Z.
Proof.
  induction x as [| a x IH]; cbn zeta in *; [cbn; lia |].
  rewrite mk_s_cons. cbn [length]. pose proof (row_s_bound a x). lia.
Qed.

Lemma mk_s_max : forall x, let n := Z.of_nat (length x) in
  (2 * mk_s x = n * (n - 1))%Z <-> StronglySorted Qclt x.
Proof.
  induction x as [| a x IH]; cbn zeta in *; [split; [constructor | reflexivity] |].
  rewrite mk_s_cons. cbn [length]. pose proof (row_s_bound a x) as B. pose proof (mk_s_bound x) as B2. cbn zeta in B2.
  split.
  - intros H. constructor; [apply IH; lia | apply row_s_full; lia].
  - intros H. apply StronglySorted_inv in H. destruct H as [H1 H2]. apply IH in H1. apply row_s_full in H2. lia.
Qed.

Lemma mk_s_min : forall x, let n := Z.of_nat (length x) in
  (2 * mk_s x = - (n * (n - 1)))%Z <-> StronglySorted (fun a b => b < a) x.
Proof.
  intros x. cbn zeta.
  assert ((2 * mk_s x = - (Z.of_nat (length x) * (Z.of_nat (length x) - 1)))%Z <->
          (2 * mk_s (map Qcopp x) = Z.of_nat (length (map Qcopp x)) * (Z.of_nat (length (map Qcopp x)) - 1))%Z) as ->.
  { rewrite mk_s_opp, map_length. lia. }
  rewrite mk_s_max. clear. induction x as [| a x IH]; [split; constructor |].
  cbn [map]. split; intros H; apply StronglySorted_inv in H; destruct H as [H1 H2]; constructor.
  - apply IH, H1.
  - apply Forall_forall. intros b Hb. rewrite Forall_forall in H2.
    specialize (H2 (- b) (in_map Qcopp _ _ Hb)). qlra.
  - apply IH, H1.
  - apply Forall_forall. intros b Hb. apply in_map_iff in Hb. destruct Hb as (c & <- & Hc).
    rewrite Forall_forall in H2. specialize (H2 c Hc). cbv beta in H2. qlra.
Qed.

(** ** Variance *)

Lemma unique_distinct : forall x, distinct_values x (unique_q x).
Proof.
  intros x. split; [apply NoDup_nodup |]. intros v. apply nodup_In.
Qed.

Lemma multiplicity_count : forall v x, count_q v x = multiplicity v x.
Proof. reflexivity. Qed.

Lemma qsum_perm : forall l1 l2, Permutation l1 l2 -> qsum l1 = qsum l2.
Proof.
  induction 1; [reflexivity | | | congruence].
  - rewrite !qsum_cons, IHPermutation. reflexivity.
  - rewrite !qsum_cons. ring.
Qed.

Lemma tie_terms_unique : forall x vs, distinct_values x vs -> tie_terms x vs = tie_terms x (unique_q x).
Proof.
  intros x vs [N1 H1]. destruct (unique_distinct x) as [N2 H2]. unfold tie_terms. apply qsum_perm.
  apply Permutation_map. apply NoDup_Permutation; auto. intros v. rewrite H1, H2. reflexivity.
Qed.

Lemma nodup_length_iff : forall x : list Qc, length x = length (unique_q x) <-> NoDup x.
Proof.
  intros x. unfold unique_q. split.
  - induction x as [| a x IH]; cbn [nodup length]; [constructor |]. intros H.
    assert (length (nodup Qc_eq_dec x) <= length x)%nat as L.
    { clear. induction x as [| a x IH]; cbn; [lia |]. destruct (in_dec Qc_eq_dec a x); cbn; lia. }
    destruct (in_dec Qc_eq_dec a x) as [Hin | Hin]; [lia |]. cbn in H. constructor; [exact Hin | apply IH; lia].
  - intros H. rewrite nodup_fixed_point by exact H. reflexivity.
Qed.

Lemma group_term_nonneg : forall n, (0 <= n)%Z -> (0 <= group_term n)%Z.
Proof.
  intros n H. unfold group_term. destruct (Z.eq_dec n 0) as [-> | H0]; [cbn; lia |].
  apply Z.mul_nonneg_nonneg; [apply Z.mul_nonneg_nonneg |]; lia.
Qed.
Lemma group_term_pos : forall n, (2 <= n)%Z -> (0 < group_term n)%Z.
Proof. intros n H. unfold group_term. apply Z.mul_pos_pos; [apply Z.mul_pos_pos |]; lia. Qed.

Lemma multiplicity_nonneg : forall v x, (0 <= multiplicity v x)%Z.
Proof. intros v x. unfold multiplicity. lia. Qed.

Lemma dup_multiplicity : forall x, ~ NoDup x -> exists v, In v x /\ (2 <= multiplicity v x)%Z.
Proof.
  induction x as [| a x IH]; intros H; [exfalso; apply H; constructor |].
  destruct (in_dec Qc_eq_dec a x) as [Hin | Hin].
  - exists a. split; [left; reflexivity |]. unfold multiplicity. cbn [filter].
    assert (qeq a a = true) as -> by (apply qeq_spec; reflexivity). cbn [length].
    assert (In a (filter (qeq a) x)) as K by (apply filter_In; split; [exact Hin | apply qeq_spec; reflexivity]).
    destruct (filter (qeq a) x); [destruct K | cbn; lia].
  - destruct IH as (v & Hv & Hm); [intros N; apply H; constructor; auto |].
    exists v. split; [right; exact Hv |]. unfold multiplicity in *. cbn [filter].
    destruct (qeq v a); cbn [length]; lia.
Qed.

Lemma tie_terms_nonneg : forall x vs, 0 <= tie_terms x vs.
Proof.
  intros x vs. unfold tie_terms. apply qsum_nonneg. apply Forall_forall. intros q Hq.
  apply in_map_iff in Hq. destruct Hq as (v & <- & _). apply qz_nonneg, group_term_nonneg, multiplicity_nonneg.
Qed.

Lemma tie_terms_pos : forall x vs, distinct_values x vs -> ~ NoDup x -> 0 < tie_terms x vs.
Proof.
  intros x vs [N H] D. destruct (dup_multiplicity x D) as (v & Hv & Hm). apply H in Hv.
  apply in_split in Hv. destruct Hv as (l1 & l2 & ->). unfold tie_terms.
  rewrite map_app, qsum_app. cbn [map]. rewrite qsum_cons.
  pose proof (tie_terms_nonneg x l1) as A. pose proof (tie_terms_nonneg x l2) as B. unfold tie_terms in A, B.
  assert (0 < qz (group_term (multiplicity v x))) by (apply qz_pos, group_term_pos, Hm). qlra.
Qed.

Lemma tie_terms_none : forall x vs, distinct_values x vs -> NoDup x -> tie_terms x vs = 0.
Proof.
  intros x vs [N H] D. unfold tie_terms. rewrite (map_ext_in _ (fun _ => 0)).
  - rewrite qsum_const. ring.
  - intros v Hv. apply H in Hv. assert (multiplicity v x = 1%Z) as ->; [| reflexivity].
    unfold multiplicity. clear - Hv D. induction x as [| a x IH]; [destruct Hv |].
    inversion D as [| ? ? Ha Dx]; subst. cbn [filter]. destruct (qeq v a) eqn:E.
    + qb. subst a. assert (filter (qeq v) x = []) as ->; [| reflexivity].
      destruct (filter (qeq v) x) as [| b l] eqn:F; [reflexivity | exfalso].
      assert (In b (filter (qeq v) x)) as K by (rewrite F; left; reflexivity).
      apply filter_In in K. destruct K as [K1 K2]. qb. subst b. contradiction.
    + qb. destruct Hv as [-> | Hv]; [congruence | apply IH; assumption].
Qed.

(** The variance used adds what the test subtracts. *)
Lemma mk_var_spec : forall x vs, distinct_values x vs ->
  mk_var x = mann_kendall_variance x vs + (1 + 1) * tie_terms x vs / qz 18.
Proof.
  intros x vs H. pose proof (tie_terms_unique x vs H) as ET. unfold mk_var, mann_kendall_variance.
  assert (qz 18 <> 0) by (apply qz_neq0; discriminate).
  destruct (length x =? length (unique_q x))%nat eqn:E.
  - apply Nat.eqb_eq in E. apply nodup_length_iff in E. rewrite (tie_terms_none x vs H E).
    unfold group_term. field. assumption.
  - rewrite ET. unfold tie_terms, group_term, multiplicity, count_q. field. assumption.
Qed.

Lemma mk_var_inflated : forall x vs, distinct_values x vs ->
  (NoDup x -> mk_var x = mann_kendall_variance x vs) /\
  (~ NoDup x -> mann_kendall_variance x vs < qz (group_term (Z.of_nat (length x))) / qz 18 /\
                qz (group_term (Z.of_nat (length x))) / qz 18 < mk_var x).
Proof.
  intros x vs H. rewrite (mk_var_spec x vs H). assert (0 < qz 18) as P by (apply qz_pos; lia).
  assert (qz 18 <> 0) as P' by (apply Qc_pos_neq; exact P). split.
  - intros D. rewrite (tie_terms_none x vs H D). unfold Qcdiv. ring.
  - intros D. pose proof (tie_terms_pos x vs H D) as T. unfold mann_kendall_variance.
    set (g := qz (group_term (Z.of_nat (length x)))). set (t := tie_terms x vs) in *. split.
    + apply Qc_div_lt; [exact P |]. rewrite Qc_div_mul by exact P'. qlra.
    + apply Qc_div_lt; [exact P |].
      replace (((g - t) / qz 18 + (1 + 1) * t / qz 18) * qz 18) with (g + t) by (field; exact P'). qlra.
Qed.

Lemma mk_var_perm : forall x y, Permutation x y -> mk_var x = mk_var y.
Proof.
  intros x y HP.
  assert (distinct_values y (unique_q x)) as D.
  { destruct (unique_distinct x) as [N H]. split; [exact N |]. intros v. rewrite H.
    split; apply Permutation_in; [exact HP | symmetry; exact HP]. }
  rewrite (mk_var_spec x _ (unique_distinct x)), (mk_var_spec y _ D).
  assert (length x = length y) as EL by (apply Permutation_length, HP).
  assert (tie_terms x (unique_q x) = tie_terms y (unique_q x)) as ET.
  { unfold tie_terms. f_equal. apply map_ext. intros v. unfold multiplicity.
    assert (Permutation (filter (qeq v) x) (filter (qeq v) y)) as K.
    { clear - HP. induction HP as [| a l l' H IH | a b l | l1 l2 l3 H1 IH1 H2 IH2]; cbn [filter].
      - constructor.
      - destruct (qeq v a); [constructor |]; exact IH.
      - destruct (qeq v a), (qeq v b); try reflexivity. constructor.
      - etransitivity; eassumption. }
    apply Permutation_length in K. rewrite K. reflexivity. }
  unfold mann_kendall_variance. rewrite EL, ET. reflexivity.
Qed.

Lemma count_map_inj : forall f v x, (forall a b, f a = f b -> a = b) ->
  count_q (f v) (map f x) = count_q v x.
Proof.
  intros f v x Hf. unfold count_q. f_equal. induction x as [| a x IH]; [reflexivity |].
  cbn [map filter]. destruct (qeq v a) eqn:E.
  - qb. subst a. assert (qeq (f v) (f v) = true) as -> by (apply qeq_spec; reflexivity). cbn. rewrite IH. reflexivity.
  - qb. assert (qeq (f v) (f a) = false) as -> by (apply qeq_false; intro K; apply E, Hf, K). exact IH.
Qed.

Lemma mk_var_inj : forall f x, (forall a b, f a = f b -> a = b) -> mk_var (map f x) = mk_var x.
Proof.
  intros f x Hf.
  assert (distinct_values (map f x) (map f (unique_q x))) as D.
  { destruct (unique_distinct x) as [N H]. split.
    - apply FinFun.Injective_map_NoDup; [intros a b; apply Hf | exact N].
    - intros v. rewrite !in_map_iff. split; intros (a & <- & Ha); exists a; split; auto; apply H; exact Ha. }
  rewrite (mk_var_spec x _ (unique_distinct x)), (mk_var_spec _ _ D).
  assert (tie_terms (map f x) (map f (unique_q x)) = tie_terms x (unique_q x)) as ET.
  { unfold tie_terms. rewrite map_map. f_equal. apply map_ext. intros v.
    rewrite <- !multiplicity_count. rewrite count_map_inj by exact Hf. reflexivity. }
  unfold mann_kendall_variance. rewrite ET, map_length. reflexivity.
Qed.

(** ** The reported trend *)

Definition flip_trend (t : mk_trend) : mk_trend :=
  match t with Increasing => Decreasing | Decreasing => Increasing | NoTrend => NoTrend end.

Lemma mk_test_flip : forall z x y, mk_s y = (- mk_s x)%Z -> mk_var y = mk_var x ->
  mk_test z y = flip_trend (mk_test z x).
Proof.
  intros z x y Hs Hv. unfold mk_test. rewrite Hs, Hv.
  destruct (0 <? mk_s x)%Z eqn:E1.
  - assert (0 <? - mk_s x = false)%Z as -> by lia. assert (- mk_s x <? 0 = true)%Z as -> by lia.
    replace ((- mk_s x + 1) * (- mk_s x + 1))%Z with ((mk_s x - 1) * (mk_s x - 1))%Z by lia.
    destruct (qlt _ _); reflexivity.
  - destruct (mk_s x <? 0)%Z eqn:E2.
    + assert (0 <? - mk_s x = true)%Z as -> by lia.
      replace ((- mk_s x - 1) * (- mk_s x - 1))%Z with ((mk_s x + 1) * (mk_s x + 1))%Z by lia.
      destruct (qlt _ _); reflexivity.
    + assert (0 <? - mk_s x = false)%Z as -> by lia. assert (- mk_s x <? 0 = false)%Z as -> by lia. reflexivity.
Qed.

Lemma mk_test_rev : forall z x, mk_test z (rev x) = flip_trend (mk_test z x).
Proof. intros z x. apply mk_test_flip; [apply mk_s_rev | apply mk_var_perm; symmetry; apply Permutation_rev]. Qed.

Lemma mk_test_opp : forall z x, mk_test z (map Qcopp x) = flip_trend (mk_test z x).
Proof.
  intros z x. apply mk_test_flip; [apply mk_s_opp | apply mk_var_inj].
  intros a b H. rewrite <- (Qcopp_involutive a), H. apply Qcopp_involutive.
Qed.

Lemma mk_test_mono : forall z f x, (forall a b, a < b -> f a < f b) -> mk_test z (map f x) = mk_test z x.
Proof.
  intros z f x Hf. unfold mk_test. rewrite (mk_s_mono f x Hf), mk_var_inj; [reflexivity |].
  intros a b H. destruct (Qclt_le_dec' a b) as [L | L].
  - specialize (Hf _ _ L). rewrite H in Hf. exfalso. apply (Qclt_irrefl _ Hf).
  - apply Qc_le_lt_or_eq in L. destruct L as [L | L]; [| auto].
    specialize (Hf _ _ L). rewrite H in Hf. exfalso. apply (Qclt_irrefl _ Hf).
Qed.

Lemma mk_test_iff : forall z x,
  (mk_test z x = Increasing <-> (0 < concordance x)%Z /\
     z * z * mk_var x < qz ((concordance x - 1) * (concordance x - 1))) /\
  (mk_test z x = Decreasing <-> (concordance x < 0)%Z /\
     z * z * mk_var x < qz ((concordance x + 1) * (concordance x + 1))).
Proof.
  intros z x. rewrite <- mk_s_concordance. unfold mk_test.
  destruct (0 <? mk_s x)%Z eqn:E1.
  - destruct (qlt _ _) eqn:Q; qb; split; split; try discriminate; try (intros [H1 H2]; lia); try (intros _; reflexivity);
      try (intros [_ H]; exfalso; exact (Qclt_not_le _ _ H Q)).
    intros _. split; [lia | exact Q].
  - destruct (mk_s x <? 0)%Z eqn:E2.
    + destruct (qlt _ _) eqn:Q; qb; split; split; try discriminate; try (intros [H1 H2]; lia); try (intros _; reflexivity);
      try (intros [_ H]; exfalso; exact (Qclt_not_le _ _ H Q)).
      intros _. split; [lia | exact Q].
    + split; split; try discriminate; intros [H _]; lia.
Qed.

(** Too few points never give a trend (critical value at least 3/2). *)
Lemma mk_var_pos : forall x, (2 <= length x)%nat -> 0 < mk_var x.
Proof.
  intros x H. rewrite (mk_var_spec x _ (unique_distinct x)). unfold mann_kendall_variance.
  pose proof (tie_terms_nonneg x (unique_q x)) as T.
  assert (0 < qz (group_term (Z.of_nat (length x)))) as G by (apply qz_pos, group_term_pos; lia).
  assert (qz 18 <> 0) by (apply qz_neq0; discriminate).
  set (g := qz (group_term (Z.of_nat (length x)))) in *. set (t := tie_terms x (unique_q x)) in *.
  replace ((g - t) / qz 18 + (1 + 1) * t / qz 18) with ((g + t) / qz 18) by (field; assumption).
  apply Qc_lt_div; [apply qz_pos; lia |]. qlra.
Qed.
