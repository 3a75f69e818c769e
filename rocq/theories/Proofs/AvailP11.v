(** Order of the error bounds; the unit of the expected power. *)

From Coq Require Import QArith Qcanon List ZArith Bool Arith Lia Permutation Sorted.
From Verif.Base Require Import QcExtra ISort Quantile Fl TimeSeries Rolling Segments.
From Verif.Spec Require Import Stats Interp Energy Availability.
From Verif.Model Require Import Energy Clipping Availability.
From Verif.Proofs Require Import StatsP FiltersP EnergyP6 EnergyP7 ClipP4 AvailP AvailP2 AvailP3 AvailP4 AvailP5 AvailP6 AvailP7 AvailP9 AvailP10.
Import ListNotations.
Open Scope list_scope.
Open Scope Qc_scope.

Lemma mul_nonpos : forall c x, 0 < c -> x <= 0 -> c * x <= 0.
Proof. intros c x Hc Hx. assert (0 <= c * (- x)) as H by (apply Qc_mul_nonneg; qlra). replace (c * - x) with (- (c * x)) in H by ring. qlra. Qed.
Lemma mul_neg : forall c x, 0 < c -> x < 0 -> c * x < 0.
Proof. intros c x Hc Hx. assert (0 < c * (- x)) as H by (apply Qc_mul_pos; qlra). replace (c * - x) with (- (c * x)) in H by ring. qlra. Qed.

(** ** Order *)

Definition below (p r : Z * Qc) : Prop := fst p = fst r /\ snd p <= snd r.

Lemma interp_from_mono : forall k1 k2, Forall2 below k1 k2 -> forall x0 a b x y1 y2, a <= b ->
  StronglySorted Z.lt (x0 :: map fst k1) ->
  interp_from x0 (Fin a) (map (fun p => (fst p, Fin (snd p))) k1) x = Fin y1 ->
  interp_from x0 (Fin b) (map (fun p => (fst p, Fin (snd p))) k2) x = Fin y2 -> y1 <= y2.
Proof.
  intros k1 k2 H. induction H as [| [x1 a1] [x1' b1] k1 k2 [E L] H IH]; intros x0 a b x y1 y2 Hab HS E1 E2.
  - cbn in E1, E2. injection E1 as <-. injection E2 as <-. exact Hab.
  - cbn [fst snd] in E, L. subst x1'. cbn [map interp_from fst snd] in E1, E2. apply StronglySorted_inv in HS. destruct HS as [HS F]. inversion F as [| ? ? Lx _]; subst. cbn [fst] in Lx.
    destruct (Z.leb_spec x x0) as [M | M]; [injection E1 as <-; injection E2 as <-; exact Hab |].
    destruct (Z.ltb_spec x x1) as [P | P].
    + rewrite chord_fin in E1, E2 by lia. injection E1 as <-. injection E2 as <-. set (t := qz (x - x0) / qz (x1 - x0)).
      assert (0 < qz (x1 - x0)) as D by (apply qz_pos; lia).
      assert (0 <= t) as T0 by (unfold t; apply Qc_le_div; [exact D | rewrite Qcmult_0_l; apply qz_nonneg; lia]).
      assert (t <= 1) as T1 by (unfold t; apply Qc_div_le; [exact D | rewrite Qcmult_1_l; apply qz_le_i; lia]).
      replace (a + (a1 - a) * t) with (a * (1 - t) + a1 * t) by ring. replace (b + (b1 - b) * t) with (b * (1 - t) + b1 * t) by ring.
      assert (0 <= (b - a) * (1 - t)) by (apply Qc_mul_nonneg; qlra). assert (0 <= (b1 - a1) * t) by (apply Qc_mul_nonneg; qlra).
      generalize dependent t. intros t. clear. intros. qnra.
    + exact (IH x1 a1 b1 x y1 y2 L HS E1 E2).
Qed.

Lemma interp1d_mono : forall k1 k2 x y1 y2, Forall2 below k1 k2 -> StronglySorted Z.lt (map fst k1) ->
  interp1d (map (fun p => (fst p, Fin (snd p))) k1) x = Fin y1 -> interp1d (map (fun p => (fst p, Fin (snd p))) k2) x = Fin y2 -> y1 <= y2.
Proof.
  intros k1 k2 x y1 y2 H HS E1 E2. destruct H as [| [x0 a] [x0' b] k1 k2 [E L] H]; [discriminate |]. cbn [fst snd] in E, L. subst x0'.
  cbn [map interp1d fst snd] in *. exact (interp_from_mono k1 k2 H x0 a b x y1 y2 L HS E1 E2).
Qed.

Lemma points_ordered : forall q1 q2 f g rows l1 l2 x y1 y2, 0 <= q1 -> q1 <= q2 -> q2 <= 1 ->
  error_points q1 f g rows l1 -> error_points q2 f g rows l2 -> bound_at l1 x y1 -> bound_at l2 x y2 -> y1 <= y2.
Proof.
  intros q1 q2 f g rows l1 l2 x y1 y2 H0 H12 H1 [S1 P1] [S2 P2] B1 B2.
  pose proof (bound_interp _ _ _ B1) as I1. pose proof (bound_interp _ _ _ B2) as I2.
  destruct B1 as (k1 & E1 & T1 & _). destruct B2 as (k2 & E2 & T2 & _). subst l1 l2.
  assert (forall k, map fst (map (fun p : Z * Qc => (fst p, Fin (snd p))) k) = map fst k) as MF by (intros k; rewrite map_map; reflexivity).
  rewrite MF in S1, S2.
  assert (forall z a, In (z, a) k1 -> exists b, In (z, b) k2 /\ a <= b) as K12.
  { intros z a Ha. assert (In (z, Fin a) (map (fun p : Z * Qc => (fst p, Fin (snd p))) k1)) as Ha' by (apply in_map_iff; exists (z, a); auto).
    apply P1 in Ha'. destruct Ha' as (k & Hk & HP & Ez & HW & [[_ C] | [NE (v & Hv & Ev)]]); [discriminate |]. injection Ev as <-.
    set (errs := knowns (map (window_error f g) (windows (2 ^ k) rows))) in *.
    assert (In (z, Fin (qquantile q2 errs)) (map (fun p : Z * Qc => (fst p, Fin (snd p))) k2)) as Hb.
    { apply P2. exists k. split; [exact Hk |]. split; [exact HP |]. split; [exact Ez |]. split; [exact HW |]. right. split; [exact NE |].
      exists (qquantile q2 errs). split; [apply quantile_is; [exact NE | qlra | exact H1] | reflexivity]. }
    apply in_map_iff in Hb. destruct Hb as ([z' b] & Eb & Hb). cbn [fst snd] in Eb. injection Eb as -> ->. exists (qquantile q2 errs). split; [exact Hb |].
    assert (q1 <= 1) as Q1 by qlra. assert (0 <= qz 100 * q1) as A1 by (apply Qc_mul_nonneg; [discriminate | exact H0]).
    assert (qz 100 * q1 <= qz 100) as A2 by (assert (0 <= qz 100 * (1 - q1)) by (apply Qc_mul_nonneg; [discriminate | qlra]); qlra).
    rewrite (is_percentile_unique (qz 100 * q1) errs a NE A1 A2 Hv). replace (qz 100 * q1 / qz 100) with q1 by (field; discriminate). apply qquantile_mono; assumption. }
  assert (map fst k1 = map fst k2) as EF.
  { apply sorted_lt_unique; [exact S1 | exact S2 |]. intros z. split.
    - intros Hz. apply in_map_iff in Hz. destruct Hz as ([z' a] & <- & Ha). destruct (K12 _ _ Ha) as (b & Hb & _). apply in_map_iff. exists (z', b). auto.
    - intros Hz. apply in_map_iff in Hz. destruct Hz as ([z' b] & <- & Hb). cbn [fst].
      assert (In (z', Fin b) (map (fun p : Z * Qc => (fst p, Fin (snd p))) k2)) as Hb' by (apply in_map_iff; exists (z', b); auto).
      apply P2 in Hb'. destruct Hb' as (k & Hk & HP & Ez & HW & [[_ C] | [NE _]]); [discriminate |].
      set (errs := knowns (map (window_error f g) (windows (2 ^ k) rows))) in *.
      assert (In (z', Fin (qquantile q1 errs)) (map (fun p : Z * Qc => (fst p, Fin (snd p))) k1)) as Ha.
      { apply P1. exists k. split; [exact Hk |]. split; [exact HP |]. split; [exact Ez |]. split; [exact HW |]. right. split; [exact NE |].
        exists (qquantile q1 errs). split; [apply quantile_is; [exact NE | exact H0 | qlra] | reflexivity]. }
      apply (in_map fst) in Ha. rewrite MF in Ha. exact Ha. }
  apply (interp1d_mono k1 k2 x y1 y2); [| exact T1 | exact I1 | exact I2].
  assert (NoDup (map fst k2)) as ND.
  { clear -S2. induction (map fst k2) as [| z l IH]; [constructor |]. apply StronglySorted_inv in S2. destruct S2 as [S F]. constructor; [| apply IH; exact S].
    intros C. rewrite Forall_forall in F. apply F in C. lia. }
  clear -K12 EF ND. assert (forall i p r, nth_error k1 i = Some p -> nth_error k2 i = Some r -> below p r) as K.
  { intros i [z a] [z' b] H1 H2. assert (z = z') as <-.
    { assert (nth_error (map fst k1) i = Some z) as A1 by (rewrite nth_error_map_some, H1; reflexivity). assert (nth_error (map fst k2) i = Some z') as A2 by (rewrite nth_error_map_some, H2; reflexivity). congruence. }
    split; [reflexivity |]. cbn [snd]. destruct (K12 z a (nth_error_In _ _ H1)) as (b' & Hb' & L). apply In_nth_error in Hb'. destruct Hb' as [j Hj].
    assert (i = j) as <-; [| congruence]. assert (nth_error (map fst k2) i = Some z) as A1 by (rewrite nth_error_map_some, H2; reflexivity).
    assert (nth_error (map fst k2) j = Some z) as A2 by (rewrite nth_error_map_some, Hj; reflexivity).
    apply (proj1 (NoDup_nth_error _) ND); [apply nth_error_Some; congruence | congruence]. }
  assert (length k1 = length k2) as EL by (rewrite <- (map_length fst k1), EF; apply map_length). clear -K EL. revert k2 K EL.
  induction k1 as [| p k1 IH]; intros [| r k2] K EL; try discriminate; constructor.
  - apply (K 0%nat); reflexivity.
  - apply IH; [intros i; exact (K (S i)) | injection EL; auto].
Qed.

(** ** Units of the expected power *)

Section Unit.
Variable k : Qc.
Hypothesis k_pos : 0 < k.
Definition sc (x : fl) : fl := match x with Fin q => Fin (k * q) | e => e end.

Lemma sc_mul : forall x, fmul (Fin k) x = sc x.
Proof.
  intros [| | q |]; cbn; try reflexivity; unfold inf_sgn.
  - assert (qlt 0 (- k) = false) as -> by (apply qlt_false; qlra). assert (qlt (- k) 0 = true) as -> by (apply qlt_spec; qlra). reflexivity.
  - assert (qlt 0 k = true) as -> by (apply qlt_spec; exact k_pos). reflexivity.
Qed.

Lemma sgn_k : forall x, inf_sgn (k * x) = inf_sgn x.
Proof.
  intros x. unfold inf_sgn.
  destruct (qlt 0 x) eqn:A; [apply qlt_spec in A; assert (qlt 0 (k * x) = true) as -> by (apply qlt_spec; apply Qc_mul_pos; assumption); reflexivity |].
  apply qlt_false in A. assert (qlt 0 (k * x) = false) as ->.
  { apply qlt_false. apply mul_nonpos; assumption. }
  destruct (qlt x 0) eqn:B.
  - apply qlt_spec in B. assert (qlt (k * x) 0 = true) as ->; [| reflexivity]. apply qlt_spec. apply mul_neg; assumption.
  - apply qlt_false in B. assert (x = 0) as -> by (apply Qcle_antisym; assumption). assert (qlt (k * 0) 0 = false) as ->; [| reflexivity]. apply qlt_false. rewrite Qcmult_0_r. apply Qcle_refl.
Qed.
Lemma k_zero : forall x, qeq (k * x) 0 = qeq x 0.
Proof.
  intros x. pose proof (Qc_pos_neq _ k_pos) as N. destruct (qeq x 0) eqn:E.
  - apply qeq_spec in E. apply qeq_spec. rewrite E. ring.
  - apply qeq_false in E. apply qeq_false. apply Qc_mul_neq0; assumption.
Qed.
Lemma k_ne : k <> 0.
Proof. apply Qc_pos_neq. exact k_pos. Qed.

Lemma sc_add : forall x y, fadd (sc x) (sc y) = sc (fadd x y).
Proof. intros [| | x |] [| | y |]; cbn; try reflexivity. f_equal. ring. Qed.
Lemma sc_nan : forall x, isnan (sc x) = isnan x.
Proof. destruct x; reflexivity. Qed.
Lemma sc_sum : forall l, fsum (map sc l) = sc (fsum l).
Proof.
  intros l. unfold fsum. induction l as [| x l IH]; [cbn; rewrite Qcmult_0_r; reflexivity |]. unfold dropna in *. cbn [map filter]. replace (notnan (sc x)) with (notnan x) by (destruct x; reflexivity). destruct (notnan x); [| exact IH].
  cbn [fold_right]. rewrite IH. apply sc_add.
Qed.
Lemma sc_cumsum : forall l acc, cumsum_from (sc acc) (map sc l) = map sc (cumsum_from acc l).
Proof.
  induction l as [| x l IH]; intros acc; [reflexivity |]. cbn [map cumsum_from]. rewrite sc_nan. destruct (isnan x); cbn [map]; [rewrite IH; reflexivity |]. rewrite sc_add, IH. reflexivity.
Qed.

Lemma sc_share : forall x L T, fdiv (fmul (sc x) L) (sc T) = fdiv (fmul x L) T.
Proof.
  assert (forall y T, fdiv (sc y) (sc T) = fdiv y T) as D.
  { intros [| | a |] [| | t |]; cbn [sc fdiv]; try reflexivity; rewrite ?k_zero.
    - replace (- (k * t)) with (k * - t) by ring. rewrite sgn_k. reflexivity.
    - rewrite sgn_k. destruct (qeq t 0) eqn:E; [reflexivity |]. apply qeq_false in E. f_equal. field. split; [exact E | exact k_ne].
    - rewrite sgn_k. reflexivity. }
  assert (forall y, sc y = y \/ exists q, y = Fin q) as F by (intros [| | q |]; eauto).
  assert (forall x L, fmul (sc x) L = sc (fmul x L)) as M.
  { intros [| | x |] [| | L |]; cbn [sc fmul]; try reflexivity.
    - unfold inf_sgn. destruct (qlt 0 (- L)); [reflexivity |]. destruct (qlt (- L) 0); reflexivity.
    - replace (- (k * x)) with (k * - x) by ring. rewrite sgn_k. unfold inf_sgn. destruct (qlt 0 (- x)); [reflexivity |]. destruct (qlt (- x) 0); reflexivity.
    - f_equal. ring.
    - rewrite sgn_k. unfold inf_sgn. destruct (qlt 0 x); [reflexivity |]. destruct (qlt x 0); reflexivity.
    - unfold inf_sgn. destruct (qlt 0 L); [reflexivity |]. destruct (qlt L 0); reflexivity. }
  intros x L T. rewrite M. apply D.
Qed.

Lemma sgn_eq : forall x y c, 0 < c -> y = c * x -> inf_sgn y = inf_sgn x.
Proof.
  intros x y c Hc ->. unfold inf_sgn.
  assert (qlt 0 (c * x) = qlt 0 x) as ->.
  { destruct (qlt 0 x) eqn:A; [apply qlt_spec in A; apply qlt_spec; apply Qc_mul_pos; assumption |]. apply qlt_false in A. apply qlt_false.
    apply mul_nonpos; assumption. }
  assert (qlt (c * x) 0 = qlt x 0) as ->; [| reflexivity].
  destruct (qlt x 0) eqn:A; [apply qlt_spec in A; apply qlt_spec; apply mul_neg; assumption |]. apply qlt_false in A. apply qlt_false.
  assert (0 <= c * x) by (apply Qc_mul_nonneg; qlra). qlra.
Qed.

Lemma sc_produced : forall x A T, fmul (sc x) (fdiv A (sc T)) = fmul x (fdiv A T).
Proof.
  assert (0 < 1 / k) as IK by (apply Qc_lt_div; [exact k_pos | rewrite Qcmult_0_l; reflexivity]).
  assert (forall x i, fmul (sc x) (inf_sgn i) = fmul x (inf_sgn i)) as MI.
  { intros [| | x |] i; cbn [sc]; try reflexivity. unfold inf_sgn. destruct (qlt 0 i); [cbn [fmul]; apply sgn_k |]. destruct (qlt i 0); [| reflexivity]. cbn [fmul].
    replace (- (k * x)) with (k * - x) by ring. apply sgn_k. }
  intros x A T. destruct A as [| | a |]; destruct T as [| | t |]; cbn [sc fdiv]; try (destruct x; reflexivity).
  - rewrite k_zero. replace (- (k * t)) with (k * - t) by ring. rewrite sgn_k. destruct (qeq t 0); [| apply MI].
    destruct x; cbn [sc fmul]; try reflexivity. replace (- (k * q)) with (k * - q) by ring. apply sgn_k.
  - destruct x; cbn [sc fmul]; try reflexivity. f_equal. ring.
  - rewrite k_zero. destruct (qeq t 0) eqn:E; [apply MI |]. apply qeq_false in E. destruct x; cbn [sc fmul]; try reflexivity.
    + apply (sgn_eq _ _ (1 / k) IK). field. split; [exact E | exact k_ne].
    + f_equal. field. split; [exact E | exact k_ne].
    + apply (sgn_eq _ _ (1 / k) IK). field. split; [exact E | exact k_ne].
  - destruct x; cbn [sc fmul]; try reflexivity. f_equal. ring.
  - rewrite k_zero, sgn_k. destruct (qeq t 0); [| apply MI]. destruct x; cbn [sc fmul]; try reflexivity. apply sgn_k.
Qed.

Lemma sc_rescale : forall x E P, fdiv (sc x) (fdiv (sc E) P) = fdiv x (fdiv E P).
Proof.
  intros x E P. destruct E as [| | e |]; destruct P as [| | p |]; cbn [sc fdiv]; try (destruct x; reflexivity).
  - assert (forall z, fdiv (sc x) (if qeq p 0 then NInf else inf_sgn z) = fdiv x (if qeq p 0 then NInf else inf_sgn z)) as K; [| apply K].
    intros z. destruct (qeq p 0); [destruct x; reflexivity |]. unfold inf_sgn. destruct (qlt 0 z); [destruct x; reflexivity |]. destruct (qlt z 0); destruct x; reflexivity.
  - destruct x; cbn [sc fdiv]; try reflexivity. change (qeq 0 0) with true; cbv iota; apply sgn_k.
  - destruct (qeq p 0) eqn:Ep.
    + rewrite sgn_k. unfold inf_sgn. destruct (qlt 0 e); [destruct x; reflexivity |]. destruct (qlt e 0); destruct x; reflexivity.
    + apply qeq_false in Ep. assert (k * e / p = k * (e / p)) as -> by (field; exact Ep). destruct x as [| | x |]; cbn [sc fdiv]; try reflexivity; rewrite k_zero.
      * destruct (qeq (e / p) 0); [reflexivity |]. replace (- (k * (e / p))) with (k * - (e / p)) by ring. apply sgn_k.
      * destruct (qeq (e / p) 0) eqn:Ee; [apply sgn_k |]. apply qeq_false in Ee. f_equal. field. split; [exact Ep |]. split; [intros C; apply Ee; rewrite C; unfold Qcdiv; ring | exact k_ne].
      * destruct (qeq (e / p) 0); [reflexivity | apply sgn_k].
  - destruct x; cbn [sc fdiv]; try reflexivity. change (qeq 0 0) with true; cbv iota; apply sgn_k.
  - assert (forall z, fdiv (sc x) (if qeq p 0 then PInf else inf_sgn z) = fdiv x (if qeq p 0 then PInf else inf_sgn z)) as K; [| apply K].
    intros z. destruct (qeq p 0); [destruct x; reflexivity |]. unfold inf_sgn. destruct (qlt 0 z); [destruct x; reflexivity |]. destruct (qlt z 0); destruct x; reflexivity.
Qed.

Lemma sc_positive : forall x, fgt (sc x) (fz 0) = fgt x (fz 0).
Proof.
  intros [| | q |]; try reflexivity. unfold fgt. cbn [sc flt fz]. change (qz 0) with 0. destruct (qlt 0 q) eqn:A.
  - apply qlt_spec in A. apply qlt_spec. apply Qc_mul_pos; assumption.
  - apply qlt_false in A. apply qlt_false. apply mul_nonpos; assumption.
Qed.

Lemma zip_sc : forall A B (f g : A -> fl -> B) a b, (forall x y, f x (sc y) = g x y) -> zip f a (map sc b) = zip g a b.
Proof.
  intros A B f g a b H. unfold zip. revert b. induction a as [| x a IH]; intros [| y b]; try reflexivity. cbn [map combine fst snd]. rewrite H, IH. reflexivity.
Qed.

Lemma sc_normal : forall loss power expected, normal_rows loss power (map sc expected) = normal_rows loss power expected.
Proof. intros. unfold normal_rows. apply zip_sc. intros x y. rewrite sc_positive. reflexivity. Qed.
Lemma sc_pick : forall b l, pick b (map sc l) = map sc (pick b l).
Proof.
  intros b l. unfold pick. revert l. induction b as [| x b IH]; intros [| y l]; try reflexivity. cbn [map combine filter fst]. destruct x; cbn [map snd]; rewrite IH; reflexivity.
Qed.
Lemma sc_rescaled : forall normal power expected, rescaled normal power (map sc expected) = rescaled normal power expected.
Proof. intros. unfold rescaled. rewrite map_map, sc_pick, sc_sum. apply map_ext. intros x. apply sc_rescale. Qed.

Lemma sc_errors : forall freq index loss power expected quantiles,
  calc_error_distributions freq index loss power (map sc expected) quantiles = calc_error_distributions freq index loss power expected quantiles.
Proof. intros. unfold calc_error_distributions. rewrite sc_normal, sc_rescaled. reflexivity. Qed.

Lemma sc_daylight : forall masks expected, daylight_offline masks (map sc expected) = daylight_offline masks expected.
Proof. intros. unfold daylight_offline. apply zip_sc. intros x y. rewrite sc_positive. reflexivity. Qed.

Lemma sc_combine : forall (index : list Z) l, combine index (map sc l) = map_values (fun q => k * q) (combine index l).
Proof. induction index as [| t index IH]; intros [| x l]; try reflexivity. cbn [map combine map_values fst snd]. rewrite IH. destruct x; reflexivity. Qed.
Lemma sc_slice : forall a b s, slice a b (map_values (fun q => k * q) s) = map_values (fun q => k * q) (slice a b s).
Proof. intros. unfold slice, map_values. rewrite skipn_map, firstn_map. reflexivity. Qed.
Lemma sc_vals : forall s, vals (map_values (fun q => k * q) s) = map sc (vals s).
Proof. intros. unfold vals, map_values. rewrite !map_map. apply map_ext. intros [t x]. destruct x; reflexivity. Qed.
Lemma sc_times : forall s, times (map_values (fun q => k * q) s) = times s.
Proof. intros. unfold times, map_values. rewrite map_map. reflexivity. Qed.

Lemma combine_ok : forall index l, StronglySorted Z.lt index -> noinf l -> sorted_index (combine index l) /\ noinf (vals (combine index l)).
Proof.
  intros index l HS HN. split.
  - unfold sorted_index, times. revert l HN. induction HS as [| t index HS IH F]; intros l HN; [constructor |]. destruct l as [| x l]; [constructor |]. cbn [combine map fst].
    constructor; [apply IH; intros y Hy; apply HN; right; exact Hy |]. rewrite Forall_forall in *. intros u Hu. apply in_map_iff in Hu. destruct Hu as ([u' y] & <- & Hu). apply in_combine_l in Hu. apply F. exact Hu.
  - intros x Hx. unfold vals in Hx. apply in_map_iff in Hx. destruct Hx as ([t y] & <- & Hy). apply in_combine_r in Hy. apply HN. exact Hy.
Qed.
Lemma sublist_ok : forall a b s, sorted_index s -> noinf (vals s) -> sorted_index (slice a b s) /\ noinf (vals (slice a b s)).
Proof.
  intros a b s HS HN.
  assert (forall n (l : list Z), StronglySorted Z.lt l -> StronglySorted Z.lt (skipn n l)) as K1.
  { induction n as [| n IH]; intros l H; [exact H |]. destruct l as [| x l]; [constructor |]. apply StronglySorted_inv in H. apply IH. apply H. }
  assert (forall n (l : list Z), StronglySorted Z.lt l -> StronglySorted Z.lt (firstn n l)) as K2.
  { induction n as [| n IH]; intros l H; [constructor |]. destruct l as [| x l]; [constructor |]. apply StronglySorted_inv in H. destruct H as [H F]. cbn [firstn]. constructor; [apply IH; exact H |].
    rewrite Forall_forall in *. intros y Hy. apply F. rewrite <- (firstn_skipn n l). apply in_or_app. left. exact Hy. }
  split.
  - unfold sorted_index, slice, times. rewrite <- firstn_map, <- skipn_map. apply K2, K1. exact HS.
  - intros x Hx. apply HN. unfold vals, slice in *. rewrite <- firstn_map, <- skipn_map in Hx. rewrite <- (firstn_skipn a (map snd s)). apply in_or_app. right.
    rewrite <- (firstn_skipn (S b - a) (skipn a (map snd s))). apply in_or_app. left. exact Hx.
Qed.

Lemma sc_fill : forall freq index expected o st, StronglySorted Z.lt index -> noinf expected ->
  fill_outage freq index (map sc expected) o st = fill_outage freq index expected o st.
Proof.
  intros freq index expected o [lost corrected] HS HN. unfold fill_outage. rewrite sc_combine, sc_slice.
  destruct (combine_ok index expected HS HN) as [C1 C2]. destruct (sublist_ok (o_start o) (o_end o) _ C1 C2) as [D1 D2].
  rewrite (energy_scale k) by (try assumption; exact I).
  destruct (energy_from_power freq (slice (o_start o) (o_end o) (combine index expected)) None None RightLabeled) as [en |]; [| reflexivity]. cbn [rmap bind].
  rewrite !sc_vals, !sc_times, sc_sum, !map_map. f_equal. f_equal.
  - f_equal. f_equal. apply map_ext. intros x. apply sc_share.
  - f_equal. f_equal. f_equal. unfold fcumsum. change (fz 0) with (Fin 0). assert (Fin 0 = sc (Fin 0)) as K by (cbn; rewrite Qcmult_0_r; reflexivity). rewrite K at 1. rewrite sc_cumsum, map_map.
    apply map_ext. intros x. rewrite sc_produced. reflexivity.
Qed.

Lemma sc_fills : forall freq index expected os st, StronglySorted Z.lt index -> noinf expected ->
  fill_outages freq index (map sc expected) os st = fill_outages freq index expected os st.
Proof.
  intros freq index expected os. induction os as [| o os IH]; intros st HS HN; [reflexivity |]. cbn [fill_outages]. rewrite sc_fill by assumption.
  destruct (fill_outage freq index expected o st); [| reflexivity]. cbn [bind]. apply IH; assumption.
Qed.

Lemma run_unit : forall freq index n power_system power_subsystem cumulative expected low sizes limits quantiles period,
  StronglySorted Z.lt index -> noinf expected ->
  run freq index n power_system power_subsystem cumulative (map (fmul (Fin k)) expected) low sizes limits quantiles period =
  run freq index n power_system power_subsystem cumulative expected low sizes limits quantiles period.
Proof.
  intros freq index n ps sub cum expected low sizes limits quantiles period HS HN. rewrite (map_ext _ sc sc_mul). unfold run.
  destruct (calc_loss_subsystem n low sizes limits ps sub) as [masks loss]. rewrite sc_errors.
  destruct (calc_error_distributions freq index loss ps expected quantiles) as [e |]; [| reflexivity]. cbn [bind].
  assert (calc_loss_system freq index masks e (map sc expected) cum = calc_loss_system freq index masks e expected cum) as ->; [| reflexivity].
  unfold calc_loss_system. rewrite sc_daylight, sc_fills by assumption. reflexivity.
Qed.
End Unit.
