(** Histograms and the degradation summary. *)

From Coq Require Import QArith Qcanon List ZArith Bool Lia.
From Verif.Base Require Import QcExtra Fl TimeSeries.
From Verif.Spec Require Import Stats Clipping Plots.
From Verif.Model Require Import Clipping Plots.
From Verif.Proofs Require Import FlP ClipP.
Import ListNotations.
Open Scope Qc_scope.

Lemma tally_filter : forall {A} (P : A -> Prop) (f : A -> bool) l, (forall a, In a l -> (f a = true <-> P a)) -> tally P l (length (filter f l)).
Proof.
  induction l as [| a l IH]; intros H; [constructor |]. cbn [filter].
  assert (tally P l (length (filter f l))) as T by (apply IH; intros b Hb; apply H; right; exact Hb).
  destruct (f a) eqn:E; cbn [length]; constructor; try exact T.
  - apply H; [left; reflexivity | exact E].
  - intros Q. apply H in Q; [congruence | left; reflexivity].
Qed.

Lemma tally_unique : forall {A} (P : A -> Prop) l n m, tally P l n -> tally P l m -> n = m.
Proof.
  intros A P l n m H. revert m. induction H as [| a l n Ha H IH | a l n Ha H IH]; intros m K; inversion K; subst; try contradiction;
    [reflexivity | f_equal; apply IH; assumption | apply IH; assumption].
Qed.

Section Bars.
Variables (lo hi : Qc) (bins : Z).
Hypothesis Hw : lo < hi.
Hypothesis Hb : (1 <= bins)%Z.
Let w := hi - lo.
Let n := qz bins.

Lemma bins_pos : 0 < n.
Proof. unfold n. apply (qz_lt_i 0). lia. Qed.
Lemma width_pos : 0 < w.
Proof. unfold w. qlra. Qed.

Definition place (v : Qc) : Qc := (v - lo) * n / w.
Lemma place_value : forall v, v = lo + place v * (w / n).
Proof.
  intros v. unfold place. pose proof (Qc_pos_neq _ bins_pos) as N. pose proof (Qc_pos_neq _ width_pos) as W. unfold w in *. field. split; assumption.
Qed.
Lemma step_pos : 0 < w / n.
Proof. apply Qc_mul_pos; [exact width_pos | apply Qc_inv_pos, bins_pos]. Qed.
Lemma edge_value : forall k, edge lo hi bins k = lo + qz (Z.of_nat k) * (w / n).
Proof. intros k. unfold edge, Qcdiv, w, n. ring. Qed.
Lemma edge_le : forall k v, edge lo hi bins k <= v <-> qz (Z.of_nat k) <= place v.
Proof.
  intros k v. rewrite edge_value, (place_value v) at 1. split; intros H.
  - apply (Qcmult_lt_0_le_reg_r _ _ (w / n) step_pos). qlra.
  - apply (Qcmult_le_compat_r _ _ (w / n)) in H; [qlra | apply Qclt_le_weak, step_pos].
Qed.
Lemma edge_lt : forall k v, v < edge lo hi bins k <-> place v < qz (Z.of_nat k).
Proof.
  intros k v. pose proof (edge_le k v) as E. split; intros H.
  - apply Qcnot_le_lt. intros L. apply E in L. exact (Qclt_not_le _ _ H L).
  - apply Qcnot_le_lt. intros L. apply E in L. exact (Qclt_not_le _ _ H L).
Qed.

Lemma number_spec : forall k v, lo <= v -> v <= hi -> (k < Z.to_nat bins)%nat ->
  bar_number lo hi bins v = Z.of_nat k <->
  edge lo hi bins k <= v /\ (v < edge lo hi bins (S k) \/ (S k = Z.to_nat bins /\ v = edge lo hi bins (S k))).
Proof.
  intros k v L H K. rewrite edge_le, edge_lt. unfold bar_number. fold w. fold n. fold (place v).
  assert (0 <= place v) as P0.
  { change 0 with (qz (Z.of_nat 0)). apply edge_le. rewrite edge_value. cbn. qlra. }
  assert (edge lo hi bins (Z.to_nat bins) = hi) as ET.
  { rewrite edge_value, Z2Nat.id by lia. fold n. pose proof (Qc_pos_neq _ bins_pos). unfold w. field. assumption. }
  assert (place v <= n) as P1.
  { apply Qcnot_lt_le. intros Q. pose proof (place_value v) as E. apply (Qcmult_lt_compat_r _ _ (w / n) step_pos) in Q.
    rewrite edge_value, Z2Nat.id in ET by lia. fold n in ET. qlra. }
  pose proof (qfloor_le (place v)) as F0. pose proof (qfloor_lt (place v)) as F1.
  destruct (Z.le_gt_cases (qfloor (place v)) (bins - 1)) as [C | C].
  - rewrite Z.min_r by exact C. split.
    + intros E. rewrite E in F0, F1. split; [exact F0 |]. left. rewrite Nat2Z.inj_succ. unfold Z.succ. rewrite qz_add. exact F1.
    + intros [G0 [G1 | [G1 G2]]].
      * apply qfloor_unique; [exact G0 |]. rewrite Nat2Z.inj_succ in G1. unfold Z.succ in G1. rewrite qz_add in G1. exact G1.
      * exfalso. rewrite G1, ET in G2. subst v. assert (place hi = n) as E.
        { unfold place. fold w. pose proof (Qc_pos_neq _ width_pos). field. assumption. }
        rewrite E in C. unfold n in C. rewrite qfloor_qz in C. lia.
  - rewrite Z.min_l by lia. assert (place v = n) as E.
    { apply Qcle_antisym; [exact P1 |]. apply Qcle_trans with (qz (qfloor (place v))); [apply qz_le_i; lia | exact F0]. }
    assert (v = hi) as ->.
    { rewrite (place_value v), E. rewrite edge_value, Z2Nat.id in ET by lia. exact ET. }
    split.
    + intros K1. assert (S k = Z.to_nat bins) as K2 by lia. split; [rewrite E; apply qz_le_i; lia |]. right. split; [exact K2 |]. rewrite K2, ET. reflexivity.
    + intros [_ [G | [G _]]]; [| lia]. rewrite E in G. apply qz_lt_e in G. lia.
Qed.

Lemma bars_spec : forall qs, Forall (fun v => lo <= v /\ v <= hi) qs -> bars_show qs lo hi (Z.to_nat bins) (bars_between lo hi bins qs).
Proof.
  intros qs F. rewrite Forall_forall in F. unfold bars_between. split; [rewrite map_length, seq_length; reflexivity |].
  intros k b E. rewrite nth_error_map in E. destruct (nth_error (seq 0 (Z.to_nat bins)) k) as [k' |] eqn:N; [| discriminate].
  assert (k < Z.to_nat bins)%nat as K by (rewrite <- (seq_length (Z.to_nat bins) 0); apply nth_error_Some; congruence).
  assert (k' = k) as ->. { apply nth_error_nth with (d := 0%nat) in N. rewrite seq_nth in N by exact K. lia. }
  injection E as <-. cbn [b_left b_right b_height].
  split; [rewrite edge_value, Z2Nat.id by lia; reflexivity |].
  split; [rewrite !edge_value, Z2Nat.id, Nat2Z.inj_succ by lia; unfold Z.succ; rewrite qz_add; change (qz 1) with 1; fold w; fold n; ring |].
  apply tally_filter. intros v Hv. rewrite Z.eqb_eq. destruct (F v Hv). apply number_spec; assumption.
Qed.

End Bars.

Lemma numbers_noinf : forall l qs, numbers l qs -> noinf l /\ finvals l = qs.
Proof.
  induction 1 as [| l qs H [N E] | q l qs H [N E]]; cbn [finvals].
  - split; [intros x [] | reflexivity].
  - split; [intros x [<- | Hx]; [split; discriminate | apply N, Hx] | exact E].
  - split; [intros x [<- | Hx]; [split; discriminate | apply N, Hx] | rewrite E; reflexivity].
Qed.
Lemma noinf_numbers : forall l, noinf l -> numbers l (finvals l).
Proof.
  induction l as [| x l IH]; intros H; [constructor |]. apply noinf_cons in H. destruct H as [[-> | [q ->]] H]; cbn [finvals]; constructor; apply IH, H.
Qed.

Lemma fmax2_fin : forall x y q, fmax2 x y = Fin q -> x <> PInf /\ y <> PInf.
Proof.
  intros x y q. unfold fmax2. destruct x, y; cbn [isnan fle]; intros H; split; try discriminate; try (destruct (qle _ _)); congruence.
Qed.
Lemma fmin2_fin : forall x y q, fmin2 x y = Fin q -> x <> NInf /\ y <> NInf.
Proof.
  intros x y q. unfold fmin2. destruct x, y; cbn [isnan fle]; intros H; split; try discriminate; try (destruct (qle _ _)); congruence.
Qed.
Lemma fmax2_p : forall x y, fmax2 x y = PInf <-> x = PInf \/ y = PInf.
Proof. intros x y. unfold fmax2. destruct x, y; cbn [isnan fle]; try (destruct (qle _ _)); split; intros H; try (destruct H); try discriminate; auto. Qed.
Lemma fmin2_p : forall x y, fmin2 x y = NInf <-> x = NInf \/ y = NInf.
Proof. intros x y. unfold fmin2. destruct x, y; cbn [isnan fle]; try (destruct (qle _ _)); split; intros H; try (destruct H); try discriminate; auto. Qed.
Lemma fmaximum_p : forall l, In PInf l -> fmaximum l = PInf.
Proof.
  induction l as [| x l IH]; intros H; [destruct H |]. cbn [fmaximum fold_right]. apply fmax2_p. destruct H as [-> | H]; [left; reflexivity | right; apply IH, H].
Qed.
Lemma fminimum_n : forall l, In NInf l -> fminimum l = NInf.
Proof.
  induction l as [| x l IH]; intros H; [destruct H |]. cbn [fminimum fold_right]. apply fmin2_p. destruct H as [-> | H]; [left; reflexivity | right; apply IH, H].
Qed.

Lemma half_pos : 0 < qf 1 2.
Proof. reflexivity. Qed.

(** The histogram of values that are not all missing. *)
Lemma hist_finite : forall bins l q qs, (1 <= bins)%Z -> numbers l (q :: qs) -> exists lo hi, range_of (q :: qs) lo hi /\ lo < hi /\
  Forall (fun v => lo <= v /\ v <= hi) (q :: qs) /\ hist bins l = Ok (bars_between lo hi bins (q :: qs)).
Proof.
  intros bins l q qs Hb N. apply numbers_noinf in N. destruct N as [N E].
  destruct (fminimum_spec l N) as [[C _] | (lo & [Il Ml] & El)]; [congruence |]. destruct (fmaximum_spec l N) as [[C _] | (hi & [Ih Mh] & Eh)]; [congruence |].
  unfold hist. destruct (bins <? 1)%Z eqn:B; [apply Z.ltb_lt in B; lia |]. destruct l as [| x l]; [discriminate |]. rewrite El, Eh.
  rewrite E in *. assert (lo <= hi) as Le by (apply Ml, Ih). destruct (qeq lo hi) eqn:Q.
  - apply qeq_spec in Q. subst hi. exists (lo - qf 1 2), (lo + qf 1 2). pose proof half_pos. split; [exists lo, lo; split; [split; assumption |]; split; [split; assumption |]; right; auto |].
    split; [qlra |]. split; [| reflexivity]. apply Forall_forall. intros v Hv. pose proof (Ml v Hv). pose proof (Mh v Hv). split; qlra.
  - assert (lo < hi) as L. { apply Qc_le_lt_or_eq in Le. destruct Le as [L | L]; [exact L |]. subst hi. exfalso. rewrite (proj2 (qeq_spec lo lo) eq_refl) in Q. discriminate. }
    exists lo, hi. split; [exists lo, hi; split; [split; assumption |]; split; [split; assumption |]; left; auto |]. split; [exact L |]. split; [| reflexivity].
    apply Forall_forall. intros v Hv. split; [apply Ml, Hv | apply Mh, Hv].
Qed.

Lemma hist_shows : forall bins l bars, hist bins l = Ok bars -> histogram_shows l bins bars.
Proof.
  intros bins l bars H. assert (1 <= bins)%Z as Hb. { unfold hist in H. destruct (bins <? 1)%Z eqn:B; [discriminate |]. apply Z.ltb_ge in B. exact B. }
  split; [exact Hb |]. destruct l as [| x l].
  - left. split; [reflexivity |]. unfold hist in H. destruct (bins <? 1)%Z; [discriminate |]. injection H as <-. apply bars_spec; [reflexivity | exact Hb | constructor].
  - right. assert (noinf (x :: l)) as N.
    { intros y Hy. split; intros ->; unfold hist in H; destruct (bins <? 1)%Z; try discriminate.
      - rewrite (fmaximum_p _ Hy) in H. destruct (fminimum (x :: l)); discriminate.
      - rewrite (fminimum_n _ Hy) in H. discriminate. }
    pose proof (noinf_numbers _ N) as K. destruct (finvals (x :: l)) as [| q qs] eqn:E.
    + exfalso. destruct (fminimum_spec _ N) as [[_ M] | (lo & [I _] & _)]; [| rewrite E in I; destruct I].
      unfold hist in H. rewrite M in H. destruct (bins <? 1)%Z; discriminate.
    + destruct (hist_finite bins _ q qs Hb K) as (lo & hi & R & L & F & Hh). rewrite Hh in H. injection H as <-.
      exists (q :: qs), lo, hi. split; [exact K |]. split; [exact R |]. apply bars_spec; assumption.
Qed.

Lemma hist_drawn : forall bins l, (exists bars, hist bins l = Ok bars) <-> (1 <= bins)%Z /\ (l = [] \/ exists q qs, numbers l (q :: qs)).
Proof.
  intros bins l. split.
  - intros [bars H]. apply hist_shows in H. destruct H as [Hb [[-> _] | (qs & lo & hi & N & (a & b & [I _] & _) & _)]]; (split; [exact Hb |]).
    + left. reflexivity.
    + right. destruct qs as [| q qs]; [destruct I |]. exists q, qs. exact N.
  - intros [Hb [-> | (q & qs & N)]].
    + unfold hist. destruct (bins <? 1)%Z eqn:B; [apply Z.ltb_lt in B; lia |]. eexists. reflexivity.
    + destruct (hist_finite bins l q qs Hb N) as (lo & hi & _ & _ & _ & ->). eexists. reflexivity.
Qed.
Lemma hist_error : forall bins l e, hist bins l = Raise e -> e = ValueError.
Proof.
  intros bins l e. unfold hist. destruct (bins <? 1)%Z; [congruence |]. destruct l as [| x l]; [discriminate |].
  destruct (fminimum (x :: l)); try congruence. destruct (fmaximum (x :: l)); congruence.
Qed.

(** Every number is in one bar. *)
Lemma count_fibres : forall {A} (f : A -> Z) n l, (forall a, In a l -> (0 <= f a < Z.of_nat n)%Z) ->
  fold_right Nat.add 0%nat (map (fun k => length (filter (fun a => (f a =? Z.of_nat k)%Z) l)) (seq 0 n)) = length l.
Proof.
  intros A f n. induction l as [| a l IH]; intros H.
  - cbn [filter length]. induction (seq 0 n); cbn; [reflexivity | assumption].
  - assert (forall ks, fold_right Nat.add 0%nat (map (fun k => length (filter (fun a => (f a =? Z.of_nat k)%Z) (a :: l))) ks)
      = (length (filter (fun k => (f a =? Z.of_nat k)%Z) ks) + fold_right Nat.add 0%nat (map (fun k => length (filter (fun a => (f a =? Z.of_nat k)%Z) l)) ks))%nat) as G.
    { induction ks as [| k ks IHk]; [reflexivity |]. cbn [map fold_right filter]. cbn [filter] in IHk. rewrite IHk. destruct (f a =? Z.of_nat k)%Z; cbn [length]; lia. }
    rewrite G, IH by (intros b Hb; apply H; right; exact Hb). cbn [length]. f_equal.
    specialize (H a (or_introl eq_refl)). clear G IH.
    assert (forall s m, (s <= Z.to_nat (f a) < s + m)%nat -> length (filter (fun k => (f a =? Z.of_nat k)%Z) (seq s m)) = 1%nat) as C.
    { intros s m. revert s. induction m as [| m IHm]; intros s Hs; [lia |]. cbn [seq filter].
      destruct (f a =? Z.of_nat s)%Z eqn:E.
      - apply Z.eqb_eq in E. cbn [length]. f_equal. assert (forall m s', (Z.to_nat (f a) < s')%nat -> filter (fun k => (f a =? Z.of_nat k)%Z) (seq s' m) = []) as R.
        { clear - H. induction m as [| m IHm]; intros s' Hs; [reflexivity |]. cbn [seq filter]. destruct (f a =? Z.of_nat s')%Z eqn:E; [apply Z.eqb_eq in E; lia |]. apply IHm. lia. }
        rewrite R by lia. reflexivity.
      - apply Z.eqb_neq in E. apply IHm. lia. }
    rewrite C; [reflexivity | lia].
Qed.
Lemma bars_total : forall lo hi bins qs, lo < hi -> (1 <= bins)%Z -> Forall (fun v => lo <= v /\ v <= hi) qs -> total (bars_between lo hi bins qs) = length qs.
Proof.
  intros lo hi bins qs L Hb F. unfold total, bars_between. rewrite map_map. cbn [b_height]. apply count_fibres.
  intros v Hv. rewrite Z2Nat.id by lia. rewrite Forall_forall in F. destruct (F v Hv) as [F0 F1]. unfold bar_number.
  pose proof (Z.le_min_l (bins - 1) (qfloor ((v - lo) * qz bins / (hi - lo)))). split; [| lia]. apply Z.min_glb; [lia |]. apply qfloor_nonneg.
  apply Qc_div_nonneg; [apply Qc_mul_nonneg; [qlra | apply (qz_le_i 0); lia] | qlra].
Qed.
Lemma hist_total : forall bins l bars, hist bins l = Ok bars -> exists qs, numbers l qs /\ total bars = length qs.
Proof.
  intros bins l bars H. destruct (proj1 (hist_drawn bins l) (ex_intro _ bars H)) as [Hb [-> | (q & qs & N)]].
  - exists []. split; [constructor |]. unfold hist in H. destruct (bins <? 1)%Z; [discriminate |]. injection H as <-. apply bars_total; [reflexivity | exact Hb | constructor].
  - exists (q :: qs). split; [exact N |]. destruct (hist_finite bins l q qs Hb N) as (lo & hi & _ & L & F & E). rewrite E in H. injection H as <-. apply bars_total; assumption.
Qed.
