(** Building blocks of the clipping filters. *)

From Coq Require Import QArith Qcanon List ZArith Bool Arith Lia Sorted.
From Verif.Base Require Import QcExtra ISort Quantile Fl TimeSeries Calendar Rolling.
From Verif.Model Require Import Utilities Interpolation Normalization Clipping.
From Verif.Spec Require Import Stats Filters Normalization Clipping.
From Verif.Proofs Require Import StatsP FlP FiltersP NormP2 NormP4.
Import ListNotations.
Open Scope Qc_scope.

(** ** Extremes *)

Lemma is_max_unique : forall l a b, is_max l a -> is_max l b -> a = b.
Proof. intros l a b [Ia Ha] [Ib Hb]. apply Qcle_antisym; auto. Qed.
Lemma is_min_unique : forall l a b, is_min l a -> is_min l b -> a = b.
Proof. intros l a b [Ia Ha] [Ib Hb]. apply Qcle_antisym; auto. Qed.

Lemma noinf_cons : forall x l, noinf (x :: l) -> (x = NaN \/ exists q, x = Fin q) /\ noinf l.
Proof.
  intros x l H. split; [| intros y Hy; apply H; right; exact Hy].
  destruct (H x (or_introl eq_refl)). destruct x; eauto; congruence.
Qed.

Lemma fmaximum_spec : forall l, noinf l ->
  (finvals l = [] /\ fmaximum l = NaN) \/ (exists hi, is_max (finvals l) hi /\ fmaximum l = Fin hi).
Proof.
  induction l as [| x l IH]; intros H; [left; split; reflexivity |].
  apply noinf_cons in H. destruct H as [[-> | [q ->]] H].
  - destruct (IH H) as [[E M] | (hi & Hm & M)]; [left | right; exists hi]; cbn [finvals fmaximum fold_right fmax2 isnan]; auto.
  - right. destruct (IH H) as [[E M] | (hi & [Hi Hm] & M)]; cbn [finvals fmaximum fold_right] in *; unfold fmaximum in M; rewrite M; cbn [fmax2 isnan].
    + exists q. rewrite E. split; [| reflexivity]. split; [left; reflexivity |]. intros x [-> | []]. apply Qcle_refl.
    + cbn [fle]. destruct (qle q hi) eqn:L.
      * apply qle_spec in L. exists hi. split; [| reflexivity]. split; [right; exact Hi |]. intros x [<- | Hx]; [exact L | auto].
      * apply qle_false in L. exists q. split; [| reflexivity]. split; [left; reflexivity |].
        intros x [<- | Hx]; [apply Qcle_refl |]. apply Qcle_trans with hi; [auto | apply Qclt_le_weak, L].
Qed.

Lemma fminimum_spec : forall l, noinf l ->
  (finvals l = [] /\ fminimum l = NaN) \/ (exists lo, is_min (finvals l) lo /\ fminimum l = Fin lo).
Proof.
  induction l as [| x l IH]; intros H; [left; split; reflexivity |].
  apply noinf_cons in H. destruct H as [[-> | [q ->]] H].
  - destruct (IH H) as [[E M] | (hi & Hm & M)]; [left | right; exists hi]; cbn [finvals fminimum fold_right fmin2 isnan]; auto.
  - right. destruct (IH H) as [[E M] | (hi & [Hi Hm] & M)]; cbn [finvals fminimum fold_right] in *; unfold fminimum in M; rewrite M; cbn [fmin2 isnan].
    + exists q. rewrite E. split; [| reflexivity]. split; [left; reflexivity |]. intros x [-> | []]. apply Qcle_refl.
    + cbn [fle]. destruct (qle q hi) eqn:L.
      * apply qle_spec in L. exists q. split; [| reflexivity]. split; [left; reflexivity |].
        intros x [<- | Hx]; [apply Qcle_refl |]. apply Qcle_trans with hi; [exact L | auto].
      * apply qle_false in L. exists hi. split; [| reflexivity]. split; [right; exact Hi |].
        intros x [<- | Hx]; [apply Qclt_le_weak, L | auto].
Qed.

(** ** The step of an index *)

Lemma steps_gaps : forall l, steps l = gaps l.
Proof.
  induction l as [| a l IH]; [reflexivity |]. destruct l as [| b l]; [reflexivity |].
  change (steps (a :: b :: l)) with ((b - a)%Z :: steps (b :: l)). rewrite IH. reflexivity.
Qed.

Lemma min_spec : forall m x, In (fold_right Z.min x m) (x :: m) /\ forall y, In y (x :: m) -> (fold_right Z.min x m <= y)%Z.
Proof.
  induction m as [| a m IH]; intros x; cbn [fold_right].
  - split; [left; reflexivity |]. intros y [<- | []]. lia.
  - destruct (IH x) as [Hi Hm]. split.
    + destruct (Z.min_spec a (fold_right Z.min x m)) as [[_ ->] | [_ ->]]; [right; left; reflexivity |].
      destruct Hi as [<- | Hi]; [left; reflexivity | right; right; exact Hi].
    + intros y [<- | [<- | Hy]].
      * specialize (Hm x (or_introl eq_refl)). lia.
      * lia.
      * specialize (Hm y (or_intror Hy)). lia.
Qed.

Lemma most_frequent_In : forall l x, In x (most_frequent l) <->
  In x l /\ forall y, In y l -> (occurrences y l <= occurrences x l)%nat.
Proof.
  intros l x. unfold most_frequent. rewrite filter_In, forallb_forall. apply and_iff_compat_l. split; intros H y Hy.
  - specialize (H y Hy). apply Nat.leb_le in H. exact H.
  - apply Nat.leb_le. exact (H y Hy).
Qed.

Lemma mode_spec : forall l, l <> [] -> is_mode l (mode l).
Proof.
  intros l Hl.
  assert (exists x, In x l /\ forall y, In y l -> (occurrences y l <= occurrences x l)%nat) as (x0 & Hx0 & Hm0).
  { assert (forall k, k <> [] -> exists x, In x k /\ forall y, In y k -> (occurrences y l <= occurrences x l)%nat) as X.
    { induction k as [| a k IH]; [congruence |]. intros _. destruct k as [| b k].
      - exists a. split; [left; reflexivity |]. intros y [<- | []]. lia.
      - destruct IH as (x & Hx & Hm); [discriminate |].
        destruct (le_lt_dec (occurrences a l) (occurrences x l)).
        + exists x. split; [right; exact Hx |]. intros y [<- | Hy]; [lia | auto].
        + exists a. split; [left; reflexivity |]. intros y [<- | Hy]; [lia |]. specialize (Hm y Hy). lia. }
    apply X, Hl. }
  assert (In x0 (most_frequent l)) as Hin by (apply most_frequent_In; auto).
  unfold mode. destruct (most_frequent l) as [| a m] eqn:E; [destruct Hin |]. destruct (min_spec m a) as [Hi Hm].
  rewrite <- E in Hi, Hm. apply most_frequent_In in Hi. destruct Hi as [Hi Hc]. split; [exact Hi |].
  intros y Hy. destruct (le_lt_dec (occurrences (fold_right Z.min a m) l) (occurrences y l)) as [L | L]; [right | left; exact L].
  specialize (Hc y Hy) as L'. split; [lia |]. apply Hm, most_frequent_In. split; [exact Hy |].
  intros z Hz. specialize (Hc z Hz). lia.
Qed.

Lemma is_mode_unique : forall l a b, is_mode l a -> is_mode l b -> a = b.
Proof. intros l a b [Ia Ha] [Ib Hb]. specialize (Ha b Ib). specialize (Hb a Ia). lia. Qed.

Lemma gaps_pos : forall l, StronglySorted Z.lt l -> forall d, In d (gaps l) -> (0 < d)%Z.
Proof.
  intros l HS d. rewrite <- steps_gaps. induction HS as [| a l HS IH F]; [intros [] |]. destruct l as [| b l]; [intros [] |].
  intros [<- | H]; [| exact (IH H)]. inversion F; subst. lia.
Qed.

Lemma gaps_nonempty : forall a b l, gaps (a :: b :: l) <> [].
Proof. discriminate. Qed.

Lemma mode_pos : forall l, StronglySorted Z.lt l -> (2 <= length l)%nat -> (0 < mode (steps l))%Z /\ is_mode (gaps l) (mode (steps l)).
Proof.
  intros l HS HL. destruct l as [| a [| b l]]; cbn in HL; try lia.
  assert (is_mode (gaps (a :: b :: l)) (mode (steps (a :: b :: l)))) as HM by (rewrite steps_gaps; apply mode_spec, gaps_nonempty).
  split; [| exact HM]. apply gaps_pos with (a :: b :: l); [exact HS | apply HM].
Qed.

(** ** Forward filling *)

Lemma last_at_regular : forall A (d : A) g b0 w n t, (0 < w)%Z ->
  last_at d (map (fun k => (b0 + w * Z.of_nat k, g (b0 + w * Z.of_nat k))%Z) (seq 0 (S n))) t =
  if (t <? b0)%Z then d else g (b0 + w * Z.min (Z.of_nat n) ((t - b0) / w))%Z.
Proof.
  intros A d g b0 w n t Hw. unfold last_at. induction n as [| n IH].
  - cbn [seq map rev app find fst snd Z.of_nat]. destruct (t <? b0)%Z eqn:E.
    + apply Z.ltb_lt in E. destruct (b0 + w * 0 <=? t)%Z eqn:E2; [apply Z.leb_le in E2; lia | reflexivity].
    + apply Z.ltb_ge in E. destruct (b0 + w * 0 <=? t)%Z eqn:E2; [| apply Z.leb_gt in E2; lia].
      assert (0 <= (t - b0) / w)%Z by (apply Z.div_pos; lia). rewrite Z.min_l by lia. reflexivity.
  - rewrite seq_S, map_app, rev_app_distr. cbn [map rev app find fst snd]. change (0 + S n)%nat with (S n).
    destruct (b0 + w * Z.of_nat (S n) <=? t)%Z eqn:E2.
    + apply Z.leb_le in E2. destruct (t <? b0)%Z eqn:E; [apply Z.ltb_lt in E; nia |].
      rewrite Z.min_l; [reflexivity |]. apply Z.div_le_lower_bound; lia.
    + apply Z.leb_gt in E2. rewrite IH. destruct (t <? b0)%Z eqn:E; [reflexivity |]. apply Z.ltb_ge in E.
      assert ((t - b0) / w < Z.of_nat (S n))%Z by (apply Z.div_lt_upper_bound; lia).
      rewrite !Z.min_r by lia. reflexivity.
Qed.

Lemma last_at_latest : forall A (d : A) l t, StronglySorted Z.lt (map fst l) ->
  (latest l t (last_at d l t)) \/ ((forall u v, In (u, v) l -> (t < u)%Z) /\ last_at d l t = d).
Proof.
  intros A d l t. unfold last_at. induction l as [| [u v] l IH] using rev_ind; intros HS.
  - right. split; [intros u v [] | reflexivity].
  - rewrite rev_app_distr. cbn [rev app find fst snd]. destruct (u <=? t)%Z eqn:E.
    + left. apply Z.leb_le in E. exists (length l), u. split; [| split; [exact E |]].
      * rewrite nth_error_app2 by lia. rewrite Nat.sub_diag. reflexivity.
      * intros j u' v' Hj Hn. assert (nth_error (l ++ [(u, v)]) j <> None) as K by congruence.
        apply nth_error_Some in K. rewrite app_length in K. cbn in K. lia.
    + apply Z.leb_gt in E. rewrite map_app in HS.
      assert (StronglySorted Z.lt (map fst l)) as HS1.
      { clear -HS. induction (map fst l) as [| x k IHk]; [constructor |]. cbn [app] in HS. apply StronglySorted_inv in HS. destruct HS as [H F].
        constructor; [auto |]. rewrite Forall_forall in *. intros y Hy. apply F, in_or_app. left. exact Hy. }
      destruct (IH HS1) as [(i & w & Hn & Hle & Hafter) | [Hall Hd]].
      * left. exists i, w. assert (i < length l)%nat by (apply nth_error_Some; congruence).
        split; [rewrite nth_error_app1 by lia; exact Hn |]. split; [exact Hle |].
        intros j u' v' Hj Hn'. destruct (Nat.lt_ge_cases j (length l)).
        -- rewrite nth_error_app1 in Hn' by lia. eapply Hafter; eauto.
        -- rewrite nth_error_app2 in Hn' by lia. destruct (j - length l)%nat as [| [| ?]]; [injection Hn' as <- <-; exact E | discriminate | discriminate].
      * right. split; [| exact Hd]. intros u' v' Hin. apply in_app_or in Hin. destruct Hin as [Hin | [[= <- <-] | []]]; [eapply Hall; eauto | exact E].
Qed.

Lemma latest_unique : forall A (l : list (Z * A)) t v w, latest l t v -> latest l t w -> v = w.
Proof.
  intros A l t v w (i & u & Hn & Hle & Ha) (j & u' & Hn' & Hle' & Ha').
  destruct (Nat.lt_trichotomy i j) as [L | [-> | L]].
  - specialize (Ha j u' w L Hn'). lia.
  - congruence.
  - specialize (Ha' i u v L Hn). lia.
Qed.

(** ** Daily aggregates *)

Lemma start_day_bin : forall t, bin_start (start_day t) ns_day t = start_day t.
Proof.
  intros t. pose proof ns_day_pos as P. unfold bin_start, start_day.
  replace ((t - ns_day * (t / ns_day)) / ns_day)%Z with 0%Z; [lia |].
  pose proof (Z.div_mod t ns_day ltac:(lia)). pose proof (Z.mod_pos_bound t ns_day ltac:(lia)).
  symmetry. apply Z.div_small. lia.
Qed.

Lemma same_bin_day : forall t0 t d, ((bin_start (start_day t0) ns_day t =? start_day d)%Z = (t / ns_day =? d / ns_day)%Z).
Proof.
  intros t0 t d. pose proof ns_day_pos as P. unfold bin_start, start_day.
  replace ((t - ns_day * (t0 / ns_day)) / ns_day)%Z with (t / ns_day - t0 / ns_day)%Z.
  - destruct (t / ns_day =? d / ns_day)%Z eqn:E.
    + apply Z.eqb_eq in E. apply Z.eqb_eq. lia.
    + apply Z.eqb_neq in E. apply Z.eqb_neq. nia.
  - replace (t - ns_day * (t0 / ns_day))%Z with (t + - (t0 / ns_day) * ns_day)%Z by lia. rewrite Z.div_add by lia. lia.
Qed.

Lemma sorted_last : forall (s : series) t0 v0 t v, sorted_index ((t0, v0) :: s) -> In (t, v) ((t0, v0) :: s) ->
  (t0 <= t <= fst (List.last ((t0, v0) :: s) (t0, NaN)))%Z.
Proof.
  intros s t0 v0 t v HS Hin. split.
  - destruct Hin as [[= <- <-] | Hin]; [lia |]. apply sorted_cons_inv in HS. destruct HS as [_ F]. specialize (F _ _ Hin). cbn in F. lia.
  - rewrite last_fst. cbn [fst]. unfold sorted_index in HS. assert (In t (times ((t0, v0) :: s))) as H by (apply in_map_iff; exists (t, v); auto).
    clear Hin. revert HS H. generalize (times ((t0, v0) :: s)). intros l. generalize t0 at 1. induction l as [| a l IH]; intros d HS H; [destruct H |].
    destruct l as [| b l]; [destruct H as [-> | []]; cbn; lia |].
    apply StronglySorted_inv in HS. destruct HS as [HS F]. change (List.last (a :: b :: l) d) with (List.last (b :: l) d).
    destruct H as [<- | H]; [| apply IH; assumption].
    rewrite Forall_forall in F. assert (In (List.last (b :: l) d) (b :: l)) as K.
    { clear. revert b. induction l as [| c l IH]; intros b; [left; reflexivity |]. right. apply IH. }
    specialize (F _ K). lia.
Qed.

Lemma hd_rev_last : forall l (d0 : Z), l <> [] -> hd_error (rev l) = Some (List.last l d0).
Proof.
  intros l. induction l as [| a l IH] using rev_ind; [congruence |]. intros d0 _. rewrite rev_app_distr, last_last. reflexivity.
Qed.

Lemma Fin_inj : forall a b, map Fin a = map Fin b -> a = b.
Proof. intros a b H. rewrite <- (finvals_map_Fin a), H. apply finvals_map_Fin. Qed.

Lemma and_iff_compat_l_weak : forall A B C : Prop, (A -> (B <-> C)) -> (A /\ B <-> A /\ C).
Proof. tauto. Qed.

Lemma nth_error_firstn : forall A n (l : list A) k, nth_error (firstn n l) k = if (k <? n)%nat then nth_error l k else None.
Proof.
  intros A n. induction n as [| n IH]; intros l k; [destruct k; reflexivity |]. destruct l as [| a l]; [cbn [firstn]; destruct k; cbn [nth_error]; [reflexivity |]; destruct (S k <? S n)%nat; reflexivity |].
  destruct k as [| k]; [reflexivity |]. cbn [firstn nth_error]. rewrite IH. reflexivity.
Qed.

Lemma nth_error_skipn : forall A n (l : list A) k, nth_error (skipn n l) k = nth_error l (n + k).
Proof.
  intros A n. induction n as [| n IH]; intros l k; [reflexivity |]. destruct l as [| a l]; [cbn; destruct k; reflexivity |]. apply IH.
Qed.

(** The value of a daily aggregate at any time from the first day on: that of its own day, or
    of the last day with rows. *)
Lemma daily_at : forall A (d : A) f s t, sorted_index s -> s <> [] ->
  exists t0 t1, hd_error (times s) = Some t0 /\ hd_error (rev (times s)) = Some t1 /\
  last_at d (resample_agg f ns_day s) t =
    if (t / ns_day <? t0 / ns_day)%Z then d
    else f (on_day (if (t1 / ns_day <? t / ns_day)%Z then t1 else t) s).
Proof.
  intros A d f s t HS Hne. destruct s as [| [t0 v0] s]; [congruence |]. clear Hne.
  exists t0, (fst (List.last ((t0, v0) :: s) (t0, NaN))). split; [reflexivity |]. split.
  { rewrite last_fst. cbn [fst]. apply hd_rev_last. discriminate. }
  set (t1 := fst (List.last ((t0, v0) :: s) (t0, NaN))).
  assert (t0 <= t1)%Z as Hle.
  { apply (sorted_last s t0 v0 t0 v0 HS). left. reflexivity. }
  unfold resample_agg. fold t1. unfold bin_starts. rewrite start_day_bin.
  rewrite map_map.
  rewrite (last_at_regular A d (fun b => f (vals (filter (fun r => (bin_start (start_day t0) ns_day (fst r) =? b)%Z) ((t0, v0) :: s)))))
    by apply ns_day_pos.
  pose proof ns_day_pos as P.
  assert ((t <? start_day t0)%Z = (t / ns_day <? t0 / ns_day)%Z) as ->.
  { unfold start_day. destruct (t / ns_day <? t0 / ns_day)%Z eqn:E.
    - apply Z.ltb_lt in E. apply Z.ltb_lt. pose proof (Z.div_mod t ns_day ltac:(lia)). pose proof (Z.mod_pos_bound t ns_day ltac:(lia)). nia.
    - apply Z.ltb_ge in E. apply Z.ltb_ge. pose proof (Z.div_mod t ns_day ltac:(lia)). pose proof (Z.mod_pos_bound t ns_day ltac:(lia)). nia. }
  destruct (t / ns_day <? t0 / ns_day)%Z eqn:E; [reflexivity |]. apply Z.ltb_ge in E.
  assert (forall u, (u - start_day t0) / ns_day = u / ns_day - t0 / ns_day)%Z as D.
  { intros u. unfold start_day. replace (u - ns_day * (t0 / ns_day))%Z with (u + - (t0 / ns_day) * ns_day)%Z by lia. rewrite Z.div_add by lia. lia. }
  rewrite !D. assert (t0 / ns_day <= t1 / ns_day)%Z by (apply Z.div_le_mono; lia).
  rewrite Z2Nat.id by lia.
  assert (start_day t0 + ns_day * Z.min (t1 / ns_day - t0 / ns_day) (t / ns_day - t0 / ns_day) =
          start_day (if (t1 / ns_day <? t / ns_day)%Z then t1 else t))%Z as ->.
  { unfold start_day. destruct (t1 / ns_day <? t / ns_day)%Z eqn:E1.
    - apply Z.ltb_lt in E1. rewrite Z.min_l by lia. lia.
    - apply Z.ltb_ge in E1. rewrite Z.min_r by lia. lia. }
  unfold on_day. do 2 f_equal. apply filter_ext. intros r. apply same_bin_day.
Qed.

Lemma daily_own : forall A (d : A) f s t v, sorted_index s -> In (t, v) s ->
  last_at d (resample_agg f ns_day s) t = f (on_day t s).
Proof.
  intros A d f s t v HS Hin. destruct s as [| [t0 v0] s]; [destruct Hin |].
  destruct (daily_at A d f _ t HS ltac:(discriminate)) as (a & b & E0 & E1 & ->).
  pose proof (sorted_last s t0 v0 t v HS Hin) as L. pose proof ns_day_pos as P.
  cbn in E0. injection E0 as <-. rewrite (hd_rev_last _ t0) in E1 by discriminate.
  assert (b = List.last (times ((t0, v0) :: s)) t0) as -> by congruence. clear E1.
  rewrite last_fst in L. cbn [fst] in L.
  assert (t0 / ns_day <= t / ns_day <= List.last (times ((t0, v0) :: s)) t0 / ns_day)%Z by (split; apply Z.div_le_mono; lia).
  destruct (t / ns_day <? t0 / ns_day)%Z eqn:E2; [apply Z.ltb_lt in E2; lia |].
  destruct (List.last (times ((t0, v0) :: s)) t0 / ns_day <? t / ns_day)%Z eqn:E3; [apply Z.ltb_lt in E3; lia |]. reflexivity.
Qed.

Lemma on_day_noinf : forall t s, noinf (vals s) -> noinf (on_day t s).
Proof.
  intros t s H x Hx. apply H. unfold on_day, vals in *. apply in_map_iff in Hx. destruct Hx as (r & <- & Hr).
  apply filter_In in Hr. apply in_map, Hr.
Qed.

Lemma on_day_In : forall t v s, In (t, v) s -> In v (on_day t s).
Proof.
  intros t v s H. unfold on_day, vals. apply in_map_iff. exists (t, v). split; [reflexivity |]. apply filter_In. split; [exact H |].
  cbn [fst]. apply Z.eqb_refl.
Qed.

(** ** Frozen days *)

Lemma frozen_spec : forall l, noinf l -> frozen l = true <-> steady (finvals l).
Proof.
  intros l HI. unfold frozen.
  assert (existsb (fun x => match x with PInf | NInf => true | _ => false end) l = false) as ->.
  { destruct (existsb _ l) eqn:E; [| reflexivity]. apply existsb_exists in E. destruct E as (x & Hx & K). destruct (HI x Hx). destruct x; congruence. }
  set (v := finvals l). set (n := Z.of_nat (length v)). destruct (n <? 2)%Z eqn:E.
  - apply Z.ltb_lt in E. split; [discriminate |]. intros (m & Hn & _). unfold n in E. lia.
  - apply Z.ltb_ge in E. assert (0 < qz n) as Pn by (apply qz_pos; lia). assert (0 < qz (n - 1)) as Pn1 by (apply qz_pos; lia).
    assert (forall m, m * qz n = qsum v -> m = qsum v / qz n) as U.
    { intros m <-. field. apply Qc_pos_neq, Pn. }
    assert (qsum v / qz n * qz n = qsum v) as M by (apply Qc_div_mul, Qc_pos_neq, Pn).
    set (m := qsum v / qz n) in *. set (S2 := qsum (map (fun x => (x - m) * (x - m)) v)).
    assert (qz 100 * (S2 / qz (n - 1)) < m * m <-> qz 100 * S2 < m * m * qz (n - 1)) as X.
    { replace (qz 100 * (S2 / qz (n - 1))) with (qz 100 * S2 / qz (n - 1)) by (field; apply Qc_pos_neq, Pn1).
      split; intros H.
      - apply (Qcmult_lt_compat_r _ _ (qz (n - 1)) Pn1) in H. rewrite Qc_div_mul in H by (apply Qc_pos_neq, Pn1). exact H.
      - apply Qc_div_lt; assumption. }
    destruct (qlt 0 m) eqn:E0.
    + apply qlt_spec in E0. rewrite qlt_spec, X. split.
      * intros H. exists m. split; [unfold n in E; lia |]. split; [exact M |]. right. split; [exact E0 |]. exact H.
      * intros (m' & _ & Hm' & K). apply U in Hm'. subst m'. destruct K as [K | [_ K]]; [| exact K].
        exfalso. apply (Qclt_not_le _ _ K). apply Qclt_le_weak, E0.
    + apply qlt_false in E0. rewrite qlt_spec. split.
      * intros H. exists m. split; [unfold n in E; lia |]. split; [exact M |]. left. exact H.
      * intros (m' & _ & Hm' & K). apply U in Hm'. subst m'. destruct K as [K | [K _]]; [exact K |]. exfalso. apply (Qclt_not_le _ _ K), E0.
Qed.

Lemma clean_without : forall s, sorted_index s -> noinf (vals s) ->
  without (fun t _ => steady (finvals (on_day t s))) s (clean s).
Proof.
  intros s HS HI. unfold clean. split; [unfold times; rewrite map_map; reflexivity |].
  intros i t v w Hn Hc. rewrite nth_error_map_some, Hn in Hc. cbn [fst snd] in Hc. apply nth_error_In in Hn.
  rewrite (daily_own _ _ _ s t v HS Hn) in Hc. pose proof (frozen_spec (on_day t s) (on_day_noinf t s HI)) as F.
  destruct (frozen (on_day t s)).
  - left. injection Hc as <-. split; [apply F; reflexivity | reflexivity].
  - right. injection Hc as <-. split; [| reflexivity]. intros K. apply F in K. discriminate.
Qed.

Lemma clean_noinf : forall s, noinf (vals s) -> noinf (vals (clean s)).
Proof.
  intros s H x Hx. unfold clean, vals in Hx. rewrite map_map in Hx. apply in_map_iff in Hx. destruct Hx as (r & <- & Hr). cbn [snd].
  destruct (last_at _ _ _); [split; discriminate |]. apply H, in_map, Hr.
Qed.

Lemma clean_times : forall s, times (clean s) = times s.
Proof. intros s. unfold clean, times. rewrite map_map. reflexivity. Qed.

(** ** Low values *)

Lemma drop_low_without : forall s, sorted_index s -> noinf (vals s) -> without (low s) s (drop_low s).
Proof.
  intros s HS HI. unfold drop_low. split; [unfold times; rewrite map_map; reflexivity |].
  intros i t v w Hn Hc. rewrite nth_error_map_some, Hn in Hc. cbn [fst snd] in Hc. apply nth_error_In in Hn.
  rewrite (daily_own _ _ _ s t v HS Hn) in Hc. unfold low.
  destruct (fmaximum_spec (on_day t s) (on_day_noinf t s HI)) as [[E M] | (hi & Hm & M)]; rewrite M in Hc.
  - right. assert (flt v (fmul (ff 1 10) NaN) = false) as K by (destruct v; reflexivity). rewrite K in Hc. injection Hc as <-.
    split; [| reflexivity]. intros (q & hi & _ & [Hin _] & _). rewrite E in Hin. destruct Hin.
  - unfold ff, fmul in Hc. destruct (flt v (Fin (qf 1 10 * hi))) eqn:L; injection Hc as <-.
    + left. split; [| reflexivity]. destruct v as [| | q |]; try discriminate.
      * exfalso. assert (In NInf (vals s)) as K by (apply in_map_iff; exists (t, NInf); auto). destruct (HI _ K). congruence.
      * cbn [flt] in L. apply qlt_spec in L. exists q, hi. auto.
    + right. split; [| reflexivity]. intros (q & hi' & -> & Hm' & K). rewrite (is_max_unique _ _ _ Hm' Hm) in K. cbn [flt] in L. apply qlt_false in L.
      apply (Qclt_not_le _ _ K L).
Qed.

Lemma drop_low_noinf : forall s, noinf (vals s) -> noinf (vals (drop_low s)).
Proof.
  intros s H x Hx. unfold drop_low, vals in Hx. rewrite map_map in Hx. apply in_map_iff in Hx. destruct Hx as (r & <- & Hr). cbn [snd].
  destruct (flt _ _); [split; discriminate |]. apply H, in_map, Hr.
Qed.

(** ** Flat stretches *)

Lemma nth_error_tails : forall A (l : list A) j, nth_error (tails l) j = if (j <? length l)%nat then Some (skipn j l) else None.
Proof.
  induction l as [| a l IH]; intros j; [destruct j; reflexivity |].
  destruct j as [| j]; [reflexivity |]. cbn [tails nth_error skipn length]. rewrite IH.
  change (S j <? S (length l))%nat with (j <? length l)%nat. reflexivity.
Qed.

Lemma noninf_id : forall l, noinf l -> map noninf l = l.
Proof.
  induction l as [| x l IH]; intros H; [reflexivity |]. apply noinf_cons in H. destruct H as [Hx H]. cbn [map]. rewrite (IH H).
  destruct Hx as [-> | [q ->]]; reflexivity.
Qed.

Lemma all_fin : forall l, noinf l -> forallb notnan l = true -> exists w, l = map Fin w.
Proof.
  induction l as [| x l IH]; intros H E; [exists []; reflexivity |]. apply noinf_cons in H. destruct H as [Hx H]. cbn in E. apply andb_true_iff in E.
  destruct E as [E1 E2]. destruct (IH H E2) as [w ->]. destruct Hx as [-> | [q ->]]; [discriminate |]. exists (q :: w). reflexivity.
Qed.

Lemma noinf_firstn_skipn : forall n j l, noinf l -> noinf (firstn n (skipn j l)).
Proof.
  intros n j l H x Hx. apply H. rewrite <- (firstn_skipn j l). apply in_or_app. right.
  rewrite <- (firstn_skipn n (skipn j l)). apply in_or_app. left. exact Hx.
Qed.

Lemma window_flat : forall n cutoff s j, noinf (vals s) -> (1 <= n)%nat ->
  flt (window_range n (skipn j (vals s))) (Fin cutoff) = true <-> flat s n cutoff j.
Proof.
  intros n cutoff s j HI Hn. unfold window_range, flat.
  assert (map snd (firstn n (skipn j s)) = firstn n (skipn j (vals s))) as EW by (unfold vals; rewrite skipn_map, firstn_map; reflexivity).
  rewrite EW. clear EW. pose proof (noinf_firstn_skipn n j (vals s) HI) as HI'. rewrite (noninf_id _ HI').
  set (l := firstn n (skipn j (vals s))) in *. clearbody l.
  destruct ((length l =? n)%nat && forallb notnan l) eqn:E.
  - apply andb_true_iff in E. destruct E as [EL EN]. apply Nat.eqb_eq in EL. destruct (all_fin l HI' EN) as [w ->].
    assert (finvals (map Fin w) = w) as Ew by apply finvals_map_Fin.
    destruct (fmaximum_spec (map Fin w) HI') as [[E _] | (hi & Hm & ->)].
    { rewrite Ew in E. subst w. cbn in EL. lia. }
    destruct (fminimum_spec (map Fin w) HI') as [[E _] | (lo & Hl & ->)].
    { rewrite Ew in E. subst w. cbn in EL. lia. }
    rewrite Ew in Hm, Hl. rewrite map_length in EL.
    assert (lo <= hi) as LH by (apply Hm, Hl).
    unfold fz, fsub, fneg, fadd, fdiv at 2. assert (qeq (qz 2) 0 = false) as -> by reflexivity. unfold fdiv.
    destruct (qeq ((hi + lo) / qz 2) 0) eqn:E0.
    + assert (hi + lo = 0) as E1.
      { apply qeq_spec in E0. replace (hi + lo) with ((hi + lo) / qz 2 * qz 2) by (field; discriminate). rewrite E0. ring. }
      split; intros H.
      * exfalso. unfold inf_sgn in H. destruct (qlt 0 (hi + - lo)) eqn:E2; [cbn in H; discriminate |].
        destruct (qlt (hi + - lo) 0) eqn:E3; [apply qlt_spec in E3; apply (Qclt_not_le _ _ E3); qlra | cbn in H; discriminate].
      * exfalso. destruct H as (w' & lo' & hi' & Hw & _ & Hl' & Hm' & Hs & _). apply Fin_inj in Hw. subst w'.
        rewrite (is_min_unique _ _ _ Hl' Hl), (is_max_unique _ _ _ Hm' Hm) in Hs. apply Hs. rewrite Qcplus_comm. exact E1.
    + assert (hi + lo <> 0) as E1 by (intros K; rewrite K in E0; discriminate).
      cbn [fmul flt]. rewrite qlt_spec. split.
      * intros H. exists w, lo, hi. split; [reflexivity |]. split; [exact EL |]. split; [exact Hl |]. split; [exact Hm |]. split; [rewrite Qcplus_comm; exact E1 | exact H].
      * intros (w' & lo' & hi' & Hw & _ & Hl' & Hm' & Hs & K). apply Fin_inj in Hw. subst w'.
        rewrite (is_min_unique _ _ _ Hl' Hl), (is_max_unique _ _ _ Hm' Hm) in K. exact K.
  - split; [discriminate |]. intros (w & lo & hi & -> & EL & _). rewrite map_length, EL, Nat.eqb_refl in E. cbn [andb] in E. exfalso.
    clear -E. induction w as [| x w IH]; [discriminate | exact (IH E)].
Qed.

Lemma clipping_rows_spec : forall n cutoff s, noinf (vals s) -> (1 <= n)%nat ->
  map fst (clipping_rows n (Fin cutoff) s) = times s /\
  forall i t b, nth_error (clipping_rows n (Fin cutoff) s) i = Some (t, b) -> (b = true <-> in_flat s n cutoff i).
Proof.
  intros n cutoff s HI Hn. unfold clipping_rows. split.
  - rewrite map_map. cbn [fst]. unfold times. rewrite <- (map_map snd fst). f_equal.
    clear. generalize 0%nat. induction s as [| r s IH]; intros k; [reflexivity |]. cbn [length seq combine map snd]. f_equal. apply IH.
  - intros i t b E. rewrite nth_error_map_some, nth_error_numbered in E. destruct (nth_error s i) as [r |] eqn:Er; [| discriminate].
    cbn [fst snd] in E. match type of E with Some (_, ?x) = _ => assert (b = x) as -> by congruence end. clear E. unfold in_flat. rewrite andb_true_iff, Nat.leb_le. apply and_iff_compat_l_weak. intros Hi.
    rewrite existsb_exists. split.
    + intros (x & Hx & ->). apply In_nth_error in Hx. destruct Hx as [k Hk].
      assert (k < n)%nat as Kn.
      { assert (nth_error (firstn n (skipn (S i - n) (flat_rows n (Fin cutoff) s))) k <> None) as K by congruence.
        apply nth_error_Some in K. rewrite firstn_length in K. lia. }
      rewrite nth_error_firstn in Hk. destruct (k <? n)%nat eqn:Ek; [| apply Nat.ltb_ge in Ek; lia].
      rewrite nth_error_skipn in Hk. exists (S i - n + k)%nat. split; [lia |].
      unfold flat_rows, max_rolling_range in Hk. rewrite !nth_error_map_some, nth_error_tails in Hk.
      destruct (S i - n + k <? length (vals s))%nat; [| discriminate]. injection Hk as Hk. apply window_flat; assumption.
    + intros (j & Hj & Hf). exists true. split; [| reflexivity]. apply nth_error_In with (j - (S i - n))%nat.
      rewrite nth_error_firstn. destruct (j - (S i - n) <? n)%nat eqn:Ek; [| apply Nat.ltb_ge in Ek; lia].
      rewrite nth_error_skipn. replace (S i - n + (j - (S i - n)))%nat with j by lia.
      unfold flat_rows, max_rolling_range. rewrite !nth_error_map_some, nth_error_tails.
      assert (i < length s)%nat by (apply nth_error_Some; congruence).
      assert (j <? length (vals s) = true)%nat as -> by (apply Nat.ltb_lt; unfold vals; rewrite map_length; lia).
      f_equal. apply window_flat; assumption.
Qed.
