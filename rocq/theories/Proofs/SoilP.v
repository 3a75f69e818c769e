(** Filling of gaps, edges of outages, run numbers. *)

From Coq Require Import QArith Qcanon List ZArith Bool Arith Lia Sorted String.
From Verif.Base Require Import QcExtra ISort Quantile Fl TimeSeries Calendar Rolling Segments.
From Verif.Spec Require Import Stats Filters Soiling.
From Verif.Model Require Import Soiling.
From Verif.Proofs Require Import StatsP FlP.
Import ListNotations.
Open Scope list_scope.
Open Scope Qc_scope.

(** ** ffill and bfill *)

Lemma ffill_length : forall k l last age, List.length (ffill_from k last age l) = List.length l.
Proof. induction l as [| x l IH]; intros last age; [reflexivity |]. cbn. destruct (isnan x); cbn; rewrite IH; reflexivity. Qed.

Lemma ffill_nth : forall k l last age i, (i < List.length l)%nat ->
  (exists j, (j <= i)%nat /\ at_row l j <> NaN /\ (forall m, (j < m <= i)%nat -> at_row l m = NaN) /\
     at_row (ffill_from k last age l) i = if (i - j <=? k)%nat then at_row l j else NaN) \/
  ((forall m, (m <= i)%nat -> at_row l m = NaN) /\ at_row (ffill_from k last age l) i = if (age + i <? k)%nat then last else NaN).
Proof.
  unfold at_row. induction l as [| x l IH]; intros last age i Hi; [cbn in Hi; lia |]. cbn [ffill_from]. destruct (isnan x) eqn:Ex.
  - assert (x = NaN) as -> by (destruct x; try discriminate; reflexivity). destruct i as [| i].
    + right. split; [intros m Hm; assert (m = 0)%nat as -> by lia; reflexivity |]. cbn. rewrite Nat.add_0_r. reflexivity.
    + cbn [List.length] in Hi. destruct (IH last (S age) i ltac:(lia)) as [(j & Hj & V & M & E) | [M E]].
      * left. exists (S j). split; [lia |]. split; [exact V |]. split; [intros m Hm; destruct m as [| m]; [lia |]; apply M; lia |]. exact E.
      * right. split; [intros m Hm; destruct m as [| m]; [reflexivity |]; apply M; lia |]. cbn [nth]. rewrite E. replace (S age + i)%nat with (age + S i)%nat by lia. reflexivity.
  - assert (x <> NaN) as Nx by (destruct x; discriminate). destruct i as [| i].
    + left. exists 0%nat. split; [lia |]. split; [exact Nx |]. split; [intros; lia | reflexivity].
    + cbn [List.length] in Hi. destruct (IH x 0%nat i ltac:(lia)) as [(j & Hj & V & M & E) | [M E]]; left.
      * exists (S j). split; [lia |]. split; [exact V |]. split; [intros m Hm; destruct m as [| m]; [lia |]; apply M; lia |]. exact E.
      * exists 0%nat. split; [lia |]. split; [exact Nx |]. split; [intros m Hm; destruct m as [| m]; [lia |]; apply M; lia |]. cbn [nth]. rewrite E.
        replace (S i - 0)%nat with (S i) by lia. cbn [plus]. destruct (Nat.ltb_spec i k), (Nat.leb_spec (S i) k); try lia; reflexivity.
Qed.

Lemma ffill_missing : forall k l i, (i < List.length l)%nat ->
  (at_row (ffill_limit k l) i = NaN <-> forall j, (j <= i <= j + k)%nat -> at_row l j = NaN).
Proof.
  intros k l i Hi. destruct (ffill_nth k l NaN 0 i Hi) as [(j & Hj & V & M & E) | [M E]]; unfold ffill_limit; rewrite E.
  - destruct (Nat.leb_spec (i - j) k) as [L | L].
    + split; [contradiction | intros H; apply H; lia].
    + split; [| reflexivity]. intros _ m Hm. apply M. lia.
  - split; [intros _ m Hm; apply M; lia |]. intros _. destruct (0 + i <? k)%nat; reflexivity.
Qed.

Lemma at_rev : forall l i, (i < List.length l)%nat -> at_row (rev l) i = at_row l (List.length l - 1 - i).
Proof. intros l i Hi. unfold at_row. rewrite rev_nth by exact Hi. f_equal. lia. Qed.

Lemma bfill_missing : forall k l i, (i < List.length l)%nat ->
  (at_row (bfill_limit k l) i = NaN <-> forall j, (i <= j <= i + k)%nat -> at_row l j = NaN).
Proof.
  intros k l i Hi. unfold bfill_limit. rewrite at_rev; unfold ffill_limit; rewrite ffill_length, rev_length; [| exact Hi].
  fold (ffill_limit k (rev l)). rewrite ffill_missing by (rewrite rev_length; lia). split; intros H j Hj.
  - destruct (Nat.lt_ge_cases j (List.length l)) as [L | L]; [| unfold at_row; apply nth_overflow; exact L].
    specialize (H (List.length l - 1 - j)%nat ltac:(lia)). rewrite at_rev in H by lia. replace (List.length l - 1 - (List.length l - 1 - j))%nat with j in H by lia. exact H.
  - rewrite at_rev by lia. apply H. lia.
Qed.

(** ** The valid part *)

Lemma drop_missing_spec : forall s, exists pre, s = pre ++ drop_missing s /\ (forall r, In r pre -> snd r = NaN) /\
  (drop_missing s = [] \/ exists t v p, drop_missing s = (t, v) :: p /\ v <> NaN).
Proof.
  induction s as [| [t v] s IH]; [exists []; repeat split; [intros r [] | left; reflexivity] |]. cbn [drop_missing snd]. destruct (isnan v) eqn:E.
  - destruct IH as (pre & E' & M & D). exists ((t, v) :: pre). split; [cbn; f_equal; exact E' |]. split; [| exact D].
    intros r [<- | H]; [destruct v; try discriminate; reflexivity | apply M; exact H].
  - exists []. split; [reflexivity |]. split; [intros r [] |]. right. exists t, v, s. split; [reflexivity | destruct v; discriminate].
Qed.

Lemma valid_part_spec : forall s, (forall r, In r s -> snd r = NaN) /\ valid_part s = [] \/ valid_span s (valid_part s).
Proof.
  intros s. unfold valid_part. destruct (drop_missing_spec s) as (pre & E & M & D). destruct D as [D | (t & v & p & D & V)].
  - left. rewrite D in *. split; [rewrite E, app_nil_r; exact M | reflexivity].
  - right. set (q := drop_missing s) in *. destruct (drop_missing_spec (rev q)) as (post & E' & M' & D').
    assert (q = rev (drop_missing (rev q)) ++ rev post) as Eq by (rewrite <- rev_app_distr, <- E', rev_involutive; reflexivity).
    destruct D' as [D' | (t' & v' & p' & D' & V')].
    + exfalso. rewrite D' in Eq. cbn in Eq. apply V. apply (M' (t, v)). apply in_rev. rewrite <- Eq, D. left. reflexivity.
    + exists pre, (rev post). split; [rewrite <- Eq; exact E |]. split; [intros r Hr; apply in_app_or in Hr; destruct Hr as [Hr | Hr]; [apply M; exact Hr | apply M'; apply in_rev; exact Hr] |].
      split.
      * rewrite D' in *. cbn [rev] in *. destruct (rev p') as [| [t1 v1] p1] eqn:Ep.
        -- cbn in Eq |- *. exists t', v', []. split; [reflexivity | exact V'].
        -- cbn in Eq |- *. rewrite D in Eq. injection Eq as <- <- _. exists t, v, (p1 ++ [(t', v')]). split; [reflexivity | exact V].
      * exists t', v', (rev p'). rewrite D'. split; [reflexivity | exact V'].
Qed.

Lemma valid_span_unique : forall s p q, valid_span s p -> valid_span s q -> p = q.
Proof.
  assert (forall (pre pre' rest rest' : series), pre ++ rest = pre' ++ rest' -> (forall r, In r pre -> snd r = NaN) -> (forall r, In r pre' -> snd r = NaN) ->
    (exists t v p', rest = (t, v) :: p' /\ v <> NaN) -> (exists t v p', rest' = (t, v) :: p' /\ v <> NaN) -> rest = rest') as K.
  { induction pre as [| r pre IH]; intros pre' rest rest' E M M' H H'.
    - destruct pre' as [| r' pre']; [exact E |]. destruct H as (t & v & p & -> & V). cbn in E. injection E as E _. subst r'. contradiction V. apply (M' (t, v)). left. reflexivity.
    - destruct pre' as [| r' pre'].
      + destruct H' as (t & v & p & -> & V). cbn in E. injection E as E _. subst r. contradiction V. apply (M (t, v)). left. reflexivity.
      + cbn in E. injection E as _ E. apply (IH pre' rest rest' E); [intros; apply M; right; assumption | intros; apply M'; right; assumption | exact H | exact H']. }
  intros s p q (pre & post & E & M & F & L) (pre' & post' & E' & M' & F' & L').
  assert (p ++ post = q ++ post') as E1.
  { apply (K pre pre'); [congruence | intros; apply M; apply in_or_app; left; assumption | intros; apply M'; apply in_or_app; left; assumption | |].
    - destruct F as (t & v & p' & -> & V). exists t, v, (p' ++ post). split; [reflexivity | exact V].
    - destruct F' as (t & v & p' & -> & V). exists t, v, (p' ++ post'). split; [reflexivity | exact V]. }
  assert (rev p = rev q) as R; [| rewrite <- (rev_involutive p), R, rev_involutive; reflexivity].
  apply (K (rev post) (rev post')).
  - rewrite <- !rev_app_distr. f_equal. exact E1.
  - intros r Hr. apply M. apply in_or_app. right. apply in_rev. exact Hr.
  - intros r Hr. apply M'. apply in_or_app. right. apply in_rev. exact Hr.
  - destruct L as (t & v & p' & -> & V). exists t, v, (rev p'). rewrite rev_app_distr. split; [reflexivity | exact V].
  - destruct L' as (t & v & p' & -> & V). exists t, v, (rev p'). rewrite rev_app_distr. split; [reflexivity | exact V].
Qed.

(** ** Frequency *)

Lemma daily_from_spec : forall l t, daily_from t l = true <-> forall i a b, nth_error (t :: l) i = Some a -> nth_error (t :: l) (S i) = Some b -> b = (a + ns_day)%Z.
Proof.
  induction l as [| u l IH]; intros t; cbn [daily_from].
  - split; [| reflexivity]. intros _ i a b _ H. destruct i; discriminate.
  - rewrite andb_true_iff, Z.eqb_eq, IH. split.
    + intros [E H] i a b Ha Hb. destruct i as [| i]; [cbn in Ha, Hb; injection Ha as <-; injection Hb as <-; exact E |]. exact (H i a b Ha Hb).
    + intros H. split; [exact (H 0%nat t u eq_refl eq_refl) |]. intros i a b Ha Hb. exact (H (S i) a b Ha Hb).
Qed.
Lemma inferred_daily_spec : forall l, inferred_daily l = true <-> day_by_day l.
Proof.
  intros l. unfold inferred_daily, day_by_day. rewrite andb_true_iff, Nat.leb_le. destruct l as [| t l]; [cbn; split; [intros [H _]; lia | intros [H _]; lia] |]. rewrite daily_from_spec. reflexivity.
Qed.
Lemma srr_init_spec : forall pm insolation precip,
  let good := day_by_day (times pm) /\ day_by_day (times insolation) /\ match precip with None => True | Some p => day_by_day (times p) end in
  (srr_init pm insolation precip = Ok tt <-> good) /\ (srr_init pm insolation precip = Raise ValueError <-> ~ good).
Proof.
  intros pm insolation precip good. unfold srr_init.
  assert ((inferred_daily (times pm) && inferred_daily (times insolation) && match precip with None => true | Some p => inferred_daily (times p) end = true) <-> good) as K.
  { unfold good. rewrite !andb_true_iff, !inferred_daily_spec. destruct precip; [rewrite inferred_daily_spec |]; intuition. }
  match goal with |- context [if ?b then _ else _] => destruct b end.
  - assert good as G by (apply K; reflexivity). split; split; intros H; [exact G | reflexivity | discriminate | contradiction].
  - assert (~ good) as G by (intros C; apply K in C; discriminate). split; split; intros H; [discriminate | contradiction | exact G | reflexivity].
Qed.

(** ** Run numbers *)

Lemma count_length : forall l n, List.length (count_from n l) = List.length l.
Proof. induction l as [| b l IH]; intros n; [reflexivity |]. cbn. rewrite IH. reflexivity. Qed.
Lemma count_nth : forall l n i, (i < List.length l)%nat -> nth i (count_from n l) 0%Z = (n + Z.of_nat (count_true (firstn (S i) l)))%Z.
Proof.
  induction l as [| b l IH]; intros n i Hi; [cbn in Hi; lia |]. cbn [count_from]. destruct i as [| i].
  - cbn. unfold count_true. destruct b; cbn; lia.
  - cbn [nth]. rewrite IH by (cbn in Hi; lia). change (firstn (S (S i)) (b :: l)) with (b :: firstn (S i) l). unfold count_true. cbn [filter]. destruct b; cbn [List.length]; lia.
Qed.
