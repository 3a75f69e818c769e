(** Levels of the invalid intervals. *)

From Coq Require Import QArith Qcanon List ZArith Bool Arith Lia Sorted.
From Verif.Base Require Import QcExtra Fl TimeSeries.
From Verif.Spec Require Import Stats Filters Soiling.
From Verif.Model Require Import Soiling.
From Verif.Spec Require Import SoilingTable.
Import ListNotations.
Open Scope list_scope.
Open Scope Qc_scope.

Lemma prev_unique : forall b k j j', prev_true b k j -> prev_true b k j' -> j = j'.
Proof.
  intros b k j j' (L & E & H) (L' & E' & H'). destruct (Nat.lt_trichotomy j j') as [C | [C | C]]; [| exact C |].
  - rewrite (H j' ltac:(lia)) in E'. discriminate.
  - rewrite (H' j ltac:(lia)) in E. discriminate.
Qed.
Lemma next_unique : forall b k j j', next_true b k j -> next_true b k j' -> j = j'.
Proof.
  intros b k j j' (L & E & H) (L' & E' & H'). destruct (Nat.lt_trichotomy j j') as [C | [C | C]]; [| exact C |].
  - rewrite (H' j ltac:(lia)) in E. discriminate.
  - rewrite (H j' ltac:(lia)) in E'. discriminate.
Qed.
Lemma last_end_unique : forall b loss start k p p', last_end b loss start k p -> last_end b loss start k p' -> p = p'.
Proof.
  intros b loss start k p p' [(j & P & ->) | [N ->]] [(j' & P' & ->) | [N' ->]]; [rewrite (prev_unique b k j j' P P'); reflexivity | elim (N' j P) | elim (N j' P') | reflexivity].
Qed.
Lemma next_begin_unique : forall b start k p p', next_begin b start k p -> next_begin b start k p' -> p = p'.
Proof.
  intros b start k p p' [(j & P & ->) | [N ->]] [(j' & P' & ->) | [N' ->]]; [rewrite (next_unique b k j j' P P'); reflexivity | elim (N' j P) | elim (N j' P') | reflexivity].
Qed.

Theorem fill_between : forall u valid loss start, in_unit u -> fill_ok u valid loss start -> forall k p n, nth_error valid k = Some false ->
  last_end valid loss start k p -> next_begin valid start k n -> (p <= start k /\ start k <= n) \/ (n <= start k /\ start k <= p).
Proof.
  intros u valid loss start HU HF k p n Hk HP HN. destruct (HF k Hk) as (p' & n' & HP' & HN' & E). rewrite (last_end_unique _ _ _ _ _ _ HP HP'), (next_begin_unique _ _ _ _ _ HN HN'). rewrite E. destruct (HU (stretch valid k)) as [U0 U1]. set (w := u (stretch valid k)) in *. clearbody w.
  destruct (Qclt_le_dec n' p') as [C | C].
  - right. assert (0 <= (p' - n') * w) as A by (apply Qc_mul_nonneg; qlra). assert (0 <= (p' - n') * (1 - w)) as B by (apply Qc_mul_nonneg; qlra). replace ((p' - n') * (1 - w)) with (p' - n' - (p' - n') * w) in B by ring. replace ((n' - p') * w) with (- ((p' - n') * w)) by ring. split; qlra.
  - left. assert (0 <= (n' - p') * w) as A by (apply Qc_mul_nonneg; qlra). assert (0 <= (n' - p') * (1 - w)) as B by (apply Qc_mul_nonneg; qlra). replace ((n' - p') * (1 - w)) with (n' - p' - (n' - p') * w) in B by ring. split; qlra.
Qed.

Lemma invalid_prev : forall b k j, nth_error b k = Some false -> prev_true b (S k) j <-> prev_true b k j.
Proof.
  intros b k j Hk. split; intros (L & E & H).
  - assert (j <> k) by (intros ->; rewrite Hk in E; discriminate). repeat split; [lia | exact E |]. intros m Hm. apply H. lia.
  - repeat split; [lia | exact E |]. intros m Hm. destruct (Nat.eq_dec m k) as [-> |]; [exact Hk | apply H; lia].
Qed.
Lemma invalid_next : forall b k j, nth_error b (S k) = Some false -> next_true b k j <-> next_true b (S k) j.
Proof.
  intros b k j Hk. split; intros (L & E & H).
  - assert (j <> S k) by (intros ->; rewrite Hk in E; discriminate). repeat split; [lia | exact E |]. intros m Hm. apply H. lia.
  - repeat split; [lia | exact E |]. intros m Hm. destruct (Nat.eq_dec m (S k)) as [-> |]; [exact Hk | apply H; lia].
Qed.
Lemma stretch_next : forall b k, nth_error b k = Some false -> nth_error b (S k) = Some false -> stretch b (S k) = stretch b k.
Proof.
  intros b k Hk HS. unfold stretch. rewrite (seq_S (S k)), filter_app, app_length. cbn [plus]. assert (filter (fun m => negb (nth m b true) && ((m =? 0)%nat || nth (m - 1) b false)) [S k] = []) as ->; [| cbn [List.length]; f_equal; lia].
  cbn [filter]. replace (S k - 1)%nat with k by lia. rewrite (nth_error_nth b k false Hk), orb_false_r. cbn [Nat.eqb]. rewrite andb_false_r. reflexivity.
Qed.
Theorem fill_shared : forall u valid loss start, fill_ok u valid loss start -> forall k, nth_error valid k = Some false -> nth_error valid (S k) = Some false -> start (S k) = start k.
Proof.
  intros u valid loss start HF k Hk HS. destruct (HF k Hk) as (p & n & HP & HN & E). destruct (HF (S k) HS) as (p' & n' & HP' & HN' & E'). rewrite E, E', (stretch_next valid k Hk HS).
  assert (p' = p) as ->.
  { apply (last_end_unique valid loss start k); [| exact HP]. destruct HP' as [(j & P & ->) | [N ->]]; [left; exists j; split; [apply (invalid_prev valid k j Hk); exact P | reflexivity] | right; split; [intros j P; apply (N j); apply (invalid_prev valid k j Hk); exact P | reflexivity]]. }
  assert (n' = n) as ->; [| reflexivity].
  apply (next_begin_unique valid start k); [| exact HN]. destruct HN' as [(j & P & ->) | [N ->]]; [left; exists j; split; [apply (invalid_next valid k j HS); exact P | reflexivity] | right; split; [intros j P; apply (N j); apply (invalid_next valid k j HS); exact P | reflexivity]].
Qed.

(** Ascending and descending order. *)
Lemma zset_order : forall l, set_order l (zset l).
Proof.
  intros l. split; [| intros g; apply zset_In]. pose proof (zset_sorted l) as S. induction S as [| x r S IH F]; constructor; [| exact IH]. intros C. rewrite Forall_forall in F. specialize (F x C). lia.
Qed.
Lemma reverse_order : forall l, set_order l (rev (zset l)).
Proof. intros l. destruct (zset_order l) as [N H]. split; [apply NoDup_rev; exact N | intros g; rewrite <- in_rev; apply H]. Qed.
