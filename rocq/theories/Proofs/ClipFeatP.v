(** Proofs about the numbers shown to the classifier of the clipping filter. *)

From Coq Require Import QArith Qcanon List ZArith Bool Arith Lia Lqa Sorted.
From Verif.Base Require Import QcExtra ISort Quantile Fl TimeSeries Calendar Rolling.
From Verif.Spec Require Import Stats Energy Normalization Clipping ClipFeatures.
From Verif.Model Require Import Utilities Interpolation Normalization Clipping ClipFeatures.
From Verif.Proofs Require Import StatsP NormP NormP4 ClipP ClipP2 ClipP4.
Import ListNotations.
Open Scope Qc_scope.

(** ** Columns as functions of the row number *)

Definition good (c : nat -> bool) (g : nat -> Qc) (l : list fl) : Prop :=
  forall i, nth i l NaN = if c i then Fin (g i) else NaN.

Definition has (l : list fl) (i : nat) : bool := isfin (nth i l NaN).
Definition num (l : list fl) (i : nat) : Qc := match nth i l NaN with Fin q => q | _ => 0 end.

Lemma noinf_nth : forall l i, noinf l -> nth i l NaN = NaN \/ exists q, nth i l NaN = Fin q.
Proof.
  intros l i H. destruct (Nat.ltb_spec i (length l)) as [L | L].
  - destruct (H (nth i l NaN) (nth_In l NaN L)). destruct (nth i l NaN); eauto; congruence.
  - left. apply nth_overflow. exact L.
Qed.

Lemma good_noinf : forall l, noinf l -> good (has l) (num l) l.
Proof. intros l H i. unfold has, num. destruct (noinf_nth l i H) as [-> | [q ->]]; reflexivity. Qed.

Lemma good_is_noinf : forall c g l, good c g l -> noinf l.
Proof.
  intros c g l H x Hx. apply In_nth with (d := NaN) in Hx. destruct Hx as (i & _ & <-). rewrite (H i). destruct (c i); split; discriminate.
Qed.

Lemma good_in : forall c g l i, good c g l -> c i = true -> (i < length l)%nat.
Proof.
  intros c g l i H E. destruct (Nat.ltb_spec i (length l)) as [L | L]; [exact L |].
  pose proof (H i) as K. rewrite (nth_overflow l NaN L), E in K. discriminate.
Qed.

Lemma good_ext : forall c c' g g' l, good c g l -> (forall i, c i = c' i) -> (forall i, c i = true -> g i = g' i) -> good c' g' l.
Proof.
  intros c c' g g' l H E1 E2 i. rewrite (H i), <- E1. destruct (c i) eqn:E; [rewrite E2 by exact E |]; reflexivity.
Qed.

Lemma skipn_nth : forall A (d : A) l a, (a < length l)%nat -> skipn a l = nth a l d :: skipn (S a) l.
Proof.
  induction l as [| x l IH]; intros [| a] L; cbn in L; try lia; [reflexivity |]. cbn [skipn nth]. rewrite (IH a) by lia. reflexivity.
Qed.

Lemma good_window : forall c g l n a, good c g l ->
  (length (firstn n (skipn a l)) =? n)%nat && forallb notnan (firstn n (skipn a l)) = forallb c (seq a n) /\
  (forallb c (seq a n) = true -> firstn n (skipn a l) = map Fin (map g (seq a n))).
Proof.
  intros c g l n. induction n as [| n IH]; intros a H; [split; reflexivity |].
  destruct (Nat.ltb_spec a (length l)) as [L | L].
  - rewrite (skipn_nth _ NaN l a L). cbn [firstn length Nat.eqb forallb seq map]. destruct (IH (S a) H) as [E1 E2].
    rewrite (H a). destruct (c a) eqn:Ea; cbn [notnan isnan negb andb].
    + split; [exact E1 |]. intros K. rewrite E2 by exact K. reflexivity.
    + split; [apply andb_false_r | discriminate].
  - rewrite skipn_all2 by exact L. assert (c a = false) as Ea.
    { destruct (c a) eqn:Ea; [| reflexivity]. pose proof (good_in c g l a H Ea). lia. }
    cbn [firstn length Nat.eqb forallb seq map andb]. rewrite Ea. split; [reflexivity | discriminate].
Qed.

Lemma nth_map_seq : forall (g : nat -> fl) m i, nth i (map g (seq 0 m)) NaN = if (i <? m)%nat then g i else NaN.
Proof.
  intros g m i. destruct (Nat.ltb_spec i m) as [L | L].
  - rewrite nth_indep with (d' := g 0%nat) by (rewrite map_length, seq_length; exact L). rewrite map_nth, seq_nth by exact L. reflexivity.
  - apply nth_overflow. rewrite map_length, seq_length. exact L.
Qed.

Lemma good_rolling : forall c g l n h f F, good c g l -> n = S (h + (n - 1) / 2) ->
  (forall w, w <> [] -> f (map Fin w) = Fin (F w)) ->
  good (fun i => (h <=? i)%nat && forallb c (seq (i - h) n)) (fun i => F (map g (seq (i - h) n))) (rolling_center n f l).
Proof.
  intros c g l n h f F H Hn HF i. unfold rolling_center. rewrite nth_map_seq. set (o := ((n - 1) / 2)%nat) in *. clearbody o.
  replace (S (i + o) - n)%nat with (i - h)%nat by lia.
  assert ((n <=? S (i + o))%nat = (h <=? i)%nat) as -> by (apply eq_true_iff_eq; rewrite !Nat.leb_le; lia).
  rewrite (noninf_id _ (noinf_firstn_skipn n (i - h) l (good_is_noinf _ _ _ H))).
  destruct (good_window c g l n (i - h) H) as [E1 E2]. rewrite <- andb_assoc, E1.
  destruct (h <=? i)%nat eqn:Eh; cbn [andb]; [| destruct (i <? length l)%nat; reflexivity].
  destruct (forallb c (seq (i - h) n)) eqn:Ec; [| destruct (i <? length l)%nat; reflexivity].
  apply Nat.leb_le in Eh. assert (i < length l)%nat as L.
  { apply (good_in c g l i H). rewrite forallb_forall in Ec. apply Ec, in_seq. lia. }
  apply Nat.ltb_lt in L. rewrite L, E2 by reflexivity. apply HF. rewrite Hn. discriminate.
Qed.

Lemma nth_combine : forall (f : fl -> fl -> fl) a b i, (length a <= length b)%nat ->
  nth i (map (fun p => f (fst p) (snd p)) (combine a b)) NaN = if (i <? length a)%nat then f (nth i a NaN) (nth i b NaN) else NaN.
Proof.
  intros f a. induction a as [| x a IH]; intros [| y b] i L; cbn in L; try lia; [destruct i; reflexivity | destruct i; reflexivity |].
  destruct i as [| i]; [reflexivity |]. cbn [combine map nth length]. rewrite IH by lia. reflexivity.
Qed.

Lemma good_diff : forall c g l, good c g l ->
  good (fun i => match i with O => false | S j => c i && c j end) (fun i => g i - g (i - 1)%nat) (diff l).
Proof.
  intros c g l H i. unfold diff. rewrite (nth_combine fsub) by (cbn; lia).
  destruct i as [| i].
  - cbn [nth]. destruct (0 <? length l)%nat; [destruct (nth 0 l NaN); reflexivity | reflexivity].
  - change (nth (S i) (NaN :: l) NaN) with (nth i l NaN). rewrite !H. replace (S i - 1)%nat with i by lia.
    destruct (c (S i)) eqn:E.
    + pose proof (good_in _ _ _ _ H E) as L. apply Nat.ltb_lt in L. rewrite L. destruct (c i); reflexivity.
    + destruct (S i <? length l)%nat; reflexivity.
Qed.

Lemma good_shift : forall c g l, good c g l -> good (fun i => c (S i)) (fun i => g (S i)) (shift_back l).
Proof.
  intros c g l H i. rewrite <- (H (S i)). destruct l as [| x l]; [destruct i; reflexivity |]. cbn [shift_back nth].
  destruct (Nat.ltb_spec i (length l)) as [L | L]; [apply app_nth1; exact L |].
  rewrite app_nth2 by exact L. rewrite (nth_overflow l NaN L). destruct (i - length l)%nat as [| [| ?]]; reflexivity.
Qed.

Lemma good_div : forall c g c' g' a b k, good c g a -> good c' g' b -> length a = length b -> (forall i, c' i = true -> g' i + k <> 0) ->
  good (fun i => c i && c' i) (fun i => g i / (g' i + k)) (map (fun p => fdiv (fst p) (fadd (snd p) (Fin k))) (combine a b)).
Proof.
  intros c g c' g' a b k H H' L K i. rewrite (nth_combine (fun x y => fdiv x (fadd y (Fin k)))) by lia. rewrite H, H'.
  destruct (i <? length a)%nat eqn:E.
  - destruct (c i); cbn [andb]; destruct (c' i) eqn:E'; try reflexivity. cbn [fadd]. unfold fdiv.
    assert (qeq (g' i + k) 0 = false) as -> by (apply qeq_false, K, E'). reflexivity.
  - destruct (c i) eqn:Ec; [| reflexivity]. pose proof (good_in _ _ _ _ H Ec). apply Nat.ltb_ge in E. lia.
Qed.

(** ** Statistics of full windows *)

Definition least (w : list Qc) : Qc := match fminimum (map Fin w) with Fin q => q | _ => 0 end.
Definition most (w : list Qc) : Qc := match fmaximum (map Fin w) with Fin q => q | _ => 0 end.

Lemma noinf_Fin : forall w, noinf (map Fin w).
Proof. intros w x Hx. apply in_map_iff in Hx. destruct Hx as (q & <- & _). split; discriminate. Qed.

Lemma least_spec : forall w, w <> [] -> fminimum (map Fin w) = Fin (least w) /\ is_min w (least w).
Proof.
  intros w Hw. unfold least. destruct (fminimum_spec _ (noinf_Fin w)) as [[E _] | (q & Hq & ->)]; rewrite finvals_map_Fin in *; [congruence |]. split; [reflexivity | exact Hq].
Qed.
Lemma most_spec : forall w, w <> [] -> fmaximum (map Fin w) = Fin (most w) /\ is_max w (most w).
Proof.
  intros w Hw. unfold most. destruct (fmaximum_spec _ (noinf_Fin w)) as [[E _] | (q & Hq & ->)]; rewrite finvals_map_Fin in *; [congruence |]. split; [reflexivity | exact Hq].
Qed.
Lemma mean_full : forall w, w <> [] -> fmean (map Fin w) = Fin (average w).
Proof.
  intros w Hw. rewrite (fmean_noinf _ (noinf_Fin w)) by (rewrite finvals_map_Fin; exact Hw). rewrite finvals_map_Fin. reflexivity.
Qed.
Lemma median_full : forall w, w <> [] -> fmedian (map Fin w) = Fin (qmedian w).
Proof.
  intros w Hw. rewrite (fmedian_noinf _ (noinf_Fin w)) by (rewrite finvals_map_Fin; exact Hw). rewrite finvals_map_Fin. reflexivity.
Qed.
Lemma variance_full : forall w, variance (map Fin w) = Fin (spread w).
Proof. intros w. unfold variance, spread, average. rewrite finvals_map_Fin. reflexivity. Qed.

Lemma good_range : forall c g l n T, good c g l -> (1 <= n)%nat -> length T = length l -> (forall i, c i = true -> 0 <= g i) ->
  good (fun i => forallb c (seq i n) && qlt 0 (most (map g (seq i n))))
       (fun i => qz 200 * (most (map g (seq i n)) - least (map g (seq i n))) / (most (map g (seq i n)) + least (map g (seq i n))))
       (max_rolling_range n (combine T l)).
Proof.
  intros c g l n T H Hn LT HP i. unfold max_rolling_range.
  assert (vals (combine T l) = l) as ->.
  { clear -LT. revert T LT. induction l as [| x l IH]; intros [| t T] E; try discriminate; [reflexivity |]. cbn. f_equal. apply IH. cbn in E. lia. }
  assert (nth i (map (window_range n) (tails l)) NaN = window_range n (skipn i l)) as ->.
  { pose proof (nth_error_tails _ l i) as E. destruct (Nat.ltb_spec i (length l)) as [L | L].
    - rewrite nth_indep with (d' := window_range n []).
      2: { rewrite map_length. apply nth_error_Some. rewrite E. discriminate. }
      rewrite map_nth. rewrite (nth_error_nth _ _ _ E). reflexivity.
    - rewrite nth_overflow by (rewrite map_length; apply nth_error_None, E). rewrite skipn_all2 by exact L. unfold window_range.
      destruct n; [lia | reflexivity]. }
  unfold window_range. rewrite (noninf_id _ (noinf_firstn_skipn n i l (good_is_noinf _ _ _ H))).
  destruct (good_window c g l n i H) as [E1 E2]. rewrite E1. destruct (forallb c (seq i n)) eqn:Ec; [| reflexivity]. cbn [andb].
  rewrite E2 by reflexivity. assert (map g (seq i n) <> []) as Hw by (destruct n; [lia | discriminate]).
  assert (forall x, In x (map g (seq i n)) -> 0 <= x) as Hp.
  { intros x Hx. apply in_map_iff in Hx. destruct Hx as (j & <- & Hj). apply HP. rewrite forallb_forall in Ec. apply Ec, Hj. }
  set (w := map g (seq i n)) in *. clearbody w. destruct (least_spec w Hw) as [-> Hlo]. destruct (most_spec w Hw) as [-> Hhi].
  set (lo := least w) in *. set (hi := most w) in *. clearbody lo hi. assert (0 <= lo) as Plo by apply Hp, Hlo. assert (lo <= hi) as LH by apply Hhi, Hlo.
  unfold fz. cbn [fsub fneg fadd]. unfold fdiv at 2. assert (qeq (qz 2) 0 = false) as -> by reflexivity. unfold fdiv.
  destruct (qlt 0 hi) eqn:Eh.
  - apply qlt_spec in Eh. assert (hi + lo <> 0) as N by (intros K; apply (Qclt_not_le _ _ Eh); qlra).
    assert (qeq ((hi + lo) / qz 2) 0 = false) as ->.
    { apply qeq_false. intros K. apply N. replace (hi + lo) with ((hi + lo) / qz 2 * qz 2) by (field; discriminate). rewrite K. ring. }
    cbn [fmul]. f_equal. change (qz 200) with (qz 2 * qz 100). field. split; [exact N | discriminate].
  - apply qlt_false in Eh. assert (hi = 0) as -> by (apply Qcle_antisym; [exact Eh |]; apply Qcle_trans with lo; assumption).
    assert (lo = 0) as -> by (apply Qcle_antisym; assumption). reflexivity.
Qed.
