(** Insertion sort on an arbitrary boolean order (no rdtools code). *)

From Coq Require Import List Bool Permutation Sorted Lia Arith.
Import ListNotations.

Section Sort.
  Context {A : Type} (leb : A -> A -> bool).

  Fixpoint insert (x : A) (l : list A) : list A :=
    match l with
    | [] => [x]
    | y :: l' => if leb x y then x :: l else y :: insert x l'
    end.

  (** Stable: equal elements keep their input order. *)
  Definition isort (l : list A) : list A := fold_right insert [] l.

  Lemma insert_perm : forall x l, Permutation (x :: l) (insert x l).
  Proof.
    intros x. induction l as [| y l IH]; cbn [insert]; [reflexivity |].
    destruct (leb x y); [reflexivity |].
    rewrite perm_swap. apply perm_skip. exact IH.
  Qed.

  Lemma isort_perm : forall l, Permutation l (isort l).
  Proof.
    induction l as [| x l IH]; cbn; [reflexivity |].
    rewrite <- insert_perm. apply perm_skip. exact IH.
  Qed.

  Lemma isort_length : forall l, length (isort l) = length l.
  Proof. intros l. symmetry. apply Permutation_length, isort_perm. Qed.

  Lemma isort_In : forall x l, In x (isort l) <-> In x l.
  Proof.
    intros x l. split; apply Permutation_in;
      [symmetry |]; apply isort_perm.
  Qed.

  Lemma isort_nil_iff : forall l, isort l = [] <-> l = [].
  Proof.
    intros l. split; intro H; [| subst; reflexivity].
    apply length_zero_iff_nil. rewrite <- isort_length, H. reflexivity.
  Qed.

  Definition le' (x y : A) : Prop := leb x y = true.

  Hypothesis total : forall x y, leb x y = true \/ leb y x = true.
  Hypothesis trans : forall x y z, leb x y = true -> leb y z = true -> leb x z = true.

  Lemma insert_sorted : forall x l, StronglySorted le' l -> StronglySorted le' (insert x l).
  Proof.
    intros x. induction l as [| y l IH]; intros H; cbn [insert].
    - constructor; constructor.
    - apply StronglySorted_inv in H. destruct H as [Hl Hy].
      destruct (leb x y) eqn:E.
      + constructor; [constructor; assumption |].
        constructor; [exact E |].
        eapply Forall_impl; [| exact Hy]. intros z Hz. eapply trans; eauto.
      + constructor; [apply IH; exact Hl |].
        assert (leb y x = true) as E' by (destruct (total x y); congruence).
        rewrite Forall_forall in Hy |- *. intros z Hz.
        apply (Permutation_in z (Permutation_sym (insert_perm x l))) in Hz.
        destruct Hz as [<- | Hz]; [exact E' | apply Hy; exact Hz].
  Qed.

  Lemma isort_sorted : forall l, StronglySorted le' (isort l).
  Proof.
    induction l as [| x l IH]; cbn; [constructor |].
    apply insert_sorted. exact IH.
  Qed.

  Lemma sorted_perm_eq : forall l1 l2,
    (forall x y, In x l1 -> In y l1 -> leb x y = true -> leb y x = true -> x = y) ->
    StronglySorted le' l1 -> StronglySorted le' l2 -> Permutation l1 l2 -> l1 = l2.
  Proof.
    induction l1 as [| x l1 IH]; intros l2 Hanti H1 H2 HP.
    - apply Permutation_nil in HP. subst. reflexivity.
    - destruct l2 as [| y l2].
      { apply Permutation_sym, Permutation_nil in HP. discriminate. }
      apply StronglySorted_inv in H1. destruct H1 as [H1 Hx].
      apply StronglySorted_inv in H2. destruct H2 as [H2 Hy].
      rewrite Forall_forall in Hx, Hy.
      assert (x = y) as ->.
      { assert (In x (y :: l2)) as Ix by (eapply Permutation_in; [exact HP | left; reflexivity]).
        assert (In y (x :: l1)) as Iy
            by (eapply Permutation_in; [symmetry; exact HP | left; reflexivity]).
        destruct Ix as [Ex | Ix]; [symmetry; exact Ex |].
        destruct Iy as [Ey | Iy]; [exact Ey |].
        apply Hanti; [left; reflexivity | right; exact Iy | apply Hx; exact Iy | apply Hy; exact Ix]. }
      f_equal. apply IH; auto.
      + intros; apply Hanti; auto; right; assumption.
      + eapply Permutation_cons_inv. exact HP.
  Qed.

  Lemma isort_unique : forall l1 l2,
    (forall x y, In x l1 -> In y l1 -> leb x y = true -> leb y x = true -> x = y) ->
    Permutation l1 l2 -> isort l1 = isort l2.
  Proof.
    intros l1 l2 Hanti HP. apply sorted_perm_eq.
    - intros x y Hx Hy. apply Hanti; apply isort_In; assumption.
    - apply isort_sorted.
    - apply isort_sorted.
    - rewrite <- !isort_perm. exact HP.
  Qed.

  Lemma isort_fixed : forall l, StronglySorted le' l -> isort l = l.
  Proof.
    induction l as [| x l IH]; intros H; cbn; [reflexivity |].
    apply StronglySorted_inv in H. destruct H as [Hl Hx].
    fold (isort l). rewrite (IH Hl). destruct l as [| y l]; [reflexivity |].
    cbn [insert]. apply Forall_inv in Hx. red in Hx. rewrite Hx. reflexivity.
  Qed.
End Sort.

(** Sorting commutes with maps that preserve and reflect the order. *)
Lemma insert_map : forall A B (la : A -> A -> bool) (lb : B -> B -> bool) (f : A -> B),
  (forall x y, lb (f x) (f y) = la x y) ->
  forall x l, insert lb (f x) (map f l) = map f (insert la x l).
Proof.
  intros A B la lb f H x. induction l as [| y l IH]; cbn; [reflexivity |].
  rewrite H. destruct (la x y); cbn; [reflexivity |]. rewrite IH. reflexivity.
Qed.

Lemma isort_map : forall A B (la : A -> A -> bool) (lb : B -> B -> bool) (f : A -> B),
  (forall x y, lb (f x) (f y) = la x y) ->
  forall l, isort lb (map f l) = map f (isort la l).
Proof.
  intros A B la lb f H. induction l as [| x l IH]; [reflexivity |].
  change (insert lb (f x) (isort lb (map f l)) = map f (insert la x (isort la l))).
  rewrite IH. apply insert_map. exact H.
Qed.

Lemma StronglySorted_nth : forall A (R : A -> A -> Prop) l d i j,
  StronglySorted R l -> i < j -> j < length l -> R (nth i l d) (nth j l d).
Proof.
  intros A R. induction l as [| x l IH]; intros d i j H Hij Hj; cbn [length] in Hj; [lia |].
  apply StronglySorted_inv in H. destruct H as [Hl Hx].
  destruct j as [| j]; [lia |]. destruct i as [| i]; cbn [nth].
  - rewrite Forall_forall in Hx. apply Hx. apply nth_In. lia.
  - apply IH; [exact Hl | lia | lia].
Qed.

Lemma StronglySorted_app : forall A (R : A -> A -> Prop) l1 l2,
  StronglySorted R l1 -> StronglySorted R l2 ->
  (forall x y, In x l1 -> In y l2 -> R x y) -> StronglySorted R (l1 ++ l2).
Proof.
  intros A R. induction l1 as [| x l1 IH]; intros l2 H1 H2 H; cbn; [exact H2 |].
  apply StronglySorted_inv in H1. destruct H1 as [H1 Hx].
  constructor.
  - apply IH; auto. intros; apply H; auto. right; assumption.
  - apply Forall_app. split; [exact Hx |].
    apply Forall_forall. intros y Hy. apply H; [left; reflexivity | exact Hy].
Qed.

Lemma StronglySorted_filter : forall A (R : A -> A -> Prop) f l,
  StronglySorted R l -> StronglySorted R (filter f l).
Proof.
  intros A R f. induction l as [| x l IH]; intros H; cbn; [constructor |].
  apply StronglySorted_inv in H. destruct H as [Hl Hx].
  destruct (f x); [| apply IH; exact Hl].
  constructor; [apply IH; exact Hl |].
  rewrite Forall_forall in Hx |- *. intros y Hy. apply filter_In in Hy. apply Hx, Hy.
Qed.
