(** Floating-point numbers as exact rationals plus special values, exceptions,
    and the pandas/numpy reductions rdtools applies to columns (no rdtools
    code).

    Simplification used everywhere: finite values are exact rationals (no
    rounding, no overflow) and there is a single zero, so x/0 is +inf for x>0
    and -inf for x<0. *)

From Coq Require Import QArith Qcanon Lqa Lia List ZArith Bool Permutation Arith.
From Verif.Base Require Import QcExtra ISort Quantile.
Import ListNotations.
Open Scope Qc_scope.

(** ** Exceptions as values *)

Inductive exn : Type :=
| ValueError | KeyError | TypeError | IndexError | AttributeError
| UnboundLocalError | ZeroDivisionError | NotImplementedError
| NoValidIntervalError | ConvergenceError | LinAlgError | PlainException | OverflowError | RuntimeError.

Inductive result (A : Type) : Type :=
| Ok : A -> result A
| Raise : exn -> result A.
Arguments Ok {A} _.
Arguments Raise {A} _.

Definition bind {A B} (x : result A) (f : A -> result B) : result B :=
  match x with Ok a => f a | Raise e => Raise e end.

Definition is_ok {A} (x : result A) : bool := match x with Ok _ => true | Raise _ => false end.

(** ** Floats *)

Inductive fl : Type := NaN | NInf | Fin (q : Qc) | PInf.

Definition fz (z : Z) : fl := Fin (qz z).
Definition ff (n : Z) (d : positive) : fl := Fin (qf n d).

Definition isnan (x : fl) : bool := match x with NaN => true | _ => false end.
Definition notnan (x : fl) : bool := negb (isnan x).
Definition isfin (x : fl) : bool := match x with Fin _ => true | _ => false end.

Definition fneg (x : fl) : fl :=
  match x with NaN => NaN | NInf => PInf | Fin q => Fin (- q) | PInf => NInf end.

Definition fadd (x y : fl) : fl :=
  match x, y with
  | Fin a, Fin b => Fin (a + b)
  | NaN, _ => NaN | _, NaN => NaN
  | PInf, NInf => NaN | NInf, PInf => NaN
  | PInf, _ => PInf | _, PInf => PInf
  | NInf, _ => NInf | _, NInf => NInf
  end.

Definition fsub (x y : fl) : fl := fadd x (fneg y).

(** Infinity with the sign of [q] (NaN for 0). *)
Definition inf_sgn (q : Qc) : fl :=
  if qlt 0 q then PInf else if qlt q 0 then NInf else NaN.

Definition fmul (x y : fl) : fl :=
  match x, y with
  | Fin a, Fin b => Fin (a * b)
  | NaN, _ => NaN | _, NaN => NaN
  | PInf, Fin b => inf_sgn b | Fin a, PInf => inf_sgn a
  | NInf, Fin b => inf_sgn (- b) | Fin a, NInf => inf_sgn (- a)
  | PInf, PInf => PInf | NInf, NInf => PInf
  | _, _ => NInf
  end.

(** numpy division: x/0 is a signed infinity, 0/0 and inf/inf are NaN. *)
Definition fdiv (x y : fl) : fl :=
  match x, y with
  | Fin a, Fin b => if qeq b 0 then inf_sgn a else Fin (a / b)
  | NaN, _ => NaN | _, NaN => NaN
  | Fin _, _ => Fin 0
  | PInf, Fin b => if qeq b 0 then PInf else inf_sgn b
  | NInf, Fin b => if qeq b 0 then NInf else inf_sgn (- b)
  | _, _ => NaN
  end.

Definition fabs (x : fl) : fl :=
  match x with NaN => NaN | NInf => PInf | PInf => PInf | Fin q => Fin (qabs q) end.

(** IEEE comparisons: false as soon as an operand is NaN. *)
Definition fle (x y : fl) : bool :=
  match x, y with
  | NaN, _ => false | _, NaN => false
  | NInf, _ => true | _, PInf => true
  | Fin a, Fin b => qle a b
  | _, _ => false
  end.

Definition flt (x y : fl) : bool :=
  match x, y with
  | NaN, _ => false | _, NaN => false
  | Fin a, Fin b => qlt a b
  | NInf, NInf => false | NInf, _ => true
  | PInf, PInf => false | _, PInf => true
  | _, _ => false
  end.

Definition fge (x y : fl) : bool := fle y x.
Definition fgt (x y : fl) : bool := flt y x.

Definition feq (x y : fl) : bool :=
  match x, y with
  | Fin a, Fin b => qeq a b | NInf, NInf => true | PInf, PInf => true | _, _ => false
  end.

(** Python equality [!=]: true when an operand is NaN. *)
Definition fne (x y : fl) : bool := negb (feq x y).

Definition fl_eq_dec (x y : fl) : {x = y} + {x <> y}.
Proof. decide equality. apply Qc_eq_dec. Defined.

(** ** Column reductions that skip NaN *)

Definition dropna (l : list fl) : list fl := filter notnan l.

(** Finite values of a column. *)
Fixpoint finvals (l : list fl) : list Qc :=
  match l with
  | [] => []
  | Fin q :: l' => q :: finvals l'
  | _ :: l' => finvals l'
  end.

Definition fsum (l : list fl) : fl := fold_right fadd (Fin 0) (dropna l).
Definition fcount (l : list fl) : nat := length (dropna l).
(** [Series.mean]: NaN when there is no non-NaN value. *)
Definition fmean (l : list fl) : fl :=
  fdiv (fsum l) (fz (Z.of_nat (fcount l))).

Definition fsort (l : list fl) : list fl := isort fle l.

(** [Series.quantile] / [np.nanquantile], linear interpolation as numpy's
    [_lerp] computes it; NaN when nothing is left. *)
Definition fquantile (q : Qc) (l : list fl) : fl :=
  let s := fsort (dropna l) in
  match s with
  | [] => NaN
  | _ =>
    let n := length s in
    let h := qz (Z.of_nat n - 1) * q in
    let i := qfloor h in
    let a := nth (Z.to_nat i) s NaN in
    let b := nth (Nat.min (S (Z.to_nat i)) (n - 1)) s NaN in
    fadd a (fmul (fsub b a) (Fin (h - qz i)))
  end.

(** [Series.median]: middle value or mean of the two middle values. *)
Definition fmedian (l : list fl) : fl :=
  let s := fsort (dropna l) in
  match s with
  | [] => NaN
  | _ =>
    let n := length s in
    if Nat.even n then fdiv (fadd (nth (n / 2 - 1) s NaN) (nth (n / 2) s NaN)) (fz 2)
    else nth (n / 2) s NaN
  end.

(** [np.percentile(l, p)] for one percentile rank: the rank is validated, a NaN
    in the data makes the result NaN. *)
Definition np_percentile (p : Qc) (l : list fl) : result fl :=
  if qle 0 p && qle p (qz 100) then
    Ok (if existsb isnan l then NaN else fquantile (p / qz 100) l)
  else Raise ValueError.

(** A time series: rows (timestamp in ns, value) in index order. *)
Definition series := list (Z * fl).
Definition times (s : series) : list Z := map fst s.
Definition vals (s : series) : list fl := map snd s.

(** Last element of a list satisfying a test. *)
Definition last_such {A} (f : A -> bool) (l : list A) : option A :=
  match rev (filter f l) with [] => None | x :: _ => Some x end.

(** ** Lemmas *)

Lemma isnan_spec : forall x, isnan x = true <-> x = NaN.
Proof. intros []; cbn; split; congruence. Qed.

Lemma isnan_false : forall x, isnan x = false <-> x <> NaN.
Proof. intros []; cbn; split; congruence. Qed.

Lemma dropna_In : forall x l, In x (dropna l) <-> In x l /\ x <> NaN.
Proof.
  intros x l. unfold dropna. rewrite filter_In. unfold notnan.
  rewrite negb_true_iff, isnan_false. reflexivity.
Qed.

Lemma dropna_map_Fin : forall l, dropna (map Fin l) = map Fin l.
Proof. induction l as [| x l IH]; cbn; [reflexivity |]. f_equal. exact IH. Qed.

Lemma finvals_map_Fin : forall l, finvals (map Fin l) = l.
Proof. induction l as [| x l IH]; cbn; [reflexivity |]. f_equal. exact IH. Qed.

Lemma finvals_app : forall l1 l2, finvals (l1 ++ l2) = finvals l1 ++ finvals l2.
Proof.
  induction l1 as [| x l1 IH]; intros l2; cbn; [reflexivity |].
  destruct x; cbn; rewrite IH; reflexivity.
Qed.

Lemma finvals_In : forall q l, In q (finvals l) <-> In (Fin q) l.
Proof.
  intros q. induction l as [| x l IH]; cbn; [reflexivity |].
  destruct x; cbn; rewrite IH; intuition (congruence || auto).
Qed.

Lemma finvals_perm : forall l1 l2, Permutation l1 l2 -> Permutation (finvals l1) (finvals l2).
Proof.
  intros l1 l2 H. induction H; cbn.
  - constructor.
  - destruct x; auto.
  - destruct x, y; auto using perm_swap, Permutation_refl.
  - etransitivity; eauto.
Qed.

(** No infinities: the non-NaN values are exactly the finite ones. *)
Definition noinf (l : list fl) : Prop := forall x, In x l -> x <> PInf /\ x <> NInf.

Lemma dropna_noinf : forall l, noinf l -> dropna l = map Fin (finvals l).
Proof.
  induction l as [| x l IH]; intros H; cbn; [reflexivity |].
  assert (noinf l) as Hl by (intros y Hy; apply H; right; exact Hy).
  destruct x; cbn; rewrite <- (IH Hl); try reflexivity;
    destruct (H _ (or_introl eq_refl)); congruence.
Qed.

Lemma fsort_map_Fin : forall l, fsort (map Fin l) = map Fin (qsort l).
Proof. intros l. unfold fsort, qsort. apply isort_map. reflexivity. Qed.

Lemma nth_map_Fin : forall s i, (i < length s)%nat ->
  nth i (map Fin s) NaN = Fin (nth i s 0).
Proof.
  intros s i H. rewrite (nth_indep _ NaN (Fin 0)); [apply map_nth |].
  rewrite map_length. exact H.
Qed.

Lemma fquantile_noinf : forall q l, noinf l -> finvals l <> [] -> 0 <= q -> q <= 1 ->
  fquantile q l = Fin (qquantile q (finvals l)).
Proof.
  intros q l Hl Hne H0 H1. unfold fquantile.
  rewrite (dropna_noinf l Hl), fsort_map_Fin.
  set (v := finvals l) in *.
  destruct (qq_pos q v Hne H0 H1) as [P1 P2].
  unfold qquantile. rewrite <- (qsort_length v) in P1, P2 |- *.
  assert (0 < length (qsort v))%nat as Hn.
  { rewrite qsort_length. destruct v; [congruence | cbn; lia]. }
  set (s := qsort v) in *. clearbody s. rewrite map_length.
  destruct (map Fin s) eqn:E; [destruct s; [cbn in Hn; lia | discriminate] |].
  rewrite <- E. clear E.
  pose proof (lo_ix_bound s _ P1 P2) as L. pose proof (hi_ix_bound s _ P1 P2) as U.
  rewrite lerp_at_eq. unfold hi_ix, lo_ix in *.
  rewrite !nth_map_Fin by assumption. cbn [fsub fneg fadd fmul]. f_equal.
Qed.

Lemma fmedian_noinf : forall l, noinf l -> finvals l <> [] ->
  fmedian l = Fin (qmedian (finvals l)).
Proof.
  intros l Hl Hne. unfold fmedian, qmedian.
  rewrite (dropna_noinf l Hl), fsort_map_Fin.
  set (v := finvals l) in *.
  assert (0 < length (qsort v))%nat as Hn.
  { rewrite qsort_length. destruct v; [congruence | cbn; lia]. }
  set (s := qsort v) in *. clearbody s. rewrite map_length.
  destruct (map Fin s) eqn:E; [destruct s; [cbn in Hn; lia | discriminate] |].
  rewrite <- E. clear E.
  assert (length s / 2 < length s)%nat by (apply Nat.div_lt; lia).
  rewrite !nth_map_Fin by lia.
  destruct (Nat.even (length s)); [| reflexivity].
  cbn [fadd fdiv fz].
  destruct (qeq (qz 2) 0) eqn:Q; [qb; discriminate |]. reflexivity.
Qed.

Lemma fquantile_empty : forall q l, dropna l = [] -> fquantile q l = NaN.
Proof. intros q l H. unfold fquantile. rewrite H. reflexivity. Qed.

Lemma fmedian_empty : forall l, dropna l = [] -> fmedian l = NaN.
Proof. intros l H. unfold fmedian. rewrite H. reflexivity. Qed.

Lemma fsum_noinf : forall l, noinf l -> fsum l = Fin (qsum (finvals l)).
Proof.
  intros l Hl. unfold fsum. rewrite (dropna_noinf l Hl).
  induction (finvals l) as [| x v IH]; cbn; [reflexivity |].
  rewrite IH. reflexivity.
Qed.

Lemma fcount_noinf : forall l, noinf l -> fcount l = length (finvals l).
Proof. intros l Hl. unfold fcount. rewrite (dropna_noinf l Hl). apply map_length. Qed.

Lemma fmean_noinf : forall l, noinf l -> finvals l <> [] ->
  fmean l = Fin (qsum (finvals l) / qlen (finvals l)).
Proof.
  intros l Hl Hne. unfold fmean. rewrite fsum_noinf, fcount_noinf by exact Hl.
  unfold fz, fdiv. destruct (qeq _ 0) eqn:E; [| reflexivity].
  qb. exfalso. apply (qz_neq0 (Z.of_nat (length (finvals l)))); [| exact E].
  destruct (finvals l); [congruence | cbn; lia].
Qed.

Lemma fle_total_nn : forall x y, x <> NaN -> y <> NaN -> fle x y = true \/ fle y x = true.
Proof. intros [] [] Hx Hy; cbn; try congruence; auto. apply qle_total. Qed.

Lemma fle_trans : forall x y z, fle x y = true -> fle y z = true -> fle x z = true.
Proof.
  intros [] [] [] H1 H2; cbn in *; try congruence; auto. eapply qle_trans; eauto.
Qed.

Lemma fle_antisym : forall x y, fle x y = true -> fle y x = true -> x = y.
Proof. intros [] [] H1 H2; cbn in *; try congruence. f_equal. apply qle_antisym; auto. Qed.

Lemma flt_le : forall x y, flt x y = true -> fle x y = true.
Proof. intros [] [] H; cbn in *; try congruence; auto. qb. qlra. Qed.

Lemma flt_nle : forall x y, x <> NaN -> y <> NaN -> flt x y = negb (fle y x).
Proof. intros [] [] Hx Hy; cbn; try congruence; reflexivity. Qed.

(** Closed goals between results of computations: [Qc] equality ignores the
    canonicity proofs. *)
Ltac qc_canon := apply Qc_is_canon; reflexivity.
Ltac fcompute :=
  vm_compute;
  repeat match goal with
  | |- ?a = ?a => reflexivity
  | |- @eq Qc _ _ => qc_canon
  | |- _ /\ _ => split
  | |- @eq _ _ _ => progress f_equal
  end.
