(** Exact rationals [Qc]: decision procedures, boolean comparisons, sums.

    This file contains no rdtools code.  [Qc] is the set of canonical
    fractions of the standard library, so equality is Leibniz equality and
    everything computes.  The tactics [qlra] and [qnra] decide (non)linear
    goals by moving every [Qc] term to [Q]. *)

From Coq Require Import QArith Qcanon Lqa Lia List ZArith Bool Qround.
Import ListNotations.

Open Scope Qc_scope.

(** Literals: [qz 5] is 5, [qf 3 4] is 3/4. *)
Definition qz (z : Z) : Qc := Q2Qc (inject_Z z).
Definition qf (n : Z) (d : positive) : Qc := Q2Qc (n # d).

Lemma this_add : forall a b : Qc, (this (a + b)%Qc == this a + this b)%Q.
Proof. intros a b. exact (Qred_correct _). Qed.

Lemma this_mul : forall a b : Qc, (this (a * b)%Qc == this a * this b)%Q.
Proof. intros a b. exact (Qred_correct _). Qed.

Lemma this_opp : forall a : Qc, (this (- a)%Qc == - this a)%Q.
Proof. intros a. exact (Qred_correct _). Qed.

Lemma this_sub : forall a b : Qc, (this (a - b)%Qc == this a - this b)%Q.
Proof.
  intros a b. unfold Qcminus. rewrite this_add, this_opp. reflexivity.
Qed.

Lemma this_inv : forall a : Qc, (this (/ a)%Qc == / this a)%Q.
Proof. intros a. exact (Qred_correct _). Qed.

Lemma this_lit : forall q : Q, (this (Q2Qc q) == q)%Q.
Proof. intros q. exact (Qred_correct _). Qed.

Lemma this_qz : forall z, (this (qz z) == inject_Z z)%Q.
Proof. intros z. exact (Qred_correct _). Qed.

Lemma this_qf : forall n d, (this (qf n d) == n # d)%Q.
Proof. intros n d. exact (Qred_correct _). Qed.

Lemma this_mul_lit_r : forall a q, (this (a * Q2Qc q)%Qc == this a * q)%Q.
Proof. intros a q. rewrite this_mul, this_lit. reflexivity. Qed.
Lemma this_mul_lit_l : forall a q, (this (Q2Qc q * a)%Qc == q * this a)%Q.
Proof. intros a q. rewrite this_mul, this_lit. reflexivity. Qed.
Lemma this_mul_qz_r : forall a z, (this (a * qz z)%Qc == this a * inject_Z z)%Q.
Proof. intros a q. rewrite this_mul, this_qz. reflexivity. Qed.
Lemma this_mul_qz_l : forall a z, (this (qz z * a)%Qc == inject_Z z * this a)%Q.
Proof. intros a q. rewrite this_mul, this_qz. reflexivity. Qed.
Lemma this_mul_qf_r : forall a n d, (this (a * qf n d)%Qc == this a * (n # d))%Q.
Proof. intros a n d. rewrite this_mul, this_qf. reflexivity. Qed.
Lemma this_mul_qf_l : forall a n d, (this (qf n d * a)%Qc == (n # d) * this a)%Q.
Proof. intros a n d. rewrite this_mul, this_qf. reflexivity. Qed.

Lemma Qc_eq_this : forall a b : Qc, (this a == this b)%Q -> a = b.
Proof. exact Qc_is_canon. Qed.

Lemma Qc_this_eq : forall a b : Qc, a = b -> (this a == this b)%Q.
Proof. intros a b ->. reflexivity. Qed.

Lemma Qc_neq_this : forall a b : Qc, a <> b -> ~ (this a == this b)%Q.
Proof. intros a b H E. apply H. apply Qc_is_canon. exact E. Qed.

Lemma Qclt_this : forall a b : Qc, (a < b)%Qc -> (this a < this b)%Q.
Proof. trivial. Qed.
Lemma Qcle_this : forall a b : Qc, (a <= b)%Qc -> (this a <= this b)%Q.
Proof. trivial. Qed.

(** Facts about every [Qc] operator occurring in the goal or hypotheses. *)
Ltac qc_pose_fact pf :=
  let P := type of pf in
  lazymatch goal with
  | _ : P |- _ => fail
  | _ => pose proof pf
  end.

Ltac qc_fact_in T :=
  match T with
  | context [this (?a + ?b)%Qc] => qc_pose_fact (this_add a b)
  | context [this (?a - ?b)%Qc] => qc_pose_fact (this_sub a b)
  | context [this (?a * Q2Qc ?q)%Qc] => qc_pose_fact (this_mul_lit_r a q)
  | context [this (Q2Qc ?q * ?a)%Qc] => qc_pose_fact (this_mul_lit_l a q)
  | context [this (?a * qz ?q)%Qc] => qc_pose_fact (this_mul_qz_r a q)
  | context [this (qz ?q * ?a)%Qc] => qc_pose_fact (this_mul_qz_l a q)
  | context [this (?a * qf ?n ?d)%Qc] => qc_pose_fact (this_mul_qf_r a n d)
  | context [this (qf ?n ?d * ?a)%Qc] => qc_pose_fact (this_mul_qf_l a n d)
  | context [this (?a * ?b)%Qc] => qc_pose_fact (this_mul a b)
  | context [this (- ?a)%Qc] => qc_pose_fact (this_opp a)
  | context [this (Q2Qc ?q)] => qc_pose_fact (this_lit q)
  | context [this (qz ?z)] => qc_pose_fact (this_qz z)
  | context [this (qf ?n ?d)] => qc_pose_fact (this_qf n d)
  end.

Ltac qc_facts :=
  repeat match goal with
  | |- ?G => qc_fact_in G
  | H : ?T |- _ => qc_fact_in T
  end.

(** Move hypotheses and goal from [Qc] to [Q]. *)
Ltac qc_hyps :=
  repeat match goal with
  | H : @eq Qc ?a ?b |- _ => apply Qc_this_eq in H
  | H : ~ (@eq Qc ?a ?b) |- _ => apply Qc_neq_this in H
  | H : (_ < _)%Qc |- _ => apply Qclt_this in H
  | H : (_ <= _)%Qc |- _ => apply Qcle_this in H
  | H : ~ (_ < _)%Qc |- _ => apply Qcnot_lt_le in H
  | H : ~ (_ <= _)%Qc |- _ => apply Qcnot_le_lt in H
  end.

Ltac qc_goal :=
  repeat match goal with
  | |- (_ < _)%Qc => unfold Qclt
  | |- (_ <= _)%Qc => unfold Qcle
  | |- @eq Qc _ _ => apply Qc_eq_this
  | |- ~ (@eq Qc _ _) => let H := fresh in intro H; apply Qc_this_eq in H
  | |- ~ (_ < _)%Qc => apply Qcle_not_lt
  | |- ~ (_ <= _)%Qc => apply Qclt_not_le
  end.

Ltac qc_norm := qc_goal; qc_hyps; qc_facts; unfold inject_Z in *.

Ltac qlra := qc_norm; lra.
Ltac qnra := qc_norm; nra.

(** ** Order facts *)

Lemma Qcle_refl' : forall a : Qc, a <= a.
Proof. intros a. qlra. Qed.

Lemma Qclt_irrefl : forall a : Qc, ~ a < a.
Proof. intros a. qlra. Qed.

Lemma Qc_le_lt_or_eq : forall a b : Qc, a <= b -> a < b \/ a = b.
Proof.
  intros a b H. destruct (Qc_eq_dec a b) as [E | E]; [right; exact E |].
  left. qc_norm. destruct (Qlt_le_dec (this a) (this b)) as [L | L]; [exact L |].
  exfalso. apply E. lra.
Qed.

Lemma Qclt_le_dec' : forall a b : Qc, {a < b} + {b <= a}.
Proof. intros a b. exact (Qlt_le_dec (this a) (this b)). Qed.

(** ** Boolean comparisons *)

Definition qle (a b : Qc) : bool := Qle_bool (this a) (this b).
Definition qlt (a b : Qc) : bool := negb (qle b a).
Definition qeq (a b : Qc) : bool := if Qc_eq_dec a b then true else false.

Lemma qle_spec : forall a b, qle a b = true <-> a <= b.
Proof. intros a b. unfold qle. apply Qle_bool_iff. Qed.

Lemma qle_false : forall a b, qle a b = false <-> b < a.
Proof.
  intros a b. split; intro H.
  - destruct (Qclt_le_dec' b a) as [L | L]; [exact L |].
    apply qle_spec in L. rewrite L in H. discriminate.
  - destruct (qle a b) eqn:E; [| reflexivity].
    apply qle_spec in E. exfalso. qlra.
Qed.

Lemma qlt_spec : forall a b, qlt a b = true <-> a < b.
Proof.
  intros a b. unfold qlt. rewrite negb_true_iff. apply qle_false.
Qed.

Lemma qlt_false : forall a b, qlt a b = false <-> b <= a.
Proof.
  intros a b. unfold qlt. rewrite negb_false_iff. apply qle_spec.
Qed.

Lemma qeq_spec : forall a b, qeq a b = true <-> a = b.
Proof.
  intros a b. unfold qeq. destruct (Qc_eq_dec a b); split; congruence.
Qed.

Lemma qeq_false : forall a b, qeq a b = false <-> a <> b.
Proof.
  intros a b. unfold qeq. destruct (Qc_eq_dec a b); split; congruence.
Qed.

(** Turn boolean comparison hypotheses and goals into propositions. *)
Ltac qb :=
  repeat match goal with
  | H : qle _ _ = true |- _ => apply qle_spec in H
  | H : qle _ _ = false |- _ => apply qle_false in H
  | H : qlt _ _ = true |- _ => apply qlt_spec in H
  | H : qlt _ _ = false |- _ => apply qlt_false in H
  | H : qeq _ _ = true |- _ => apply qeq_spec in H
  | H : qeq _ _ = false |- _ => apply qeq_false in H
  | |- qle _ _ = true => apply qle_spec
  | |- qle _ _ = false => apply qle_false
  | |- qlt _ _ = true => apply qlt_spec
  | |- qlt _ _ = false => apply qlt_false
  | |- qeq _ _ = true => apply qeq_spec
  | |- qeq _ _ = false => apply qeq_false
  end.

(** ** Absolute value, minimum, maximum *)

Definition qabs (a : Qc) : Qc := if qle 0 a then a else - a.
Definition qmin (a b : Qc) : Qc := if qle a b then a else b.
Definition qmax (a b : Qc) : Qc := if qle a b then b else a.
(** Sign of a rational as an integer. *)
Definition qsgn (a : Qc) : Z := if qlt 0 a then 1%Z else if qlt a 0 then (-1)%Z else 0%Z.

Ltac qcases :=
  unfold qabs, qmin, qmax in *;
  repeat match goal with
  | |- context [if qle ?a ?b then _ else _] => destruct (qle a b) eqn:?; qb
  | H : context [if qle ?a ?b then _ else _] |- _ => destruct (qle a b) eqn:?; qb
  | |- context [if qlt ?a ?b then _ else _] => destruct (qlt a b) eqn:?; qb
  | H : context [if qlt ?a ?b then _ else _] |- _ => destruct (qlt a b) eqn:?; qb
  end.

Lemma qabs_nonneg : forall a, 0 <= qabs a.
Proof. intros a. qcases; qlra. Qed.

Lemma qabs_le : forall a b, qabs a <= b <-> - b <= a /\ a <= b.
Proof. intros a b. split; [intro H; split | intros [H1 H2]]; qcases; qlra. Qed.

Lemma qabs_mul : forall a b, qabs (a * b) = qabs a * qabs b.
Proof. intros a b. qcases; qnra. Qed.

Lemma qabs_pos : forall a, 0 <= a -> qabs a = a.
Proof. intros a H. qcases; qlra. Qed.

(** ** Division *)

Lemma Qc_mul_inv_r : forall a : Qc, a <> 0 -> a * / a = 1.
Proof. intros a H. apply Qcmult_inv_r. exact H. Qed.

Lemma Qc_pos_neq : forall a : Qc, 0 < a -> a <> 0.
Proof. intros a H E. subst. revert H. apply Qclt_irrefl. Qed.

Lemma Qc_inv_pos : forall a : Qc, 0 < a -> 0 < / a.
Proof.
  intros a H. pose proof (Qc_mul_inv_r a (Qc_pos_neq a H)) as E.
  destruct (Qclt_le_dec' 0 (/ a)) as [L | L]; [exact L |]. exfalso. qnra.
Qed.

Lemma Qc_div_le : forall a b c : Qc, 0 < c -> a <= b * c -> a / c <= b.
Proof.
  intros a b c Hc H. unfold Qcdiv.
  pose proof (Qc_mul_inv_r c (Qc_pos_neq c Hc)) as E.
  pose proof (Qc_inv_pos c Hc) as P.
  assert (a * / c <= (b * c) * / c) as L by qnra.
  replace ((b * c) * / c) with (b * (c * / c)) in L by ring.
  rewrite E in L. qlra.
Qed.

Lemma Qc_le_div : forall a b c : Qc, 0 < c -> a * c <= b -> a <= b / c.
Proof.
  intros a b c Hc H. unfold Qcdiv.
  pose proof (Qc_mul_inv_r c (Qc_pos_neq c Hc)) as E.
  pose proof (Qc_inv_pos c Hc) as P.
  assert ((a * c) * / c <= b * / c) as L by qnra.
  replace ((a * c) * / c) with (a * (c * / c)) in L by ring.
  rewrite E in L. qlra.
Qed.

Lemma Qc_lt_div : forall a b c : Qc, 0 < c -> a * c < b -> a < b / c.
Proof.
  intros a b c Hc H. unfold Qcdiv.
  pose proof (Qc_mul_inv_r c (Qc_pos_neq c Hc)) as E.
  pose proof (Qc_inv_pos c Hc) as P.
  assert ((a * c) * / c < b * / c) as L by qnra.
  replace ((a * c) * / c) with (a * (c * / c)) in L by ring.
  rewrite E in L. qlra.
Qed.

Lemma Qc_div_lt : forall a b c : Qc, 0 < c -> a < b * c -> a / c < b.
Proof.
  intros a b c Hc H. unfold Qcdiv.
  pose proof (Qc_mul_inv_r c (Qc_pos_neq c Hc)) as E.
  pose proof (Qc_inv_pos c Hc) as P.
  assert (a * / c < (b * c) * / c) as L by qnra.
  replace ((b * c) * / c) with (b * (c * / c)) in L by ring.
  rewrite E in L. qlra.
Qed.

Lemma Qc_div_mul : forall a c : Qc, c <> 0 -> a / c * c = a.
Proof. intros a c H. field. exact H. Qed.

Lemma Qc_mul_pos : forall a b : Qc, 0 < a -> 0 < b -> 0 < a * b.
Proof. intros a b Ha Hb. qnra. Qed.

Lemma Qc_mul_nonneg : forall a b : Qc, 0 <= a -> 0 <= b -> 0 <= a * b.
Proof. intros a b Ha Hb. qnra. Qed.

Lemma Qc_div_nonneg : forall a b : Qc, 0 <= a -> 0 < b -> 0 <= a / b.
Proof. intros a b Ha Hb. apply Qc_le_div; [exact Hb |]. qlra. Qed.

Lemma Qc_mul_neq0 : forall a b : Qc, a <> 0 -> b <> 0 -> a * b <> 0.
Proof.
  intros a b Ha Hb E. destruct (Qcmult_integral a b E); contradiction.
Qed.

Lemma Qc_inv_neq0 : forall a : Qc, a <> 0 -> / a <> 0.
Proof.
  intros a Ha E. pose proof (Qc_mul_inv_r a Ha) as H. rewrite E in H.
  rewrite Qcmult_0_r in H. discriminate H.
Qed.

(** ** Integers inside the rationals *)

Lemma qz_add : forall a b, qz (a + b) = qz a + qz b.
Proof.
  intros a b. apply Qc_eq_this. rewrite this_add, !this_qz.
  rewrite inject_Z_plus. reflexivity.
Qed.

Lemma qz_sub : forall a b, qz (a - b) = qz a - qz b.
Proof.
  intros a b. apply Qc_eq_this. rewrite this_sub, !this_qz.
  unfold Z.sub. rewrite inject_Z_plus, inject_Z_opp. reflexivity.
Qed.

Lemma qz_mul : forall a b, qz (a * b) = qz a * qz b.
Proof.
  intros a b. apply Qc_eq_this. rewrite this_mul, !this_qz.
  rewrite inject_Z_mult. reflexivity.
Qed.

Lemma qz_opp : forall a, qz (- a) = - qz a.
Proof.
  intros a. apply Qc_eq_this. rewrite this_opp, !this_qz, inject_Z_opp. reflexivity.
Qed.

Lemma qz_le : forall a b, (a <= b)%Z <-> qz a <= qz b.
Proof.
  intros a b. unfold Qcle. rewrite !this_qz. rewrite <- Zle_Qle. reflexivity.
Qed.

Lemma qz_lt : forall a b, (a < b)%Z <-> qz a < qz b.
Proof.
  intros a b. unfold Qclt. rewrite !this_qz. rewrite <- Zlt_Qlt. reflexivity.
Qed.

Lemma qz_le_i : forall a b, (a <= b)%Z -> qz a <= qz b.
Proof. intros a b. apply (proj1 (qz_le a b)). Qed.
Lemma qz_le_e : forall a b, qz a <= qz b -> (a <= b)%Z.
Proof. intros a b. apply (proj2 (qz_le a b)). Qed.
Lemma qz_lt_i : forall a b, (a < b)%Z -> qz a < qz b.
Proof. intros a b. apply (proj1 (qz_lt a b)). Qed.
Lemma qz_lt_e : forall a b, qz a < qz b -> (a < b)%Z.
Proof. intros a b. apply (proj2 (qz_lt a b)). Qed.
Lemma qz_nonneg : forall z, (0 <= z)%Z -> 0 <= qz z.
Proof. intros z H. exact (qz_le_i 0 z H). Qed.

Lemma qz_inj : forall a b, qz a = qz b -> a = b.
Proof.
  intros a b H. assert (a <= b)%Z by (apply qz_le; rewrite H; apply Qcle_refl').
  assert (b <= a)%Z by (apply qz_le; rewrite H; apply Qcle_refl'). lia.
Qed.

Lemma qz_0 : qz 0 = 0.
Proof. reflexivity. Qed.
Lemma qz_1 : qz 1 = 1.
Proof. reflexivity. Qed.

Lemma qz_neq0 : forall z, z <> 0%Z -> qz z <> 0.
Proof. intros z H E. apply H. apply qz_inj. exact E. Qed.

Lemma qz_pos : forall z, (0 < z)%Z -> 0 < qz z.
Proof. intros z H. apply qz_lt in H. exact H. Qed.

(** ** Floor *)

Definition qfloor (a : Qc) : Z := Qfloor (this a).
Definition qceil (a : Qc) : Z := Qceiling (this a).

Lemma qfloor_le : forall a, qz (qfloor a) <= a.
Proof. intros a. unfold Qcle. rewrite this_qz. apply Qfloor_le. Qed.

Lemma qfloor_lt : forall a, a < qz (qfloor a) + 1.
Proof.
  intros a. change 1 with (qz 1). rewrite <- qz_add. unfold Qclt.
  rewrite this_qz. apply Qlt_floor.
Qed.

Lemma qfloor_unique : forall a z, qz z <= a -> a < qz z + 1 -> qfloor a = z.
Proof.
  intros a z H1 H2. pose proof (qfloor_le a). pose proof (qfloor_lt a).
  assert (qz z < qz (qfloor a) + 1) as L1 by qlra.
  assert (qz (qfloor a) < qz z + 1) as L2 by qlra.
  change 1 with (qz 1) in L1, L2. rewrite <- qz_add in L1, L2.
  apply qz_lt in L1. apply qz_lt in L2. lia.
Qed.

Lemma qfloor_qz : forall z, qfloor (qz z) = z.
Proof. intros z. apply qfloor_unique; qlra. Qed.

Lemma qfloor_mono : forall a b, a <= b -> (qfloor a <= qfloor b)%Z.
Proof. intros a b H. unfold qfloor. apply Qfloor_resp_le. exact H. Qed.

Lemma qfloor_nonneg : forall a, 0 <= a -> (0 <= qfloor a)%Z.
Proof. intros a H. apply (qfloor_mono 0 a) in H. exact H. Qed.

Lemma qceil_ge : forall a, a <= qz (qceil a).
Proof. intros a. unfold Qcle. rewrite this_qz. apply Qle_ceiling. Qed.

Lemma qceil_lt : forall a, qz (qceil a) < a + 1.
Proof.
  intros a. pose proof (Qceiling_lt (this a)) as H.
  assert (qz (qceil a - 1) < a) as L.
  { unfold Qclt. rewrite this_qz. exact H. }
  rewrite qz_sub in L. change (qz 1) with 1 in L. qlra.
Qed.

(** ** Sums *)

Definition qsum (l : list Qc) : Qc := fold_right Qcplus 0 l.

Lemma qsum_nil : qsum [] = 0.
Proof. reflexivity. Qed.
Lemma qsum_cons : forall x l, qsum (x :: l) = x + qsum l.
Proof. reflexivity. Qed.

Lemma qsum_app : forall l1 l2, qsum (l1 ++ l2) = qsum l1 + qsum l2.
Proof.
  induction l1 as [| x l1 IH]; intros l2; cbn [app].
  - rewrite qsum_nil. ring.
  - rewrite !qsum_cons, IH. ring.
Qed.

Lemma qsum_scale : forall c l, qsum (map (Qcmult c) l) = c * qsum l.
Proof.
  intros c. induction l as [| x l IH]; cbn [map].
  - rewrite !qsum_nil. ring.
  - rewrite !qsum_cons, IH. ring.
Qed.

Lemma qsum_nonneg : forall l, Forall (fun x => 0 <= x) l -> 0 <= qsum l.
Proof.
  induction 1 as [| x l Hx _ IH].
  - rewrite qsum_nil. apply Qcle_refl'.
  - rewrite qsum_cons. qlra.
Qed.

Lemma qsum_map_add : forall A (f g : A -> Qc) l,
  qsum (map (fun x => f x + g x) l) = qsum (map f l) + qsum (map g l).
Proof.
  intros A f g. induction l as [| x l IH]; cbn [map].
  - rewrite !qsum_nil. ring.
  - rewrite !qsum_cons, IH. ring.
Qed.

Lemma qsum_map_scale : forall A (f : A -> Qc) c l,
  qsum (map (fun x => c * f x) l) = c * qsum (map f l).
Proof.
  intros A f c. induction l as [| x l IH]; cbn [map].
  - rewrite !qsum_nil. ring.
  - rewrite !qsum_cons, IH. ring.
Qed.

Lemma qsum_map_le : forall A (f g : A -> Qc) l,
  (forall x, In x l -> f x <= g x) -> qsum (map f l) <= qsum (map g l).
Proof.
  intros A f g. induction l as [| x l IH]; intros H; cbn [map].
  - apply Qcle_refl'.
  - rewrite !qsum_cons.
    assert (f x <= g x) by (apply H; left; reflexivity).
    assert (qsum (map f l) <= qsum (map g l)) by (apply IH; intros; apply H; right; assumption).
    qlra.
Qed.

Lemma qsum_const : forall A (c : Qc) (l : list A),
  qsum (map (fun _ => c) l) = qz (Z.of_nat (length l)) * c.
Proof.
  intros A c. induction l as [| x l IH]; cbn [map length].
  - rewrite qsum_nil. change (qz (Z.of_nat 0)) with 0. ring.
  - rewrite qsum_cons, IH, Nat2Z.inj_succ. unfold Z.succ.
    rewrite qz_add. change (qz 1) with 1. ring.
Qed.

Definition qlen {A} (l : list A) : Qc := qz (Z.of_nat (length l)).

Lemma qlen_pos : forall A (l : list A), l <> [] -> 0 < qlen l.
Proof.
  intros A l H. apply qz_pos. destruct l; [congruence |]. cbn [length]. lia.
Qed.

(** Arithmetic mean of a non-empty list. *)
Definition qmean (l : list Qc) : Qc := qsum l / qlen l.
