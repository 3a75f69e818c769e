(** Energy over long intervals and over short ones. *)

From Coq Require Import QArith Qcanon List ZArith Bool Sorted Permutation Lia.
From Verif.Base Require Import QcExtra ISort Quantile Fl TimeSeries Segments.
From Verif.Spec Require Import Stats Interp Energy.
From Verif.Model Require Import Interpolation Energy.
From Verif.Proofs Require Import StatsP FlP InterpP MannKendallP EnergyP EnergyP2 EnergyP3 EnergyP4 EnergyP5 EnergyP6 TrendP1.
Import ListNotations.
Open Scope Qc_scope.

Lemma consec_both : forall A (l : list A) a b, In (a, b) (consec l) -> In a l /\ In b l.
Proof. intros A l a b H. apply consec_In in H. destruct H as (l1 & l2 & ->). split; apply in_or_app; right; [left | right; left]; reflexivity. Qed.
Lemma overlap_add : forall a b lo mid hi, (lo <= mid <= hi)%Z -> overlap a b lo hi = (overlap a b lo mid + overlap a b mid hi)%Z.
Proof. intros a b lo mid hi H. unfold overlap. lia. Qed.
Lemma hours_add : forall a b, hours (a + b) = hours a + hours b.
Proof. intros a b. replace (a + b)%Z with (a - (- b))%Z by lia. rewrite hours_sub. replace (- b)%Z with (0 - b)%Z by lia. rewrite hours_sub, hours_0. ring. Qed.
Lemma rect_add : forall s limit lo mid hi, (lo <= mid <= hi)%Z -> rect_energy s limit lo hi = rect_energy s limit lo mid + rect_energy s limit mid hi.
Proof.
  intros s limit lo mid hi H. unfold rect_energy. rewrite <- qsum_map_add. apply qsum_map_ext. intros pr _. unfold rect_part. rewrite (overlap_add _ _ lo mid hi H), hours_add. ring.
Qed.
Lemma rect_empty : forall s limit lo hi, (forall pr, In pr (steps_used s limit) -> overlap (fst (fst pr)) (fst (snd pr)) lo hi = 0%Z) -> rect_energy s limit lo hi = 0.
Proof. intros s limit lo hi H. unfold rect_energy. apply qsum_map_zero. intros pr P. unfold rect_part. rewrite (H pr P), hours_0. ring. Qed.
Lemma rect_uncovered : forall s limit lo hi, ~ rect_covered s limit lo hi -> rect_energy s limit lo hi = 0.
Proof.
  intros s limit lo hi H. apply rect_empty. intros pr P. destruct (Z.eq_dec (overlap (fst (fst pr)) (fst (snd pr)) lo hi) 0) as [E | N]; [exact E |]. exfalso. apply H. exists pr. split; [exact P |]. unfold overlap in *. lia.
Qed.
Lemma rect_split : forall s limit lo w n, (0 <= w)%Z ->
  rect_energy s limit lo (lo + w * Z.of_nat n) = qsum (map (fun i => rect_energy s limit (lo + w * Z.of_nat i - w) (lo + w * Z.of_nat i)) (seq 1 n)).
Proof.
  intros s limit lo w n W. induction n as [| n IH].
  - cbn [seq map]. apply rect_empty. intros pr _. unfold overlap. lia.
  - rewrite seq_S, map_app. cbn [map plus]. rewrite qsum_app, <- IH. rewrite (rect_add s limit lo (lo + w * Z.of_nat n) (lo + w * Z.of_nat (S n))) by lia.
    rewrite qsum_cons, qsum_nil. change (1 + n)%nat with (S n). replace (lo + w * Z.of_nat (S n) - w)%Z with (lo + w * Z.of_nat n)%Z by lia. ring.
Qed.
Lemma covered_sub : forall s limit lo lo' hi' hi, (lo <= lo')%Z -> (hi' <= hi)%Z -> rect_covered s limit lo' hi' -> rect_covered s limit lo hi.
Proof. intros s limit lo lo' hi' hi A B (pr & P & O). exists pr. split; [exact P |]. unfold overlap in *. lia. Qed.
Lemma covered_split : forall s limit lo w n, (0 <= w)%Z -> rect_covered s limit lo (lo + w * Z.of_nat n) -> exists i, In i (seq 1 n) /\ rect_covered s limit (lo + w * Z.of_nat i - w) (lo + w * Z.of_nat i).
Proof.
  intros s limit lo w n W. induction n as [| n IH]; intros (pr & P & O).
  - unfold overlap in O. lia.
  - rewrite (overlap_add _ _ lo (lo + w * Z.of_nat n) (lo + w * Z.of_nat (S n))) in O by lia.
    destruct (Z_lt_le_dec 0 (overlap (fst (fst pr)) (fst (snd pr)) lo (lo + w * Z.of_nat n))) as [A | A].
    + destruct (IH (ex_intro _ pr (conj P A))) as (i & I & C). exists i. split; [apply in_seq in I; apply in_seq; lia | exact C].
    + exists (S n). split; [apply in_seq; lia |]. exists pr. split; [exact P |]. replace (lo + w * Z.of_nat (S n) - w)%Z with (lo + w * Z.of_nat n)%Z by lia. unfold overlap in *. lia.
Qed.

Lemma qsum_part : forall (g : Z -> Qc) l L, NoDup l -> NoDup L -> (forall t, In t l -> In t L) -> (forall t, In t L -> ~ In t l -> g t = 0) -> qsum (map g l) = qsum (map g L).
Proof.
  intros g l L N. revert L. induction N as [| x l X N IH]; intros L NL S Z.
  - symmetry. apply qsum_map_zero. intros t T. apply Z; [exact T | intros []].
  - destruct (in_split x L (S x (or_introl eq_refl))) as (A & B & ->). cbn [map]. rewrite map_app. cbn [map]. rewrite qsum_app, !qsum_cons.
    assert (NoDup (A ++ B)) as NAB by (apply NoDup_remove_1 in NL; exact NL). assert (~ In x (A ++ B)) as NX by (apply NoDup_remove_2 in NL; exact NL).
    rewrite (IH (A ++ B) NAB).
    + rewrite map_app, qsum_app. ring.
    + intros t T. specialize (S t (or_intror T)). apply in_app_or in S. apply in_or_app. destruct S as [S | [-> | S]]; [left; exact S | contradiction | right; exact S].
    + intros t T K. apply Z; [apply in_app_or in T; apply in_or_app; cbn [In]; tauto |]. intros [-> | T']; contradiction.
Qed.

Lemma steps_times : forall s limit pr, In pr (steps_used s limit) -> In (fst (fst pr)) (times s) /\ In (fst (snd pr)) (times s).
Proof.
  intros s limit pr P. unfold steps_used in P. apply filter_In in P. destruct P as [P _]. destruct pr as [p q].
  assert (forall p, In p (points s) -> In (fst p) (times s)) as A.
  { clear. induction s as [| [t v] s IH]; intros p H; [destruct H |]. destruct v; cbn [points] in H; cbn [times map fst]; try (right; apply IH; exact H). destruct H as [<- | H]; [left; reflexivity | right; apply IH; exact H]. }
  assert (In p (points s) /\ In q (points s)) as [Ip Iq] by (apply consec_both; exact P).
  split; apply A; assumption.
Qed.
Lemma nodup_filter : forall (f : Z * fl -> bool) s, NoDup (times s) -> NoDup (times (filter f s)).
Proof.
  intros f s. induction s as [| r s IH]; intros H; [constructor |]. cbn in H. inversion H as [| x y NI N]; subst. cbn [filter]. destruct (f r); [| apply IH; exact N]. cbn. constructor; [| apply IH; exact N].
  intros K. apply NI. apply in_map_iff in K. destruct K as (z & E & Z0). apply filter_In in Z0. apply in_map_iff. exists z. tauto.
Qed.
Lemma final_bound : forall s t, sorted_index s -> In t (times s) -> (t <= final_time s)%Z.
Proof.
  intros s t S I. unfold final_time. unfold sorted_index in S. destruct (exists_last (l := times s)) as (l' & x & E); [intros E; rewrite E in I; destruct I |].
  rewrite E in *. rewrite last_last. clear E. induction l' as [| y l' IH]; [destruct I as [-> | []]; lia |]. cbn in S. inversion S as [| p q Sl A]; subst. rewrite Forall_forall in A.
  destruct I as [-> | I]; [| exact (IH Sl I)]. specialize (A x ltac:(apply in_or_app; right; left; reflexivity)). lia.
Qed.

Lemma energy_widths : forall freq power w k max med fine coarse, sorted_index power -> noinf (vals power) ->
  (2 <= length power)%nat -> is_median (gaps_between (times power)) med -> (0 < w)%Z -> med < qz w -> (0 < k)%Z ->
  energy_from_power freq power (Some w) max RightLabeled = Ok fine ->
  energy_from_power freq power (Some (w * k)%Z) max RightLabeled = Ok coarse ->
  forall T v, In (T, v) coarse ->
  (forall t, In t (times fine) -> (T - w * k < t <= T)%Z -> ~ in_long_step power (the_limit max med) t) ->
  v = fsum1 (vals (filter (fun r => (T - w * k <? fst r)%Z && (fst r <=? T)%Z) fine)).
Proof.
  intros freq power w k max med fine coarse S N L M W MW K EF EC T v I NL.
  assert (med < qz (w * k)) as MK. { eapply Qclt_le_trans; [exact MW |]. apply (proj1 (qz_le _ _)). assert (w * 1 <= w * k)%Z by (apply Z.mul_le_mono_nonneg_l; lia). lia. }
  assert (points power <> []) as PN.
  { intros E. destruct (energy_long freq power w max med S N L M W MW) as [R _]. rewrite (R E) in EF. discriminate. }
  destruct (proj2 (energy_long freq power w max med S N L M W MW) PN) as (f' & EF' & SF & TF & VF). rewrite EF in EF'. injection EF' as <-.
  destruct (proj2 (energy_long freq power (w * k) max med S N L M ltac:(nia) MK) PN) as (c' & EC' & SC & TC & VC). rewrite EC in EC'. injection EC' as <-.
  destruct (proj1 (TC T) (in_map fst _ _ I)) as (j & J & ET & FT). specialize (VC T v I). set (limit := the_limit max med) in *.
  set (F := filter _ fine). set (lo := (T - w * k)%Z) in *.
  assert (forall t, In t (times F) <-> In t (times fine) /\ (lo < t <= T)%Z) as IF.
  { intros t. unfold F, times. rewrite in_map_iff. split.
    - intros ([u x] & E & R). cbn [fst] in E. subst u. apply filter_In in R. destruct R as [R B]. cbn [fst] in B. apply andb_true_iff in B. destruct B as [B1 B2]. apply Z.ltb_lt in B1. apply Z.leb_le in B2. split; [exact (in_map fst _ _ R) | lia].
    - intros [R B]. apply in_map_iff in R. destruct R as ([u x] & E & R). cbn [fst] in E. subst u. exists (t, x). split; [reflexivity |]. apply filter_In. split; [exact R |]. cbn [fst]. apply andb_true_iff. split; [apply Z.ltb_lt | apply Z.leb_le]; lia. }
  assert (forall t x, In (t, x) F -> In (t, x) fine) as FF by (intros t x R; unfold F in R; apply filter_In in R; apply R).
  assert (forall t x, In (t, x) F -> (rect_covered power limit (t - w) t /\ x = Fin (rect_energy power limit (t - w) t)) \/ (~ rect_covered power limit (t - w) t /\ x = NaN)) as VAL.
  { intros t x R. destruct (VF t x (FF t x R)) as (_ & V2 & V3). assert (~ in_long_step power limit t) as NS by (destruct (proj1 (IF t) (in_map fst _ _ R)); apply NL; [assumption | lia]).
    assert (rect_covered power limit (t - w) t \/ ~ rect_covered power limit (t - w) t) as [C | C].
    { unfold rect_covered. destruct (existsb (fun pr => (0 <? overlap (fst (fst pr)) (fst (snd pr)) (t - w) t)%Z) (steps_used power limit)) eqn:X.
      - left. apply existsb_exists in X. destruct X as (pr & P & O). exists pr. split; [exact P | apply Z.ltb_lt; exact O].
      - right. intros (pr & P & O). assert (existsb (fun pr => (0 <? overlap (fst (fst pr)) (fst (snd pr)) (t - w) t)%Z) (steps_used power limit) = true) as Y by (apply existsb_exists; exists pr; split; [exact P | apply Z.ltb_lt; exact O]). congruence. }
    - left. split; [exact C | apply V3; assumption].
    - right. split; [exact C | apply V2; exact C]. }
  assert (~ in_long_step power limit T) as NT.
  { intros X. pose proof X as (a & b & AB & Hab & _). apply consec_both in AB. destruct AB as [_ Ib]. apply (final_bound power b S) in Ib.
    apply (NL T); [| unfold lo; nia | exact X]. apply TF. exists (k * j)%Z. split; [nia |]. split; [rewrite ET; ring | lia]. }
  assert (noinf (vals F)) as NF.
  { intros x X. unfold vals in X. apply in_map_iff in X. destruct X as ([t y] & <- & R). destruct (VAL t y R) as [[_ ->] | [_ ->]]; split; discriminate. }
  assert (finvals (vals F) <> [] <-> exists t, In t (times F) /\ rect_covered power limit (t - w) t) as NE.
  { clear - VAL. split.
    - intros H. induction F as [| [t y] F' IH]; [contradiction |]. destruct (VAL t y (or_introl eq_refl)) as [[C ->] | [C ->]].
      + exists t. split; [left; reflexivity | exact C].
      + cbn in H. destruct IH as (u & U & C'); [intros u x X; apply VAL; right; exact X | exact H |]. exists u. split; [right; exact U | exact C'].
    - intros (t & I & C). apply in_map_iff in I. destruct I as ([u x] & E & R). cbn in E. subst u. destruct (VAL t x R) as [[_ ->] | [NC _]]; [| contradiction].
      intros E. assert (In (rect_energy power limit (t - w) t) (finvals (vals F))) as X.
      { apply finvals_In. unfold vals. apply in_map_iff. exists (t, Fin (rect_energy power limit (t - w) t)). split; [reflexivity | exact R]. }
      rewrite E in X. destruct X. }
  assert (qsum (finvals (vals F)) = qsum (map (fun t => rect_energy power limit (t - w) t) (times F))) as SUM.
  { clear - VAL. induction F as [| [t y] F' IH]; [reflexivity |]. cbn [times vals map fst snd]. rewrite qsum_cons. unfold times, vals in IH. rewrite <- IH by (intros u x X; apply VAL; right; exact X).
    destruct (VAL t y (or_introl eq_refl)) as [[C ->] | [C ->]]; cbn [finvals].
    - rewrite qsum_cons. reflexivity.
    - rewrite (rect_uncovered _ _ _ _ C). ring. }
  assert (qsum (map (fun t => rect_energy power limit (t - w) t) (times F)) = rect_energy power limit lo T) as TOT.
  { replace T with (lo + w * Z.of_nat (Z.to_nat k))%Z by (unfold lo; rewrite Z2Nat.id by lia; lia).
    rewrite rect_split by lia. rewrite <- (map_map (fun i => (lo + w * Z.of_nat i)%Z) (fun t => rect_energy power limit (t - w) t)). apply qsum_part.
    - apply nodup_filter. apply strict_nodup. exact SF.
    - apply FinFun.Injective_map_NoDup; [| apply seq_NoDup]. intros i i' E. nia.
    - intros t R. apply IF in R. destruct R as [R B]. apply TF in R. destruct R as (i & Hi & Et & _). apply in_map_iff. exists (Z.to_nat (i - k * (j - 1))). unfold lo in *.
      assert (k * (j - 1) < i)%Z by nia. rewrite Z2Nat.id by lia. split; [rewrite Et, ET; ring |]. apply in_seq. assert (i <= k * j)%Z by nia. lia.
    - intros t R NR. apply in_map_iff in R. destruct R as (i & Et & Hi). apply in_seq in Hi. apply rect_empty. intros pr P. apply steps_times in P. destruct P as [_ P]. apply (final_bound power _ S) in P.
      assert (~ (t - w < final_time power)%Z) as NB.
      { intros B. apply NR. apply IF. split; [| unfold lo in *; nia]. apply TF. exists (k * (j - 1) + Z.of_nat i)%Z. split; [nia |]. split; [| exact B]. rewrite <- Et. unfold lo. rewrite ET. ring. }
      unfold overlap. lia. }
  destruct VC as (_ & V2 & V3). fold lo in V2, V3. rewrite fsum1_noinf by exact NF. destruct (finvals (vals F)) as [| q qs] eqn:EV.
  - apply V2. intros C. replace T with (lo + w * Z.of_nat (Z.to_nat k))%Z in C by (unfold lo; rewrite Z2Nat.id by lia; lia). apply covered_split in C; [| lia]. destruct C as (i & Hi & C). apply in_seq in Hi.
    apply (proj2 NE); [| reflexivity]. exists (lo + w * Z.of_nat i)%Z. split; [| exact C]. apply IF. split; [| unfold lo in *; nia]. apply TF. exists (k * (j - 1) + Z.of_nat i)%Z. split; [nia |]. split; [unfold lo; rewrite ET; ring |].
    destruct C as (pr & P & O). apply steps_times in P. destruct P as [_ P]. apply (final_bound power _ S) in P. unfold overlap in O. lia.
  - rewrite SUM, TOT. apply V3; [exact NT |]. destruct (proj1 NE ltac:(discriminate)) as (t & R & C). apply IF in R. apply (covered_sub _ _ _ (t - w) t); [| lia | exact C].
    destruct R as [R B]. apply TF in R. destruct R as (i & Hi & Et & _). unfold lo in *. assert (k * (j - 1) < i)%Z by nia. nia.
Qed.
