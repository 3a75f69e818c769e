(** C80: a few wrong measurements cannot move the degradation rate far *)

From Coq Require Import QArith Qcanon List ZArith Bool Arith Lia Permutation Sorted.
From Verif.Base Require Import QcExtra ISort Quantile Fl Calendar.
From Verif.Spec Require Import Stats Time YoY Window Wrong.
From Verif.Model Require Import Utilities Bootstrap YearOnYear.
From Verif.Proofs Require Import StatsP FlP YoYP YoYP2 YoYP3 WindowP WrongP.
Import ListNotations.
Open Scope list_scope.
Open Scope Qc_scope.
From Verif.Props Require Import YoYDemo.
Open Scope Qc_scope.

(** With the same factor (in particular without recentering), only values of pairs with a wrong end can change. *)
Theorem C80_local : forall infer infer' sortv sortv' choice choice' starts starts' rc rc' ep cl ep' cl' m m' x y bad o o',
  sorts_by_shifted sortv -> sorts_by_shifted sortv' -> NoDup (times x) -> NoDup (times y) -> differ_at bad x y ->
  degradation_year_on_year infer sortv choice starts rc ep cl m x = Ok o ->
  degradation_year_on_year infer' sortv' choice' starts' rc' ep' cl' m' y = Ok o' ->
  yo_renorm o' = yo_renorm o ->
  forall dt v, ~ affected x bad dt -> one_partner x dt -> (In (dt, v) (yo_values o') <-> In (dt, v) (yo_values o)).
Proof. exact unaffected_values. Qed.

(** In complete daily data, a day is affected only if it or the same day of the year before is wrong, or on 28 or 29 February. *)
Theorem C80_daily : forall first last x bad dt, daily_from first last x -> NoDup (times x) -> In dt (times x) -> ~ late_february dt ->
  ~ bad dt -> (forall t, bad t -> ~ one_year_later t dt) -> ~ affected x bad dt /\ one_partner x dt.
Proof. exact daily_affected. Qed.

(** If less than half of the values can be affected, the rate stays between the other values of the correct record, however wrong the wrong values are. *)
Theorem C80_rate : forall infer infer' sortv sortv' choice choice' starts starts' rc rc' ep cl ep' cl' m m' x y bad o o' (A : list Z) qs lo hi,
  sorts_by_shifted sortv -> sorts_by_shifted sortv' -> NoDup (times x) -> NoDup (times y) -> differ_at bad x y ->
  degradation_year_on_year infer sortv choice starts rc ep cl m x = Ok o ->
  degradation_year_on_year infer' sortv' choice' starts' rc' ep' cl' m' y = Ok o' ->
  yo_renorm o' = yo_renorm o ->
  (forall dt, In dt (times x) -> ~ In dt A -> ~ affected x bad dt /\ one_partner x dt) ->
  vals (yo_values o') = map Fin qs -> (2 * length A < length qs)%nat ->
  (forall dt q, In (dt, Fin q) (yo_values o) -> ~ In dt A -> lo <= q /\ q <= hi) ->
  exists q, yo_rate o' = Fin q /\ lo <= q /\ q <= hi.
Proof. exact rate_between. Qed.

(** Seven yearly measurements, 2 % less each year; the fourth, or the first, is read wrongly. *)
Definition yearly (a b : Z) : series :=
  [(at_date 2010 3 10, fz a); (at_date 2011 3 10, fz 98); (at_date 2012 3 10, fz 96); (at_date 2013 3 10, fz b); (at_date 2014 3 10, fz 92);
   (at_date 2015 3 10, fz 90); (at_date 2016 3 10, fz 88)].
Definition analysis (rc : bool) (s : series) : result yoy_out :=
  degradation_year_on_year demo_infer demo_sortv demo_choice [] rc (qz 95) (qz 68) NoUncertainty s.
Definition out_of (r : result yoy_out) : yoy_out := match r with Ok o => o | Raise _ => no_out end.
Definition misread (t t' : Z) : Prop := t' = t.

Lemma yearly_nodup : forall a b, NoDup (times (yearly a b)).
Proof. intros a b. repeat constructor; cbn [In map fst]; intros H; repeat (destruct H as [H | H]; [vm_compute in H; discriminate |]); exact H. Qed.
Lemma yearly_no_clash : forall a b, no_clash (yearly a b).
Proof.
  intros a b r1 r2 t H1 H2 L1 L2. apply one_year_later_eq in L1, L2. rewrite L1 in L2. clear L1. cbn [In yearly] in H1, H2.
  repeat (destruct H1 as [<- | H1]; [repeat (destruct H2 as [<- | H2]; [try reflexivity; vm_compute in L2; discriminate |]); contradiction |]). contradiction.
Qed.
Lemma yearly_one : forall a b dt, one_partner (yearly a b) dt.
Proof.
  intros a b dt r1 r2 P1 P2. apply (nodup_fst_inj (yearly a b)); [apply yearly_nodup | apply P1 | apply P2 |].
  rewrite (partner_unique _ _ _ _ (yearly_no_clash a b) P1 P2). reflexivity.
Qed.
Lemma yearly_differ4 : differ_at (misread (at_date 2013 3 10)) (yearly 100 94) (yearly 100 500).
Proof.
  split; [intros t; reflexivity |]. intros t v N. unfold yearly. cbn [In]. unfold misread in N.
  split; intros H; repeat (destruct H as [H | H]; [injection H as <- <-; try (exfalso; apply N; reflexivity); tauto |]); contradiction.
Qed.
Lemma yearly_differ1 : differ_at (misread (at_date 2010 3 10)) (yearly 100 94) (yearly 50 94).
Proof.
  split; [intros t; reflexivity |]. intros t v N. unfold yearly. cbn [In]. unfold misread in N.
  split; intros H; repeat (destruct H as [H | H]; [injection H as <- <-; try (exfalso; apply N; reflexivity); tauto |]); contradiction.
Qed.
(** Only a point one or two years after the misread one, by less than eight days more, is a partner. *)
Lemma yearly_partner : forall a b dt r, is_partner (yearly a b) dt r -> in_reach (fst r) dt.
Proof. intros a b dt r (_ & t' & L & B & C & _). exists t'. auto. Qed.

Example C80_example : exists q, yo_rate (out_of (analysis false (yearly 100 500))) = Fin q /\ - qz 200 <= q /\ q <= - qz 199.
Proof.
  assert (analysis false (yearly 100 94) = Ok (out_of (analysis false (yearly 100 94)))) as A by (vm_compute; reflexivity).
  assert (analysis false (yearly 100 500) = Ok (out_of (analysis false (yearly 100 500)))) as B by (vm_compute; reflexivity).
  apply (C80_rate demo_infer demo_infer demo_sortv demo_sortv demo_choice demo_choice [] [] false false (qz 95) (qz 68) (qz 95) (qz 68) NoUncertainty NoUncertainty
           (yearly 100 94) (yearly 100 500) (misread (at_date 2013 3 10)) _ _ [at_date 2013 3 10; at_date 2014 3 10]
           (map (fun v => match v with Fin q => q | _ => 0 end) (vals (yo_values (out_of (analysis false (yearly 100 500)))))) _ _
           demo_sortv_ok demo_sortv_ok (yearly_nodup _ _) (yearly_nodup _ _) yearly_differ4 A B).
  - reflexivity.
  - intros dt I N. split; [| apply yearly_one]. intros [E | [(r & P & E) | E]]; [apply N; left; symmetry; exact E | | exact (E (yearly_one _ _ _))].
    destruct (yearly_partner _ _ _ _ P) as (t' & L & B1 & B2). unfold misread in E. rewrite E in L. apply one_year_later_eq in L. rewrite L in B1, B2.
    cbn [times yearly map fst In] in I. repeat (destruct I as [<- | I]; [try (apply N; right; left; reflexivity); solve [exfalso; apply B1; vm_compute; reflexivity | exfalso; apply B2; vm_compute; reflexivity] |]). contradiction.
  - vm_compute. reflexivity.
  - vm_compute. repeat constructor.
  - intros dt q I N. change (yo_values (out_of (analysis false (yearly 100 94)))) with (yo_values (out_of (analysis false (yearly 100 94)))) in I.
    assert (forallb (fun p => match snd p with Fin q => qle (- qz 200) q && qle q (- qz 199) | _ => true end) (yo_values (out_of (analysis false (yearly 100 94)))) = true) as F by (vm_compute; reflexivity).
    rewrite forallb_forall in F. specialize (F _ I). cbn [snd] in F. apply andb_true_iff in F. destruct F as [F1 F2]. split; apply qle_spec; assumption.
Qed.
(** A thousand days, of which three are wrong: what can change is known beforehand. *)
Example C80_daily_example : let x := map (fun k => ((Z.of_nat k + 15000) * ns_day, Fin (qz (Z.of_nat k))))%Z (seq 0 1000) in
  let bad := fun t => In t [15010 * ns_day; 15020 * ns_day; 15030 * ns_day]%Z in
  ~ affected x bad (15600 * ns_day)%Z.
Proof.
  intros x bad.
  assert (daily_from 15000 15999 x) as D.
  { intros t. unfold x, times. rewrite map_map, in_map_iff. cbn [fst]. split.
    - intros (k & <- & K). apply in_seq in K. exists (Z.of_nat k + 15000)%Z. split; [lia | reflexivity].
    - intros (z & Hz & ->). exists (Z.to_nat (z - 15000)). split; [rewrite Z2Nat.id by lia; f_equal; lia |]. apply in_seq. lia. }
  assert (NoDup (times x)) as N.
  { unfold x, times. rewrite map_map. cbn [fst]. apply FinFun.Injective_map_NoDup; [| apply seq_NoDup]. intros i j E. apply Z.mul_reg_r in E; [lia | discriminate]. }
  apply (C80_daily 15000 15999 x bad (15600 * ns_day)%Z D N).
  - apply D. exists 15600%Z. split; [lia | reflexivity].
  - intros (y & d & Hd & V & E). apply Z.mul_reg_r in E; [| discriminate]. apply (f_equal civil_of_day) in E. rewrite civil_of_day_inv in E by exact V. vm_compute in E. discriminate.
  - unfold bad. cbn [In]. intros H. repeat (destruct H as [H | H]; [vm_compute in H; discriminate |]). exact H.
  - unfold bad. cbn [In]. intros t H L. apply one_year_later_eq in L. repeat (destruct H as [H | H]; [subst t; vm_compute in L; discriminate |]). exact H.
Qed.

(** Recentering divides all values by the median of the first year, so that a wrong first year
    changes all values. *)
Theorem C80_recentering_refuted : ~ (forall infer sortv choice starts ep cl x y bad o o', sorts_by_shifted sortv -> NoDup (times x) -> NoDup (times y) -> differ_at bad x y ->
  degradation_year_on_year infer sortv choice starts true ep cl NoUncertainty x = Ok o ->
  degradation_year_on_year infer sortv choice starts true ep cl NoUncertainty y = Ok o' ->
  forall dt v, ~ affected x bad dt -> one_partner x dt -> In (dt, v) (yo_values o) -> In (dt, v) (yo_values o')).
Proof.
  intros H.
  assert (analysis true (yearly 100 94) = Ok (out_of (analysis true (yearly 100 94)))) as A by (vm_compute; reflexivity).
  assert (analysis true (yearly 50 94) = Ok (out_of (analysis true (yearly 50 94)))) as B by (vm_compute; reflexivity).
  assert (~ affected (yearly 100 94) (misread (at_date 2010 3 10)) (at_date 2016 3 10)) as N.
  { intros [E | [(r & P & E) | E]]; [vm_compute in E; discriminate | | exact (E (yearly_one _ _ _))].
    destruct (yearly_partner _ _ _ _ P) as (t' & L & B1 & B2). unfold misread in E. rewrite E in L. apply one_year_later_eq in L. rewrite L in B2. apply B2. vm_compute. reflexivity. }
  pose proof (H demo_infer demo_sortv demo_choice [] (qz 95) (qz 68) _ _ _ _ _ demo_sortv_ok (yearly_nodup _ _) (yearly_nodup _ _) yearly_differ1 A B (at_date 2016 3 10)
    (snd (List.last (yo_values (out_of (analysis true (yearly 100 94)))) (0%Z, NaN))) N (yearly_one _ _ _)) as K.
  assert (In (at_date 2016 3 10, snd (List.last (yo_values (out_of (analysis true (yearly 100 94)))) (0%Z, NaN))) (yo_values (out_of (analysis true (yearly 100 94))))) as I.
  { vm_compute. tauto. }
  specialize (K I).
  assert (existsb (fun p => feq (snd p) (snd (List.last (yo_values (out_of (analysis true (yearly 100 94)))) (0%Z, NaN)))) (yo_values (out_of (analysis true (yearly 50 94)))) = false) as D by (vm_compute; reflexivity).
  assert (existsb (fun p => feq (snd p) (snd (List.last (yo_values (out_of (analysis true (yearly 100 94)))) (0%Z, NaN)))) (yo_values (out_of (analysis true (yearly 50 94)))) = true) as E.
  { apply existsb_exists. eexists. split; [exact K | vm_compute; reflexivity]. }
  congruence.
Qed.
Print Assumptions C80_recentering_refuted.

Print Assumptions C80_local.
Print Assumptions C80_daily.
Print Assumptions C80_rate.
