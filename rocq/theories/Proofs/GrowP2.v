(** Daily values as the record grows. *)

From Coq Require Import QArith Qcanon List ZArith Bool Arith Lia Sorted.
From Verif.Base Require Import QcExtra ISort Quantile Fl TimeSeries Rolling Segments.
From Verif.Spec Require Import Stats Interp Energy Window Normalization.
From Verif.Model Require Import Energy Normalization.
From Verif.Proofs Require Import StatsP EnergyP NormP4 WindowP GrowP.
Import ListNotations.
Open Scope list_scope.
Open Scope Qc_scope.

Lemma inside_late : forall b w t, (b + w <= t)%Z -> inside b w t = false.
Proof. intros b w t H. unfold inside. destruct (t <? b + w)%Z eqn:E; [apply Z.ltb_lt in E; lia | apply andb_false_r]. Qed.

Lemma combine_app : forall A B (a a' : list A) (b b' : list B), length a = length b -> combine (a ++ a') (b ++ b') = combine a b ++ combine a' b'.
Proof. intros A B a. induction a as [| x a IH]; intros a' [| y b] b' H; try discriminate; [reflexivity |]. cbn [app combine]. f_equal. apply IH. cbn in H. lia. Qed.

Section Days.
Context (en ins en' ins' : series) (w : Z).
Hypothesis HT : times en = times ins.
Hypothesis HT' : times en' = times ins'.
Hypothesis HI : noinf (vals (ins ++ ins')).
Hypothesis HE : noinf (vals (en ++ en')).
Hypothesis HW : (0 < w)%Z.
Hypothesis HS : sorted_index (ins ++ ins').
Hypothesis HN : ins <> [].

Lemma weight_grow : forall b, (forall t, In t (times ins') -> (b + w <= t)%Z) -> bin_weight b w (ins ++ ins') = bin_weight b w ins.
Proof.
  intros b H. unfold bin_weight. rewrite map_app, qsum_app, (qsum_zeros _ _ ins'); [ring |]. intros [t v] Hr. cbn [fst].
  rewrite inside_late; [reflexivity |]. apply H. exact (time_In _ _ _ Hr).
Qed.
Lemma lengths : length ins = length en.
Proof. rewrite <- (map_length fst ins), <- (map_length fst en). unfold times in HT. rewrite HT. reflexivity. Qed.
Lemma energy_grow : forall b, (forall t, In t (times ins') -> (b + w <= t)%Z) -> bin_energy b w (ins ++ ins') (en ++ en') = bin_energy b w ins en.
Proof.
  intros b H. unfold bin_energy. rewrite combine_app by exact lengths. rewrite map_app, qsum_app, (qsum_zeros _ _ (combine ins' en')); [ring |].
  intros [[t v] r] Hr. cbn [fst snd]. rewrite inside_late; [reflexivity |]. apply H. apply in_combine_l in Hr. exact (time_In _ _ _ Hr).
Qed.

Theorem grow_days : forall b, (b <= final_time ins)%Z -> (forall t, In t (times ins') -> (b + w <= t)%Z) ->
  up_to b (aggregation_insol (en ++ en') (ins ++ ins') w) = up_to b (aggregation_insol en ins w).
Proof.
  intros b Hb Hnew.
  assert (times ins <> []) as HN1 by (destruct ins; [congruence | discriminate]).
  assert (times (ins ++ ins') = times ins ++ times ins') as TA by (unfold times; apply map_app).
  assert (times (ins ++ ins') <> []) as HN2 by (rewrite TA; intros E; apply app_eq_nil in E; tauto).
  assert (exists first l, times ins = first :: l) as (first & l & Ef) by (destruct (times ins) as [| f l]; [congruence | eauto]).
  destruct (exists_last HN1) as (l1 & last1 & E1). destruct (exists_last HN2) as (l2 & last2 & E2).
  assert (sorted_index ins) as HS1 by exact (proj1 (grow_parts ins ins' HS)).
  assert (final_time ins = last1) as F1 by (unfold final_time; rewrite E1, last_last; reflexivity).
  assert (last1 <= last2)%Z as HL.
  { pose proof (last_max (times (ins ++ ins')) 0%Z last1 HS) as M. rewrite E2, last_last in M. apply M. rewrite <- E2, TA, E1. apply in_or_app. left. apply in_or_app. right. left. reflexivity. }
  assert (noinf (vals ins)) as HI1 by (intros x Hx; apply HI; unfold vals; rewrite map_app; apply in_or_app; left; exact Hx).
  assert (noinf (vals en)) as HE1 by (intros x Hx; apply HE; unfold vals; rewrite map_app; apply in_or_app; left; exact Hx).
  destruct (aggregation_value en ins w first last1 HT HI1 HE1 HW (ex_intro _ l Ef) (ex_intro _ l1 E1) HS1) as [(b0 & n & m & j & T & I0 & In1 & Hm & Eb) V].
  assert (times (en ++ en') = times (ins ++ ins')) as HT2 by (unfold times in *; rewrite !map_app, HT, HT'; reflexivity).
  destruct (aggregation_value (en ++ en') (ins ++ ins') w first last2 HT2 HI HE HW) as [(b0' & n' & m' & j' & T' & I0' & In1' & Hm' & Eb') V'].
  { exists (l ++ times ins'). rewrite TA, Ef. reflexivity. }
  { exists l2. exact E2. }
  { exact HS. }
  pose proof (midnight_unique first m m' Hm Hm') as Em. subst m'.
  assert (b0' = b0) as ->.
  { unfold in_bin in *. subst b0 b0'. assert (j = j')%Z; [| subst; reflexivity]. nia. }
  unfold in_bin in *.
  assert (forall t, (t <= b)%Z -> (In t (times (aggregation_insol en ins w)) <-> In t (times (aggregation_insol (en ++ en') (ins ++ ins') w)))) as TT.
  { intros t Ht. rewrite T, T', !in_map_iff. split; intros (k & <- & Hk); exists k; (split; [reflexivity |]); apply in_seq in Hk; apply in_seq; (split; [lia |]).
    - assert (k <= n')%nat; [| lia]. assert (Z.of_nat k <= Z.of_nat n')%Z; [| lia]. assert (Z.of_nat k <= Z.of_nat n)%Z by lia. nia.
    - assert (k <= n)%nat; [| lia]. assert (Z.of_nat k <= Z.of_nat n)%Z; [| lia]. nia. }
  assert (forall k N, StronglySorted Z.lt (map (fun k => b0 + w * Z.of_nat k)%Z (seq k N))) as SG.
  { intros k N. revert k. induction N as [| N IH]; intros k; [constructor |]. cbn [seq map]. constructor; [apply IH |]. apply Forall_forall. intros x Hx.
    apply in_map_iff in Hx. destruct Hx as (k' & <- & Hk'). apply in_seq in Hk'. nia. }
  apply agree_up_to; [rewrite T; apply SG | rewrite T'; apply SG | exact TT |].
  intros t v v' Ht H H'. apply V in H. apply V' in H'. rewrite weight_grow, energy_grow in H'; [congruence | |]; intros u Hu; pose proof (Hnew u Hu); lia.
Qed.
End Days.
