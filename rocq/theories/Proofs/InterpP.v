(** Interpolation. *)

From Coq Require Import QArith Qcanon List ZArith Bool Permutation Sorted Lia Arith.
From Verif.Base Require Import QcExtra ISort Quantile Fl TimeSeries.
From Verif.Spec Require Import Stats Interp.
From Verif.Model Require Import Interpolation.
From Verif.Proofs Require Import StatsP FlP YoYP YoYP2.
Import ListNotations.
Open Scope Qc_scope.

(** ** Steps between rows *)

Definition neighbours (l : list Z) (a b : Z) : Prop :=
  In a l /\ In b l /\ (a < b)%Z /\ forall u, In u l -> (u <= a \/ b <= u)%Z.

Lemma gaps_In : forall l t g, StronglySorted Z.lt l ->
  (In (t, g) (combine l (time_diffs l)) /\ g <> NaN <-> exists p, neighbours l p t /\ g = fz (t - p)).
Proof.
  intros l t g HS. destruct l as [| a l].
  { cbn. split; [intros [[] _] | intros (p & ([] & _) & _)]. }
  cbn [time_diffs combine In].
  assert (forall l a, StronglySorted Z.lt (a :: l) ->
    (In (t, g) (combine l (steps_from a l)) <-> exists p, neighbours (a :: l) p t /\ g = fz (t - p))) as G.
  { clear. induction l as [| b l IH]; intros a HS.
    - cbn. split; [intros [] |]. intros (p & ([-> | []] & [-> | []] & H & _) & _). lia.
    - apply StronglySorted_inv in HS. destruct HS as [HS F]. rewrite Forall_forall in F.
      pose proof HS as HS2. apply StronglySorted_inv in HS2. destruct HS2 as [_ F2]. rewrite Forall_forall in F2.
      cbn [steps_from combine In]. rewrite (IH b HS). split.
      + intros [E | (p & (N1 & N2 & N3 & N4) & ->)].
        * injection E as <- <-. exists a. split; [| reflexivity].
          split; [left; reflexivity |]. split; [right; left; reflexivity |].
          split; [apply F; left; reflexivity |]. intros u [<- | [<- | Hu]]; [lia | lia |]. specialize (F2 _ Hu). lia.
        * exists p. split; [| reflexivity]. split; [right; exact N1 |]. split; [right; exact N2 |].
          split; [exact N3 |]. intros u [<- | Hu]; [| apply N4, Hu].
          assert (a < p)%Z by (apply F; exact N1). lia.
      + intros (p & (N1 & N2 & N3 & N4) & ->).
        destruct N2 as [-> | N2].
        { exfalso. destruct N1 as [-> | N1]; [lia |]. specialize (F _ N1). lia. }
        destruct N1 as [-> | N1].
        * left. specialize (N4 b (or_intror (or_introl eq_refl))).
          assert (p < b)%Z by (apply F; left; reflexivity). assert (t = b) as ->; [| reflexivity].
          destruct N2 as [-> | N2]; [reflexivity |]. specialize (F2 _ N2). lia.
        * right. exists p. split; [| reflexivity]. split; [exact N1 |]. split; [exact N2 |]. split; [exact N3 |].
          intros u Hu. apply N4. right. exact Hu. }
  rewrite <- (G l a HS). split.
  - intros [[E | H] N]; [injection E; congruence | exact H].
  - intros H. split; [right; exact H |]. apply G in H; [| exact HS]. destruct H as (p & _ & ->). discriminate.
Qed.

Lemma time_diffs_length : forall l, length (time_diffs l) = length l.
Proof.
  intros [| a l]; [reflexivity |]. cbn. f_equal. revert a. induction l as [| b l IH]; intros a; [reflexivity |].
  cbn. f_equal. apply IH.
Qed.

Lemma combine_times : forall l v, length v = length l -> times (combine l v) = l.
Proof.
  induction l as [| a l IH]; intros [| b v] H; try discriminate; [reflexivity |]. cbn. f_equal. apply IH. cbn in H. lia.
Qed.

Lemma gap_sizes_times : forall s, times (gap_sizes s) = times s.
Proof. intros s. unfold gap_sizes. apply combine_times, time_diffs_length. Qed.

(** ** The pipeline *)

Lemma series_unique : forall s1 s2, sorted_index s1 -> sorted_index s2 ->
  (forall t v, In (t, v) s1 <-> In (t, v) s2) -> s1 = s2.
Proof.
  induction s1 as [| [t v] s1 IH]; intros s2 H1 H2 HE.
  - destruct s2 as [| [t v] s2]; [reflexivity | exfalso; apply (HE t v); left; reflexivity].
  - destruct s2 as [| [u w] s2]; [exfalso; apply (HE t v); left; reflexivity |].
    pose proof (sorted_cons_inv _ _ H1) as [H1' F1]. pose proof (sorted_cons_inv _ _ H2) as [H2' F2]. cbn [fst] in *.
    assert ((t, v) = (u, w)) as E.
    { destruct (proj1 (HE t v) (or_introl eq_refl)) as [E | I]; [auto |].
      destruct (proj2 (HE u w) (or_introl eq_refl)) as [E | J]; [auto |].
      specialize (F1 _ _ J). specialize (F2 _ _ I). lia. }
    injection E as -> ->. f_equal. apply IH; auto. intros x y. split; intros Hi.
    + destruct (proj1 (HE x y) (or_intror Hi)) as [E | I]; [| exact I]. injection E as <- <-. specialize (F1 _ _ Hi). lia.
    + destruct (proj2 (HE x y) (or_intror Hi)) as [E | I]; [| exact I]. injection E as <- <-. specialize (F2 _ _ Hi). lia.
Qed.

Lemma available_sorted : forall s, sorted_index s -> sorted_index (available s).
Proof. intros s. apply sorted_filter. Qed.

Lemma reindex_In : forall s idx t v, In (t, v) (reindex s idx) <-> In t idx /\ v = lookup s t.
Proof.
  intros s idx t v. unfold reindex. rewrite in_map_iff. split.
  - intros (u & E & H). injection E as -> <-. auto.
  - intros [H ->]. exists t. auto.
Qed.

Lemma reindex_sorted : forall s idx, StronglySorted Z.lt idx -> sorted_index (reindex s idx).
Proof. intros s idx H. unfold sorted_index. rewrite times_reindex. exact H. Qed.

Lemma available_reindex : forall s idx, sorted_index s -> StronglySorted Z.lt idx ->
  (forall t v, In (t, v) s -> v <> NaN -> In t idx) -> available (reindex s idx) = available s.
Proof.
  intros s idx HS HI HC. apply series_unique; try apply available_sorted; [apply reindex_sorted, HI | exact HS |].
  intros t v. rewrite !available_In, reindex_In. split.
  - intros [[Hi ->] N]. destruct (lookup_cases s t) as [(w & Hw & E) | [_ E]]; [rewrite E in *; auto | congruence].
  - intros [Hs N]. split; [| exact N]. split; [exact (HC _ _ Hs N) |]. symmetry. apply lookup_In; assumption.
Qed.

Lemma lookup_map_snd : forall s (f : Z -> fl -> fl) t, In t (times s) -> sorted_index s ->
  lookup (map (fun r => (fst r, f (fst r) (snd r))) s) t = f t (lookup s t).
Proof.
  intros s f t H HS. apply in_map_iff in H. destruct H as ([t' v] & <- & H). cbn [fst].
  rewrite (lookup_In s t' v HS H). apply lookup_In.
  - unfold sorted_index, times. rewrite map_map. cbn. exact HS.
  - apply in_map_iff. exists (t', v). auto.
Qed.

Section Interp.
  Variables (s : series) (target : list Z) (m : option Qc).
  Hypothesis HS : sorted_index s.
  Let df := available s.
  Let limit := gap_limit df m.
  Let union := zset (times df ++ target).

  Let HD : sorted_index df. Proof. apply available_sorted, HS. Qed.
  Let HU : StronglySorted Z.lt union. Proof. apply zset_sorted. Qed.

  Lemma df_value : forall t v, In (t, v) df -> v <> NaN.
  Proof. intros t v H. apply available_In in H. tauto. Qed.

  (** Back filled gap at a timestamp. *)
  Definition gap_at (t : Z) : fl :=
    if existsb (Z.eqb t) (times df) then fz 0 else lookup_bfill (available (gap_sizes df)) t.

  Lemma existsb_times : forall t l, existsb (Z.eqb t) l = true <-> In t l.
  Proof.
    intros t l. rewrite existsb_exists. split.
    - intros (u & H & E). apply Z.eqb_eq in E. subst. exact H.
    - intros H. exists t. split; [exact H | apply Z.eqb_refl].
  Qed.

  Lemma interpolate_series_unfold : interpolate_series s target m =
    map (fun t => (t, lookup (interp_index (filter (fun r => fle (gap_at (fst r)) limit) (reindex df union))) t)) target.
  Proof.
    unfold interpolate_series. fold df. fold limit. fold union.
    apply map_ext. intros t. do 3 f_equal. apply filter_ext_in. intros [u v] Hu. cbn [fst].
    apply reindex_In in Hu. destruct Hu as [Hu _]. f_equal.
    rewrite (lookup_map_snd _ (fun a b => if existsb (Z.eqb a) (times df) then fz 0 else b)).
    - unfold gap_at. destruct (existsb _ _); [reflexivity |].
      rewrite bfill_spec by (apply reindex_sorted, HU).
      rewrite (lookup_map_snd _ (fun a _ => next_value (reindex (gap_sizes df) union) a)).
      + unfold next_value. rewrite available_reindex; [reflexivity | | exact HU |].
        * unfold sorted_index. rewrite gap_sizes_times. exact HD.
        * intros a b Hab _. apply zset_In. apply in_or_app. left. rewrite <- gap_sizes_times.
          apply in_map_iff. exists (a, b). auto.
      + rewrite times_reindex. exact Hu.
      + apply reindex_sorted, HU.
    - rewrite bfill_times, times_reindex. exact Hu.
    - unfold sorted_index. rewrite bfill_times, times_reindex. exact HU.
  Qed.

  Lemma gap_before : forall t1 v1 t2 v2 t, In (t1, v1) df -> In (t2, v2) df -> (t1 < t < t2)%Z ->
    (forall u w, In (u, w) df -> (u <= t1 \/ t2 <= u)%Z) -> gap_at t = fz (t2 - t1).
  Proof.
    intros t1 v1 t2 v2 t H1 H2 Ht HN. unfold gap_at.
    destruct (existsb _ _) eqn:E.
    - apply existsb_times in E. apply in_map_iff in E. destruct E as ([u w] & <- & Hu). specialize (HN _ _ Hu). cbn in Ht. lia.
    - apply lookup_bfill_spec; [apply available_sorted; unfold sorted_index; rewrite gap_sizes_times; exact HD | discriminate |].
      assert (forall u, In u (times df) -> (u <= t1 \/ t2 <= u)%Z) as HN'.
      { intros u Hu. apply in_map_iff in Hu. destruct Hu as ([u' w] & <- & Hu). exact (HN _ _ Hu). }
      exists t2. split; [| split; [lia |]].
      + apply available_In. apply gaps_In; [exact HD |]. exists t1. split; [| reflexivity].
        split; [apply in_map_iff; exists (t1, v1); auto |]. split; [apply in_map_iff; exists (t2, v2); auto |].
        split; [lia | exact HN'].
      + intros u w Hu Hle. apply available_In in Hu. destruct Hu as [Hu _].
        assert (In u (times df)) as Hu' by (rewrite <- gap_sizes_times; apply in_map_iff; exists (u, w); auto).
        specialize (HN' _ Hu'). lia.
  Qed.

  Lemma gap_after : forall t, (forall u w, In (u, w) df -> (u < t)%Z) -> gap_at t = NaN.
  Proof.
    intros t H. unfold gap_at. destruct (existsb _ _) eqn:E.
    - apply existsb_times in E. apply in_map_iff in E. destruct E as ([u w] & <- & Hu). specialize (H _ _ Hu). cbn in H. lia.
    - apply lookup_bfill_none. intros u v Hu. apply available_In in Hu. destruct Hu as [Hu _].
      assert (In u (times df)) as Hu' by (rewrite <- gap_sizes_times; apply in_map_iff; exists (u, v); auto).
      apply in_map_iff in Hu'. destruct Hu' as ([u' w] & <- & Hu'). exact (H _ _ Hu').
  Qed.

  Lemma gap_self : forall t v, In (t, v) df -> gap_at t = fz 0.
  Proof.
    intros t v H. unfold gap_at. assert (existsb (Z.eqb t) (times df) = true) as ->; [| reflexivity].
    apply existsb_times, in_map_iff. exists (t, v). auto.
  Qed.

  Let valid := filter (fun r => fle (gap_at (fst r)) limit) (reindex df union).

  Lemma valid_sorted : sorted_index valid.
  Proof. apply sorted_filter, reindex_sorted, HU. Qed.

  Lemma valid_In : forall t v, In (t, v) valid <-> In t union /\ v = lookup df t /\ fle (gap_at t) limit = true.
  Proof. intros t v. unfold valid. rewrite filter_In, reindex_In. cbn [fst]. tauto. Qed.

  Lemma df_union : forall t v, In (t, v) df -> In t union.
  Proof. intros t v H. apply zset_In, in_or_app. left. apply in_map_iff. exists (t, v). auto. Qed.

  Lemma available_valid : fle (fz 0) limit = true -> available valid = df.
  Proof.
    intros HL. apply series_unique; [apply available_sorted, valid_sorted | exact HD |].
    intros t v. rewrite available_In, valid_In. split.
    - intros [(Hu & -> & _) N]. destruct (lookup_cases df t) as [(w & Hw & ->) | [_ E]]; [exact Hw | congruence].
    - intros H. split; [| exact (df_value _ _ H)]. split; [exact (df_union _ _ H) |].
      split; [symmetry; apply lookup_In; assumption |]. rewrite (gap_self _ _ H). exact HL.
  Qed.

  (** Value of the interpolated column at a target time. *)
  Lemma out_at : forall t, In t target -> fle (fz 0) limit = true ->
    lookup (interp_index valid) t =
    if fle (gap_at t) limit then (if isnan (lookup df t) then interp_at df t else lookup df t) else NaN.
  Proof.
    intros t Ht HL. unfold interp_index. rewrite (available_valid HL).
    assert (In t union) as Hu by (apply zset_In, in_or_app; right; exact Ht).
    destruct (fle (gap_at t) limit) eqn:E.
    - rewrite (lookup_map_snd valid (fun a b => if isnan b then interp_at df a else b)); [| | apply valid_sorted].
      + assert (lookup valid t = lookup df t) as ->; [| reflexivity].
        apply lookup_In; [apply valid_sorted |]. apply valid_In. auto.
      + apply in_map_iff. exists (t, lookup df t). split; [reflexivity |]. apply valid_In. auto.
    - apply lookup_none. unfold times. rewrite map_map. cbn [fst]. intros K. apply in_map_iff in K.
      destruct K as ([t' v] & <- & K). apply valid_In in K. cbn in *. destruct K as (_ & _ & K). congruence.
  Qed.

  Lemma no_limit : fle (fz 0) limit = false -> forall t, In t target ->
    (forall t v, In (t, v) valid -> v = NaN) /\ lookup (interp_index valid) t = NaN.
  Proof.
    intros HL t Ht. assert (forall u v, In (u, v) valid -> v = NaN) as HV.
    { intros u v H. apply valid_In in H. destruct H as (_ & -> & H).
      destruct (lookup_cases df u) as [(w & Hw & _) | [_ E]]; [| exact E].
      rewrite (gap_self _ _ Hw) in H. congruence. }
    split; [exact HV |].
    assert (available valid = []) as E.
    { destruct (available valid) as [| [u v] l] eqn:E; [reflexivity |]. exfalso.
      assert (In (u, v) (available valid)) as K by (rewrite E; left; reflexivity).
      apply available_In in K. destruct K as [K N]. apply N, (HV _ _ K). }
    unfold interp_index. rewrite E.
    destruct (lookup_cases (map (fun r => (fst r, if isnan (snd r) then interp_at [] (fst r) else snd r)) valid) t)
      as [(w & Hw & ->) | [_ E']]; [| exact E'].
    apply in_map_iff in Hw. destruct Hw as ([u v] & K & Hu). cbn [fst snd] in K. injection K as <- <-.
    rewrite (HV _ _ Hu). reflexivity.
  Qed.
End Interp.

(** ** Bracketing rows *)

Lemma row_before : forall df t, sorted_index df ->
  match last_such (fun r => (fst r <? t)%Z) df with
  | Some (t1, v1) => In (t1, v1) df /\ (t1 < t)%Z /\ forall u w, In (u, w) df -> (u < t)%Z -> (u <= t1)%Z
  | None => forall u w, In (u, w) df -> (t <= u)%Z
  end.
Proof.
  intros df t HD. destruct (last_such _ df) as [[t1 v1] |] eqn:E.
  - apply last_such_Some in E. destruct E as (l1 & l2 & -> & H1 & H2). cbn [fst] in H1. apply Z.ltb_lt in H1.
    split; [apply in_or_app; right; left; reflexivity |]. split; [exact H1 |].
    intros u w Hu Hlt. apply in_app_or in Hu. destruct (sorted_app_inv _ _ HD) as (_ & _ & C).
    destruct Hu as [Hu | [E | Hu]].
    + specialize (C _ _ _ _ Hu (or_introl eq_refl)). lia.
    + injection E; lia.
    + specialize (H2 _ Hu). cbn in H2. apply Z.ltb_ge in H2. lia.
  - rewrite last_such_None in E. intros u w Hu. specialize (E _ Hu). cbn in E. apply Z.ltb_ge in E. lia.
Qed.

Lemma row_after : forall df t, sorted_index df ->
  match find (fun r => (t <? fst r)%Z) df with
  | Some (t2, v2) => In (t2, v2) df /\ (t < t2)%Z /\ forall u w, In (u, w) df -> (t < u)%Z -> (t2 <= u)%Z
  | None => forall u w, In (u, w) df -> (u <= t)%Z
  end.
Proof.
  intros df t HD. destruct (find _ df) as [[t2 v2] |] eqn:E.
  - apply find_split in E. destruct E as (l1 & l2 & -> & H1 & H2). cbn [fst] in H1. apply Z.ltb_lt in H1.
    split; [apply in_or_app; right; left; reflexivity |]. split; [exact H1 |].
    intros u w Hu Hlt. apply in_app_or in Hu. destruct (sorted_app_inv _ _ HD) as (_ & HB & _).
    apply sorted_cons_inv in HB. destruct HB as [_ F]. cbn [fst] in F.
    destruct Hu as [Hu | [E | Hu]].
    + specialize (H2 _ Hu). cbn in H2. apply Z.ltb_ge in H2. lia.
    + injection E; lia.
    + specialize (F _ _ Hu). lia.
  - intros u w Hu. apply (find_none _ _ E) in Hu. cbn in Hu. apply Z.ltb_ge in Hu. lia.
Qed.

Lemma lin_chord : forall t1 v1 t2 v2 t, (t1 < t2)%Z ->
  lin t1 (Fin v1) t2 (Fin v2) t = Fin (on_chord t1 v1 t2 v2 t).
Proof.
  intros t1 v1 t2 v2 t H. unfold lin, on_chord, fz, fsub, fneg, fadd, fdiv.
  assert (qz (t2 - t1) <> 0) as N by (apply qz_neq0; lia).
  destruct (qeq (qz (t2 - t1)) 0) eqn:E; [qb; contradiction |]. cbn [fmul]. f_equal. field. exact N.
Qed.

Lemma avail_fin : forall s t v, noinf (vals s) -> In (t, v) (available s) -> exists q, v = Fin q /\ In (t, Fin q) s.
Proof.
  intros s t v HI H. apply available_In in H. destruct H as [H N].
  assert (In v (vals s)) as Hv by (apply in_map_iff; exists (t, v); auto).
  destruct (HI v Hv) as [A B]. destruct v as [| | q |]; try congruence. eauto.
Qed.

Lemma avail_of_fin : forall s t q, In (t, Fin q) s -> In (t, Fin q) (available s).
Proof. intros s t q H. apply available_In. split; [exact H | discriminate]. Qed.

(** The gap limit used. *)
Definition limit_is (s : series) (m : option Qc) (limit : Qc) : Prop := gap_limit (available s) m = Fin limit.

Lemma interpolate_spec : forall s target m limit, sorted_index s -> noinf (vals s) ->
  limit_is s m limit -> 0 <= limit ->
  times (interpolate_series s target m) = target /\
  forall t v, In (t, v) (interpolate_series s target m) -> interp s limit t v.
Proof.
  intros s target m limit HS HI HL H0. rewrite interpolate_series_unfold by exact HS. split.
  { unfold times. rewrite map_map. apply map_id. }
  intros t v Hv. apply in_map_iff in Hv. destruct Hv as (t' & E & Ht). injection E as -> <-.
  unfold limit_is in HL.
  assert (fle (fz 0) (gap_limit (available s) m) = true) as HL0 by (rewrite HL; cbn; apply qle_spec; exact H0).
  rewrite out_at by assumption.
  pose proof (available_sorted s HS) as HD. set (df := available s) in *.
  destruct (lookup_cases df t) as [(w & Hw & Ew) | [Hn En]].
  - rewrite (gap_self s t w Hw), HL0, Ew. destruct (avail_fin _ _ _ HI Hw) as (q & -> & Hq). cbn [isnan].
    apply interp_point. exact Hq.
  - rewrite En. cbn [isnan]. unfold interp_at.
    pose proof (row_before df t HD) as RB. pose proof (row_after df t HD) as RA.
    assert (forall u w, In (u, w) df -> u <> t) as NE.
    { intros u w Hu ->. apply Hn. apply in_map_iff. exists (t, w). auto. }
    destruct (last_such _ df) as [[t1 v1] |].
    + destruct RB as (B1 & B2 & B3). destruct (find _ df) as [[t2 v2] |].
      * destruct RA as (A1 & A2 & A3).
        assert (forall u w, In (u, w) df -> (u <= t1 \/ t2 <= u)%Z) as HN.
        { intros u w Hu. destruct (Z.lt_total u t) as [L | [L | L]]; [left; eauto | | right; eauto].
          exfalso. exact (NE _ _ Hu L). }
        rewrite (gap_before s HS t1 v1 t2 v2 t B1 A1 (conj B2 A2) HN), HL.
        destruct (avail_fin _ _ _ HI B1) as (q1 & -> & Q1). destruct (avail_fin _ _ _ HI A1) as (q2 & -> & Q2).
        assert (bracket s t1 q1 t2 q2 t) as BR.
        { split; [exact Q1 |]. split; [exact Q2 |]. split; [lia |]. intros u w Hu. apply (HN u (Fin w)), avail_of_fin, Hu. }
        cbn [fle fz]. destruct (qle (qz (t2 - t1)) limit) eqn:Q; qb.
        -- rewrite lin_chord by lia. eapply interp_between; eassumption.
        -- eapply interp_gap; eassumption.
      * assert (forall u w, In (u, w) df -> (u < t)%Z) as HA.
        { intros u w Hu. specialize (RA _ _ Hu). specialize (NE _ _ Hu). lia. }
        rewrite (gap_after s t HA). cbn [fle]. apply interp_after. intros u w Hu. apply (HA u (Fin w)), avail_of_fin, Hu.
    + assert (interp s limit t NaN) as K.
      { apply interp_before. intros u w Hu. apply avail_of_fin in Hu. specialize (RB _ _ Hu). specialize (NE _ _ Hu). lia. }
      destruct (fle (gap_at s t) _); exact K.
Qed.

(** Without a usable limit nothing is reported. *)
Lemma interpolate_no_limit : forall s target m, sorted_index s ->
  (gap_limit (available s) m = NaN \/ exists l, gap_limit (available s) m = Fin l /\ l < 0) ->
  interpolate_series s target m = map (fun t => (t, NaN)) target.
Proof.
  intros s target m HS HL. rewrite interpolate_series_unfold by exact HS.
  apply map_ext_in. intros t Ht. f_equal. refine (proj2 (no_limit s target m _ t Ht)).
  destruct HL as [-> | (l & -> & Hl)]; [reflexivity |]. cbn. apply qle_false. exact Hl.
Qed.

(** ** The specification determines the value *)

Lemma interp_unique : forall s limit t v w, sorted_index s -> interp s limit t v -> interp s limit t w -> v = w.
Proof.
  assert (forall s t q t1 v1 t2 v2, In (t, Fin q) s -> bracket s t1 v1 t2 v2 t -> False) as PB.
  { intros s t q t1 v1 t2 v2 H (_ & _ & Ht & HN). specialize (HN _ _ H). lia. }
  assert (forall s t t1 v1 t2 v2, bracket s t1 v1 t2 v2 t -> (forall u w, In (u, Fin w) s -> (t < u)%Z) -> False) as BB.
  { intros s t t1 v1 t2 v2 (H & _ & Ht & _) K. specialize (K _ _ H). lia. }
  assert (forall s t t1 v1 t2 v2, bracket s t1 v1 t2 v2 t -> (forall u w, In (u, Fin w) s -> (u < t)%Z) -> False) as BA.
  { intros s t t1 v1 t2 v2 (_ & H & Ht & _) K. specialize (K _ _ H). lia. }
  assert (forall s t t1 v1 t2 v2 u1 w1 u2 w2, sorted_index s -> bracket s t1 v1 t2 v2 t -> bracket s u1 w1 u2 w2 t ->
    t1 = u1 /\ v1 = w1 /\ t2 = u2 /\ v2 = w2) as BU.
  { intros s t t1 v1 t2 v2 u1 w1 u2 w2 HS (A1 & A2 & A3 & A4) (B1 & B2 & B3 & B4).
    pose proof (A4 _ _ B1). pose proof (A4 _ _ B2). pose proof (B4 _ _ A1). pose proof (B4 _ _ A2).
    assert (t1 = u1) as -> by lia. assert (t2 = u2) as -> by lia.
    pose proof (sorted_fun _ _ _ _ HS A1 B1) as E1. pose proof (sorted_fun _ _ _ _ HS A2 B2) as E2.
    injection E1 as ->. injection E2 as ->. auto. }
  intros s limit t v w HS Hv Hw.
  destruct Hv as [q Hq | t1 v1 t2 v2 Hb Hl | t1 v1 t2 v2 Hb Hl | Hb | Hb];
    destruct Hw as [q' Hq' | u1 w1 u2 w2 Hb' Hl' | u1 w1 u2 w2 Hb' Hl' | Hb' | Hb']; try reflexivity;
    try (exfalso; eauto; fail).
  - exact (sorted_fun _ _ _ _ HS Hq Hq').
  - specialize (Hb' _ _ Hq). lia.
  - specialize (Hb' _ _ Hq). lia.
  - destruct (BU _ _ _ _ _ _ _ _ _ _ HS Hb Hb') as (-> & -> & -> & ->). reflexivity.
  - exfalso. destruct (BU _ _ _ _ _ _ _ _ _ _ HS Hb Hb') as (-> & -> & -> & ->). qlra.
  - exfalso. destruct (BU _ _ _ _ _ _ _ _ _ _ HS Hb Hb') as (-> & -> & -> & ->). qlra.
  - specialize (Hb _ _ Hq'). lia.
  - specialize (Hb _ _ Hq'). lia.
Qed.

(** ** The default limit *)

Lemma steps_gaps : forall l a, finvals (steps_from a l) = gaps_between (a :: l) /\ noinf (steps_from a l).
Proof.
  induction l as [| b l IH]; intros a; [split; [reflexivity | intros x []] |].
  destruct (IH b) as [E N]. split.
  - cbn [steps_from finvals fz]. rewrite E. reflexivity.
  - intros x [<- | H]; [split; discriminate | apply N, H].
Qed.

Lemma time_diffs_gaps : forall l, finvals (time_diffs l) = gaps_between l /\ noinf (time_diffs l).
Proof.
  intros [| a l]; [split; [reflexivity | intros x []] |]. destruct (steps_gaps l a) as [E N]. split; [exact E |].
  intros x [<- | H]; [split; discriminate | apply N, H].
Qed.

Lemma gaps_positive : forall l x, StronglySorted Z.lt l -> In x (gaps_between l) -> 0 < x.
Proof.
  induction l as [| a [| b l] IH]; intros x HS H; [destruct H | destruct H |].
  apply StronglySorted_inv in HS. destruct HS as [HS F]. destruct H as [<- | H]; [| apply IH; assumption].
  inversion F; subst. apply qz_pos. lia.
Qed.

Lemma limit_for_ok : forall s m limit, limit_for s m limit ->
  (m = None -> (2 <= length (available s))%nat) -> limit_is s m limit.
Proof.
  intros s m limit H HN. unfold limit_is, limit_for, gap_limit in *. destruct m as [m |]; [subst; reflexivity |].
  destruct H as (med & HM & ->). fold (available s) in *. specialize (HN eq_refl).
  destruct (time_diffs_gaps (times (available s))) as [E N].
  assert (gaps_between (times (available s)) <> []) as Hne.
  { destruct (available s) as [| r1 [| r2 l]]; cbn in HN; try lia. discriminate. }
  rewrite fmedian_noinf; [| exact N | rewrite E; exact Hne].
  rewrite E, <- (is_median_unique _ _ Hne HM). reflexivity.
Qed.

Lemma limit_for_nonneg : forall s limit, sorted_index s -> (2 <= length (available s))%nat ->
  limit_for s None limit -> 0 <= limit.
Proof.
  intros s limit HS HN (med & HM & ->). fold (available s) in *.
  assert (gaps_between (times (available s)) <> []) as Hne.
  { destruct (available s) as [| r1 [| r2 l]]; cbn in HN; try lia. discriminate. }
  rewrite (is_median_unique _ _ Hne HM).
  destruct (gaps_between (times (available s))) as [| x0 l0] eqn:E; [congruence |]. rewrite <- E in *.
  assert (exists M, forall x, In x (gaps_between (times (available s))) -> x <= M) as [M HM'].
  { clear. induction (gaps_between (times (available s))) as [| x l [M IH]]; [exists 0; intros x [] |].
    exists (qmax x M). intros y [<- | Hy]; [qb; qcases; qlra |]. eapply Qcle_trans; [apply IH, Hy | qb; qcases; qlra]. }
  destruct (qmedian_bounds (gaps_between (times (available s))) 0 M Hne) as [A _].
  { intros x Hx. split; [| apply HM', Hx]. apply Qclt_le_weak. eapply gaps_positive; [| exact Hx].
    apply available_sorted, HS. }
  apply Qc_mul_nonneg; [apply qz_nonneg; lia | exact A].
Qed.

Lemma default_limit_exists : forall s, (2 <= length (available s))%nat -> exists limit, limit_for s None limit.
Proof.
  intros s HN. assert (gaps_between (times (available s)) <> []) as Hne.
  { destruct (available s) as [| r1 [| r2 l]]; cbn in HN; try lia. discriminate. }
  exists (qz 2 * qmedian (gaps_between (times (available s)))), (qmedian (gaps_between (times (available s)))).
  split; [apply qmedian_spec, Hne | reflexivity].
Qed.

Lemma default_limit_few : forall s, (length (available s) < 2)%nat -> gap_limit (available s) None = NaN.
Proof.
  intros s H. unfold gap_limit. destruct (available s) as [| r1 [| r2 l]]; cbn in H; try lia; reflexivity.
Qed.

(** ** The whole function *)

Lemma interpolate_index_spec : forall tz s target m out limit, sorted_index s -> noinf (vals s) ->
  limit_for s m limit -> (m = None -> (2 <= length (available s))%nat) -> 0 <= limit ->
  interpolate tz tz s (TIndex target) m = Ok out ->
  times out = target /\ forall t v, In (t, v) out -> interp s limit t v.
Proof.
  intros tz s target m out limit HS HI HL HM H0 H. unfold interpolate in H. cbn [target_index bind] in H.
  rewrite xorb_nilpotent in H. injection H as <-. apply interpolate_spec; auto. apply limit_for_ok; auto.
Qed.

Lemma interpolate_freq_spec : forall tz tz' s t0 tn w m, times s <> [] ->
  hd t0 (times s) = t0 -> List.last (times s) t0 = tn -> (0 < w)%Z -> (t0 <= tn)%Z ->
  interpolate tz tz' s (TFreq w) m = interpolate tz tz s (TIndex (date_range t0 tn w)) m /\
  forall t, In t (date_range t0 tn w) <-> exists k, (0 <= k)%Z /\ t = (t0 + w * k)%Z /\ (t <= tn)%Z.
Proof.
  intros tz tz' s t0 tn w m Hne Hh Hl Hw Ht. split.
  - unfold interpolate, target_index. destruct (times s) as [| a l]; [congruence |].
    cbn [hd] in Hh. subst a. rewrite Hl. cbn [bind]. rewrite xorb_nilpotent. reflexivity.
  - intros t. unfold date_range. rewrite in_map_iff.
    pose proof (Z.div_mod (tn - t0) w ltac:(lia)) as D. pose proof (Z.mod_pos_bound (tn - t0) w Hw) as M.
    set (q := ((tn - t0) / w)%Z) in *. assert (0 <= q)%Z by nia. split.
    + intros (k & <- & Hk). apply in_seq in Hk. exists (Z.of_nat k). split; [lia |]. split; [lia |]. nia.
    + intros (k & Hk & -> & Hle). exists (Z.to_nat k). rewrite Z2Nat.id by lia. split; [reflexivity |].
      apply in_seq. assert (k <= q)%Z by nia. lia.
Qed.

(** ** Consequences *)

Lemma available_idem : forall s, available (available s) = available s.
Proof.
  intros s. unfold available. induction s as [| r s IH]; [reflexivity |]. cbn [filter].
  destruct (notnan (snd r)) eqn:E; [cbn [filter]; rewrite E, IH; reflexivity | exact IH].
Qed.

Lemma interpolate_missing : forall s1 s2 target m,
  filter (fun r => notnan (snd r)) s1 = filter (fun r => notnan (snd r)) s2 ->
  interpolate_series s1 target m = interpolate_series s2 target m.
Proof.
  intros s1 s2 target m H. unfold interpolate_series, available. rewrite H. reflexivity.
Qed.

Lemma chord_between : forall t1 v1 t2 v2 t, (t1 < t < t2)%Z ->
  (v1 <= on_chord t1 v1 t2 v2 t /\ on_chord t1 v1 t2 v2 t <= v2) \/
  (v2 <= on_chord t1 v1 t2 v2 t /\ on_chord t1 v1 t2 v2 t <= v1).
Proof.
  intros t1 v1 t2 v2 t Ht. unfold on_chord. set (x := qz (t - t1) / qz (t2 - t1)).
  assert (0 < qz (t2 - t1)) as P by (apply qz_pos; lia).
  assert (0 <= x) as X0 by (apply Qc_le_div; [exact P |]; replace (0 * qz (t2 - t1)) with 0 by ring; apply qz_nonneg; lia).
  assert (x <= 1) as X1 by (apply Qc_div_le; [exact P |]; replace (1 * qz (t2 - t1)) with (qz (t2 - t1)) by ring; apply qz_le_i; lia).
  destruct (Qclt_le_dec' v1 v2) as [L | L].
  - left. assert (0 <= (v2 - v1) * x) by (apply Qc_mul_nonneg; qlra).
    assert (0 <= (v2 - v1) * (1 - x)) by (apply Qc_mul_nonneg; qlra).
    replace ((v2 - v1) * (1 - x)) with (v2 - v1 - (v2 - v1) * x) in * by ring. split; qlra.
  - right. assert (0 <= (v1 - v2) * x) by (apply Qc_mul_nonneg; qlra).
    assert (0 <= (v1 - v2) * (1 - x)) by (apply Qc_mul_nonneg; qlra).
    replace ((v1 - v2) * (1 - x)) with (v1 - v2 + (v2 - v1) * x) in * by ring.
    replace ((v1 - v2) * x) with (- ((v2 - v1) * x)) in * by ring. split; qlra.
Qed.

Lemma interp_bounded : forall s limit t q, interp s limit t (Fin q) ->
  exists t1 v1 t2 v2, In (t1, Fin v1) s /\ In (t2, Fin v2) s /\ (t1 <= t <= t2)%Z /\
    ((v1 <= q /\ q <= v2) \/ (v2 <= q /\ q <= v1)).
Proof.
  intros s limit t q H. inversion H as [q' Hq E | t1 v1 t2 v2 Hb Hl E | | |]; subst.
  - exists t, q, t, q. split; [exact Hq |]. split; [exact Hq |]. split; [lia |]. left. split; apply Qcle_refl.
  - destruct Hb as (H1 & H2 & H3 & _). exists t1, v1, t2, v2. split; [exact H1 |]. split; [exact H2 |].
    split; [lia |]. apply chord_between; exact H3.
Qed.

Lemma interp_wider : forall s l1 l2 t q, l1 <= l2 -> interp s l1 t (Fin q) -> interp s l2 t (Fin q).
Proof.
  intros s l1 l2 t q Hl H. inversion H as [q' Hq E | t1 v1 t2 v2 Hb Hl' E | | |]; subst.
  - apply interp_point, Hq.
  - eapply interp_between; [exact Hb | qlra].
Qed.

Lemma interpolate_self : forall s target m limit t q, sorted_index s -> noinf (vals s) ->
  limit_is s m limit -> 0 <= limit -> In t target -> In (t, Fin q) s ->
  In (t, Fin q) (interpolate_series s target m).
Proof.
  intros s target m limit t q HS HI HL H0 Ht Hq.
  destruct (interpolate_spec s target m limit HS HI HL H0) as [ET HV].
  rewrite <- ET in Ht. apply in_map_iff in Ht. destruct Ht as ([t' v] & <- & Ht). cbn [fst] in *.
  rewrite (interp_unique s limit t' (Fin q) v HS); [exact Ht | apply interp_point, Hq | apply HV, Ht].
Qed.

(** Affine changes of the values. *)
Lemma fmap_In : forall f s t q, In (t, Fin q) (map_values f s) <-> exists p, In (t, Fin p) s /\ q = f p.
Proof.
  intros f s t q. unfold map_values. rewrite in_map_iff. split.
  - intros ([t' v] & E & H). cbn [fst snd] in E. injection E as -> E. destruct v; try discriminate. injection E as <-. eauto.
  - intros (p & H & ->). exists (t, Fin p). auto.
Qed.

Lemma interp_affine : forall a b s limit t v, sorted_index s -> interp s limit t v ->
  interp (map_values (fun q => a * q + b) s) limit t (match v with Fin q => Fin (a * q + b) | e => e end).
Proof.
  intros a b s limit t v HS H. set (f := fun q => a * q + b).
  assert (forall t1 v1 t2 v2, bracket s t1 v1 t2 v2 t -> bracket (map_values f s) t1 (f v1) t2 (f v2) t) as BR.
  { intros t1 v1 t2 v2 (H1 & H2 & H3 & H4). split; [apply fmap_In; eauto |]. split; [apply fmap_In; eauto |].
    split; [exact H3 |]. intros u w Hu. apply fmap_In in Hu. destruct Hu as (p & Hu & _). eauto. }
  inversion H as [q Hq E | t1 v1 t2 v2 Hb Hl E | t1 v1 t2 v2 Hb Hl E | Hb E | Hb E]; subst.
  - apply interp_point, fmap_In. eauto.
  - replace (a * on_chord t1 v1 t2 v2 t + b) with (on_chord t1 (f v1) t2 (f v2) t) by (unfold on_chord, f; ring).
    eapply interp_between; [apply BR, Hb | exact Hl].
  - eapply interp_gap; [apply BR, Hb | exact Hl].
  - apply interp_before. intros u w Hu. apply fmap_In in Hu. destruct Hu as (p & Hu & _). eauto.
  - apply interp_after. intros u w Hu. apply fmap_In in Hu. destruct Hu as (p & Hu & _). eauto.
Qed.

Lemma fmap_times : forall f s, times (map_values f s) = times s.
Proof. intros f s. unfold times, map_values. rewrite map_map. reflexivity. Qed.

Lemma fmap_available : forall f s, available (map_values f s) = map_values f (available s).
Proof.
  intros f s. unfold available, map_values. rewrite filter_map_comm. f_equal. apply filter_ext.
  intros [t v]. destruct v; reflexivity.
Qed.

Lemma interpolate_affine : forall a b s target m limit, sorted_index s -> noinf (vals s) ->
  limit_is s m limit -> 0 <= limit ->
  interpolate_series (map_values (fun q => a * q + b) s) target m =
  map_values (fun q => a * q + b) (interpolate_series s target m).
Proof.
  intros a b s target m limit HS HI HL H0. set (f := fun q => a * q + b).
  assert (sorted_index (map_values f s)) as HS' by (unfold sorted_index; rewrite fmap_times; exact HS).
  assert (noinf (vals (map_values f s))) as HI'.
  { intros x Hx. unfold vals, map_values in Hx. rewrite map_map in Hx. apply in_map_iff in Hx.
    destruct Hx as ([t v] & <- & Hin). cbn. assert (In v (vals s)) as Hv by (apply in_map_iff; exists (t, v); auto).
    destruct (HI v Hv). destruct v; split; congruence. }
  assert (limit_is (map_values f s) m limit) as HL'.
  { unfold limit_is in *. rewrite fmap_available. rewrite <- HL. destruct m; [reflexivity |]. unfold gap_limit.
    rewrite fmap_times. reflexivity. }
  destruct (interpolate_spec _ target m limit HS HI HL H0) as [T1 V1].
  destruct (interpolate_spec _ target m limit HS' HI' HL' H0) as [T2 V2].
  set (o1 := interpolate_series s target m) in *. set (o2 := interpolate_series (map_values f s) target m) in *.
  assert (forall t, In t target -> exists v1 v2, In (t, v1) o1 /\ In (t, v2) o2 /\ v2 = match v1 with Fin q => Fin (f q) | e => e end) as K.
  { intros t Ht. pose proof Ht as Ht'. rewrite <- T1 in Ht. rewrite <- T2 in Ht'.
    apply in_map_iff in Ht. destruct Ht as ([t1 v1] & <- & A). apply in_map_iff in Ht'. destruct Ht' as ([t2 v2] & E & B).
    cbn [fst] in *. subst t2. exists v1, v2. split; [exact A |]. split; [exact B |].
    eapply (interp_unique _ limit t1 v2); [exact HS' | apply V2, B |]. apply interp_affine; [exact HS | apply V1, A]. }
  assert (exists F, o1 = map (fun t => (t, F t)) target) as [F1 E1] by (eexists; reflexivity).
  assert (exists F, o2 = map (fun t => (t, F t)) target) as [F2 E2] by (eexists; reflexivity).
  rewrite E1, E2 in *. clearbody o1 o2. clear E1 E2. unfold map_values. rewrite map_map.
  apply map_ext_in. intros t Ht. cbn [fst snd]. f_equal.
  destruct (K t Ht) as (v1 & v2 & A & B & E).
  apply in_map_iff in A. destruct A as (x & A & _). injection A as -> A.
  apply in_map_iff in B. destruct B as (y & B & _). injection B as -> B. rewrite A, B, E. destruct v1; reflexivity.
Qed.

Lemma interpolate_same : forall tz tz' s1 s2 target m,
  filter (fun r => notnan (snd r)) s1 = filter (fun r => notnan (snd r)) s2 ->
  interpolate tz tz' s1 (TIndex target) m = interpolate tz tz' s2 (TIndex target) m.
Proof.
  intros tz tz' s1 s2 target m H. unfold interpolate. cbn [target_index bind].
  rewrite (interpolate_missing s1 s2 target m H). reflexivity.
Qed.

Lemma interpolate_between : forall tz s target m out limit t q, sorted_index s -> noinf (vals s) ->
  limit_for s m limit -> (m = None -> (2 <= length (filter (fun r => notnan (snd r)) s))%nat) -> 0 <= limit ->
  interpolate tz tz s (TIndex target) m = Ok out -> In (t, Fin q) out ->
  exists t1 v1 t2 v2, In (t1, Fin v1) s /\ In (t2, Fin v2) s /\ (t1 <= t <= t2)%Z /\
    ((v1 <= q /\ q <= v2) \/ (v2 <= q /\ q <= v1)).
Proof.
  intros tz s target m out limit t q HS HI HL HM H0 H Hin.
  destruct (interpolate_index_spec tz s target m out limit HS HI HL HM H0 H) as [_ V].
  eapply interp_bounded. apply V, Hin.
Qed.

Lemma interpolate_onto_itself : forall tz s m out limit, sorted_index s -> noinf (vals s) ->
  limit_for s m limit -> (m = None -> (2 <= length (filter (fun r => notnan (snd r)) s))%nat) -> 0 <= limit ->
  (forall v, In v (vals s) -> v <> NaN) ->
  interpolate tz tz s (TIndex (times s)) m = Ok out -> out = s.
Proof.
  intros tz s m out limit HS HI HL HM H0 HV H.
  destruct (interpolate_index_spec tz s _ m out limit HS HI HL HM H0 H) as [T V].
  assert (forall r, In r out -> In r s) as Hsub.
  { intros [t v] Hr. assert (In t (times s)) as Ht by (rewrite <- T; apply in_map_iff; exists (t, v); auto).
    apply in_map_iff in Ht. destruct Ht as ([t' w] & <- & Hw). cbn [fst] in *.
    assert (In w (vals s)) as Hwv by (apply in_map_iff; exists (t', w); auto).
    specialize (HV w Hwv). destruct (HI w Hwv). destruct w as [| | q |]; try congruence.
    rewrite (interp_unique s limit t' v (Fin q) HS); [exact Hw | apply V, Hr | apply interp_point, Hw]. }
  assert (sorted_index out) as HO by (unfold sorted_index; rewrite T; exact HS).
  clear - HS HO T Hsub. revert s HS T Hsub. induction out as [| [t v] out IH]; intros s HS T Hsub.
  - destruct s; [reflexivity | discriminate].
  - destruct s as [| [t' v'] s]; [discriminate |]. cbn in T.
    assert (t = t') as -> by (exact (f_equal (hd 0%Z) T)).
    assert (times out = times s) as T' by (exact (f_equal (@tl Z) T)).
    assert (v = v') as ->.
    { apply (sorted_fun ((t', v') :: s) t'); [exact HS | apply Hsub; left; reflexivity | left; reflexivity]. }
    f_equal. apply sorted_cons_inv in HS. apply sorted_cons_inv in HO. destruct HS as [HS _], HO as [HO F].
    apply IH; auto. intros [u w] Hu. destruct (Hsub _ (or_intror Hu)) as [E | K]; [| exact K].
    specialize (F _ _ Hu). injection E as -> _. cbn in F. lia.
Qed.

Lemma interpolate_values_affine : forall tz a b s target m out limit, sorted_index s -> noinf (vals s) ->
  limit_for s m limit -> (m = None -> (2 <= length (filter (fun r => notnan (snd r)) s))%nat) -> 0 <= limit ->
  interpolate tz tz s (TIndex target) m = Ok out ->
  interpolate tz tz (map_values (fun q => a * q + b) s) (TIndex target) m =
    Ok (map_values (fun q => a * q + b) out).
Proof.
  intros tz a b s target m out limit HS HI HL HM H0 H. unfold interpolate in *. cbn [target_index bind] in *.
  rewrite xorb_nilpotent in *. injection H as <-. f_equal. eapply interpolate_affine; eauto.
  apply limit_for_ok; auto.
Qed.

Lemma interpolate_grow : forall tz s target m1 m2 out1 out2 t q, sorted_index s -> noinf (vals s) ->
  0 <= m1 -> m1 <= m2 ->
  interpolate tz tz s (TIndex target) (Some m1) = Ok out1 ->
  interpolate tz tz s (TIndex target) (Some m2) = Ok out2 ->
  In (t, Fin q) out1 -> In (t, Fin q) out2.
Proof.
  intros tz s target m1 m2 out1 out2 t q HS HI H0 H12 A B Hin.
  destruct (interpolate_index_spec tz s target (Some m1) out1 m1 HS HI eq_refl ltac:(discriminate) H0 A) as [TA VA].
  destruct (interpolate_index_spec tz s target (Some m2) out2 m2 HS HI eq_refl ltac:(discriminate) ltac:(qlra) B) as [TB VB].
  assert (In t (times out2)) as Ht by (rewrite TB, <- TA; apply in_map_iff; exists (t, Fin q); auto).
  apply in_map_iff in Ht. destruct Ht as ([t' v] & <- & Hv). cbn [fst] in *.
  rewrite (interp_unique s m2 t' (Fin q) v HS); [exact Hv | | apply VB, Hv].
  eapply interp_wider; [exact H12 | apply VA, Hin].
Qed.

Lemma interpolate_default_few : forall tz s target out, sorted_index s -> noinf (vals s) ->
  (length (filter (fun r => notnan (snd r)) s) < 2)%nat ->
  interpolate tz tz s (TIndex target) None = Ok out ->
  out = map (fun t => (t, NaN)) target.
Proof.
  intros tz s target out HS HI HL H. unfold interpolate in H. cbn [target_index bind] in H.
  rewrite xorb_nilpotent in H. injection H as <-. pose proof (default_limit_few s HL) as E.
  apply interpolate_no_limit; auto.
Qed.

Lemma interpolate_negative : forall tz s target m out, sorted_index s -> m < 0 ->
  interpolate tz tz s (TIndex target) (Some m) = Ok out -> out = map (fun t => (t, NaN)) target.
Proof.
  intros tz s target m out HS Hm H. unfold interpolate in H. cbn [target_index bind] in H.
  rewrite xorb_nilpotent in H. injection H as <-. apply interpolate_no_limit; [exact HS |]. right. exists m. auto.
Qed.

Lemma interpolate_errors : forall s target m w tz tz',
  interpolate true false s (TIndex target) m = Raise ValueError /\
  interpolate false true s (TIndex target) m = Raise ValueError /\
  interpolate tz tz' s TOther m = Raise UnboundLocalError /\
  interpolate tz tz' [] (TFreq w) m = Raise ValueError.
Proof. intros. repeat split; reflexivity. Qed.

Lemma interpolate_frame_columns : forall tz tz' index cols target m outs,
  interpolate_frame tz tz' index cols target m = Ok outs ->
  Forall (fun c => length c = length index) cols ->
  cols <> [] /\ length outs = length cols /\
  forall k c, nth_error cols k = Some c ->
    exists o, nth_error outs k = Some o /\ interpolate tz tz' (combine index c) target m = Ok o.
Proof.
  intros tz tz' index cols target m outs H HF. unfold interpolate_frame in H.
  destruct (target_index index target) as [idx | e] eqn:E; cbn [bind] in H; [| discriminate].
  destruct (xorb tz _) eqn:X; [discriminate |]. destruct cols as [| c0 cols]; [discriminate |].
  split; [discriminate |].
  assert (outs = map (fun c => interpolate_series (combine index c) idx m) (c0 :: cols)) as -> by congruence.
  split; [apply map_length |].
  intros k c Hk. exists (interpolate_series (combine index c) idx m). split.
  - rewrite nth_error_map, Hk. reflexivity.
  - unfold interpolate. assert (times (combine index c) = index) as ->.
    { apply combine_times. rewrite Forall_forall in HF. apply HF. eapply nth_error_In, Hk. }
    rewrite E. cbn [bind]. rewrite X. reflexivity.
Qed.
