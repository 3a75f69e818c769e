(** The post-processing of the learned clipping filter. *)

From Coq Require Import QArith Qcanon List ZArith Bool Arith Lia Sorted.
From Verif.Base Require Import QcExtra ISort Quantile Fl TimeSeries Calendar Rolling.
From Verif.Model Require Import Utilities Interpolation Normalization Clipping.
From Verif.Spec Require Import Stats Filters Normalization Clipping.
From Verif.Proofs Require Import StatsP FlP InterpP EnergyP2 FiltersP NormP2 NormP4 ClipP ClipP2 ClipP3.
Import ListNotations.
Open Scope Qc_scope.

Lemma nth_error_ext : forall A (a b : list A), (forall i, nth_error a i = nth_error b i) -> a = b.
Proof.
  intros A a. induction a as [| x a IH]; intros [| y b] H; [reflexivity | discriminate (H 0%nat) | discriminate (H 0%nat) |].
  pose proof (H 0%nat) as E. cbn in E. injection E as ->. f_equal. apply IH. intros i. exact (H (S i)).
Qed.

(** ** Scaled values *)

Lemma scaled_rows : forall s lo hi, is_min (finvals (vals s)) lo -> is_max (finvals (vals s)) hi -> lo < hi -> noinf (vals s) ->
  combine (times s) (scaled (vals s)) = map (fun r => (fst r, position lo hi (snd r))) s.
Proof.
  intros s lo hi Hlo Hhi HL HI. unfold scaled.
  destruct (fminimum_spec (vals s) HI) as [[E _] | (lo' & Hlo' & ->)]; [destruct Hlo as [K _]; rewrite E in K; destruct K |].
  destruct (fmaximum_spec (vals s) HI) as [[E _] | (hi' & Hhi' & ->)]; [destruct Hlo as [K _]; rewrite E in K; destruct K |].
  rewrite (is_min_unique _ _ _ Hlo' Hlo), (is_max_unique _ _ _ Hhi' Hhi). cbn [fsub fneg fadd].
  assert (hi + - lo <> 0) as Hd by (intros K; apply (Qclt_not_le _ _ HL); qlra).
  assert (qeq (hi + - lo) 0 = false) as E0 by (apply qeq_false; exact Hd).
  assert (forall l : series, noinf (vals l) -> combine (times l) (map (fun x => fdiv (fsub x (Fin lo)) (Fin (hi + - lo))) (vals l)) =
            map (fun r => (fst r, position lo hi (snd r))) l) as X.
  { induction l as [| [t v] l IH]; intros H; [reflexivity |]. cbn [times vals map combine fst snd]. cbn [vals map snd] in H. apply noinf_cons in H. destruct H as [Hv H].
    f_equal; [| apply IH, H]. f_equal. destruct Hv as [-> | [q ->]]; [reflexivity |]. cbn [fsub fneg fadd position]. unfold fdiv. rewrite E0. reflexivity. }
  apply X, HI.
Qed.

(** A series without two different values has no positions at all. *)
Lemma scaled_flat : forall s, (forall lo hi, is_min (finvals (vals s)) lo -> is_max (finvals (vals s)) hi -> ~ lo < hi) -> noinf (vals s) ->
  combine (times s) (scaled (vals s)) = map (fun r => (fst r, NaN)) s.
Proof.
  intros s HF HI. unfold scaled.
  assert (forall d (l : series), (forall v, In v (vals l) -> fdiv (fsub v (fminimum (vals s))) d = NaN) ->
     combine (times l) (map (fun x => fdiv (fsub x (fminimum (vals s))) d) (vals l)) = map (fun r => (fst r, NaN)) l) as X.
  { intros d. induction l as [| [t v] l IH]; intros H; [reflexivity |]. cbn [times vals map combine fst snd]. f_equal.
    - f_equal. apply H. left. reflexivity.
    - apply IH. intros w Hw. apply H. right. exact Hw. }
  apply X. intros v Hv. destruct (fminimum_spec (vals s) HI) as [[E ->] | (lo & Hlo & ->)]; [destruct v; reflexivity |].
  destruct (fmaximum_spec (vals s) HI) as [[E _] | (hi & Hhi & ->)]; [destruct Hlo as [K _]; rewrite E in K; destruct K |].
  assert (hi = lo) as -> by (apply Qcle_antisym; [apply Qcnot_lt_le, (HF lo hi Hlo Hhi) | apply Hlo, Hhi]).
  destruct (HI v Hv). destruct v as [| | q |]; try congruence; [reflexivity |].
  assert (q = lo) as ->.
  { assert (In q (finvals (vals s))) as Kq by (apply finvals_In; exact Hv). apply Qcle_antisym; [apply Hhi | apply Hlo]; exact Kq. }
  cbn [fsub fneg fadd]. replace (lo + - lo) with 0 by ring. reflexivity.
Qed.

(** ** Levels *)

Lemma on_day_filter_without : forall (s : series) (p : Z -> bool) (f : series) t, map fst s = map fst f ->
  (forall i u v w, nth_error s i = Some (u, v) -> nth_error f i = Some (u, w) -> w = if p u then v else NaN) ->
  finvals (on_day t (filter (fun r => p (fst r)) s)) = finvals (on_day t f).
Proof.
  intros s p. induction s as [| [u v] s IH]; intros f t ET H; destruct f as [| [u' w] f]; try discriminate; [reflexivity |].
  cbn [map fst] in ET. injection ET as <- ET.
  assert (w = if p u then v else NaN) as -> by (apply (H 0%nat u v w); reflexivity).
  assert (finvals (on_day t (filter (fun r => p (fst r)) s)) = finvals (on_day t f)) as IH'.
  { apply IH; [exact ET |]. intros i. apply (H (S i)). }
  unfold on_day in *. cbn [filter fst]. destruct (p u); cbn [filter fst]; destruct (u / ns_day =? t / ns_day)%Z; cbn [vals map snd finvals].
  - destruct v; cbn [finvals]; [exact IH' | exact IH' | f_equal; exact IH' | exact IH'].
  - exact IH'.
  - exact IH'.
  - exact IH'.
Qed.

Lemma on_day_empty_pair : forall t, on_day t [] = [].
Proof. reflexivity. Qed.

Section Post.
  Variable s : series.
  Variable P : list (Z * bool).
  Variables lo hi : Qc.
  Hypothesis HS : sorted_index s.
  Hypothesis HI : noinf (vals s).
  Hypothesis HP : StronglySorted Z.lt (map fst P).
  Hypothesis Hlo : is_min (finvals (vals s)) lo.
  Hypothesis Hhi : is_max (finvals (vals s)) hi.
  Hypothesis HL : lo < hi.

  Let sv := map (fun r : Z * fl => (fst r, position lo hi (snd r))) s.
  Let f := detected_power P sv.
  Let C := filter (fun r => last_at false P (fst r)) sv.

  Lemma sv_times : times sv = times s.
  Proof. unfold sv, times. rewrite map_map. reflexivity. Qed.
  Lemma sv_sorted : sorted_index sv.
  Proof. unfold sorted_index. rewrite sv_times. exact HS. Qed.
  Lemma sv_noinf : noinf (vals sv).
  Proof.
    intros x Hx. unfold sv, vals in Hx. rewrite map_map in Hx. apply in_map_iff in Hx. destruct Hx as ([t v] & <- & _). cbn [snd position].
    destruct v; split; discriminate.
  Qed.
  Lemma C_sorted : sorted_index C.
  Proof. apply sorted_filter, sv_sorted. Qed.
  Lemma C_noinf : noinf (vals C).
  Proof.
    intros x Hx. apply sv_noinf. unfold C, vals in Hx. apply in_map_iff in Hx. destruct Hx as (r & <- & Hr). apply filter_In in Hr. apply in_map, Hr.
  Qed.

  Lemma last_true : forall u, last_at false P u = true <-> latest P u true.
  Proof.
    intros u. destruct (last_at_latest _ false P u HP) as [H | [H E]].
    - split; intros K; [rewrite <- K; exact H |]. exact (latest_unique _ _ _ _ _ H K).
    - rewrite E. split; [discriminate |]. intros (i & w & Hn & Hle & _). apply nth_error_In in Hn. specialize (H _ _ Hn). lia.
  Qed.

  Lemma C_In : forall u, (exists w, In (u, w) C) <-> (exists v, In (u, v) s) /\ latest P u true.
  Proof.
    intros u. unfold C. split.
    - intros [w Hw]. apply filter_In in Hw. destruct Hw as [Hw K]. cbn [fst] in K. apply last_true in K. split; [| exact K].
      unfold sv in Hw. apply in_map_iff in Hw. destruct Hw as ([u' v] & [= -> _] & Hv). exists v. exact Hv.
    - intros [[v Hv] K]. exists (position lo hi v). apply filter_In. split; [| apply last_true, K]. unfold sv. apply in_map_iff. exists (u, v). auto.
  Qed.

  Lemma C_values : forall t, finvals (on_day t C) = finvals (on_day t f).
  Proof.
    intros t. unfold C, f. apply on_day_filter_without.
    - unfold detected_power. rewrite map_map. reflexivity.
    - intros i u v w H1 H2. unfold detected_power in H2. rewrite nth_error_map_some, H1 in H2. cbn [fst snd] in H2. congruence.
  Qed.

  (** The extreme of the predicted rows of the level day. *)
  Lemma level_at : forall agg (good : list Qc -> Qc -> Prop) t v,
    (forall l, noinf l -> (finvals l = [] /\ agg l = NaN) \/ exists e, good (finvals l) e /\ agg l = Fin e) ->
    (forall e, ~ good [] e) -> (forall l a b, good l a -> good l b -> a = b) -> In (t, v) s ->
    (last_at NaN (resample_agg agg ns_day C) t = NaN /\ forall t' e, level_day P s t t' -> ~ good (finvals (on_day t' f)) e) \/
    (exists e, last_at NaN (resample_agg agg ns_day C) t = Fin e /\
       (exists t', level_day P s t t' /\ good (finvals (on_day t' f)) e) /\
       forall t' e', level_day P s t t' -> good (finvals (on_day t' f)) e' -> e' = e).
  Proof.
    intros agg good t v Hagg Hnil Huniq Hin. pose proof ns_day_pos as PD.
    destruct C as [| r0 C0] eqn:EC.
    - left. split; [reflexivity |]. intros t' e HD. exfalso.
      assert (exists u w, In (u, w) s /\ latest P u true) as (u & w & Hu & Hl).
      { destruct HD as [(_ & u & w & H1 & H2 & _) | (w & H1 & H2 & _)]; eauto. }
      assert (exists w', In (u, w') C) as [w' K] by (apply C_In; eauto). rewrite EC in K. destruct K.
    - rewrite <- EC. assert (C <> []) as Hne by (rewrite EC; discriminate).
      destruct (daily_at _ NaN agg C t C_sorted Hne) as (t0 & t1 & E0 & E1 & ->).
      assert (exists w1, In (t1, w1) C) as [w1 H1].
      { assert (In t1 (times C)) as K.
        { apply in_rev. destruct (rev (times C)) as [| a l]; [discriminate |]. cbn in E1. injection E1 as ->. left. reflexivity. }
        apply in_map_iff in K. destruct K as ([u w] & <- & K). eauto. }
      assert (exists w0, In (t0, w0) C) as [w0 H0].
      { assert (In t0 (times C)) as K by (destruct (times C) as [| a l]; [discriminate |]; cbn in E0; injection E0 as ->; left; reflexivity).
        apply in_map_iff in K. destruct K as ([u w] & <- & K). eauto. }
      assert (forall u w, In (u, w) C -> (t0 <= u <= t1)%Z) as HB.
      { intros u w Hu. pose proof C_sorted as CS. rewrite EC in Hu, CS, E0, E1. destruct r0 as [a va]. pose proof (sorted_last C0 a va u w CS Hu) as L.
        cbn in E0. injection E0 as <-. rewrite (hd_rev_last _ a) in E1 by discriminate. rewrite last_fst in L. cbn [fst] in L.
        assert (t1 = List.last (times ((a, va) :: C0)) a) as -> by congruence. exact L. }
      assert (exists v1, In (t1, v1) s) as [v1 Hv1] by (apply C_In; eauto).
      assert (latest P t1 true) as Hl1 by (apply C_In; eauto).
      assert (forall u w, In (u, w) s -> latest P u true -> (t0 <= u <= t1)%Z) as HB'.
      { intros u w Hu Hl. assert (exists w', In (u, w') C) as [w' K] by (apply C_In; eauto). eapply HB; eauto. }
      set (tt' := if (t1 / ns_day <? t / ns_day)%Z then t1 else t).
      assert (level_day P s t tt') as HD.
      { unfold tt'. destruct (t1 / ns_day <? t / ns_day)%Z eqn:E.
        - apply Z.ltb_lt in E. right. exists v1. split; [exact Hv1 |]. split; [exact Hl1 |]. split; [exact E |]. intros u w Hu Hl. specialize (HB' u w Hu Hl). lia.
        - apply Z.ltb_ge in E. left. split; [reflexivity |]. exists t1, v1. auto. }
      assert (forall t', level_day P s t t' -> on_day t' f = on_day tt' f) as HU.
      { intros t' HD'. assert (t' / ns_day = tt' / ns_day)%Z as ED; [| unfold on_day; rewrite ED; reflexivity].
        unfold tt'. destruct (t1 / ns_day <? t / ns_day)%Z eqn:E.
        - apply Z.ltb_lt in E. destruct HD' as [(_ & u & w & Hu & Hl & Hle) | (w & Hu & Hl & Hlt & Hmax)].
          + specialize (HB' u w Hu Hl). assert (u / ns_day <= t1 / ns_day)%Z by (apply Z.div_le_mono; lia). lia.
          + specialize (Hmax t1 v1 Hv1 Hl1). specialize (HB' t' w Hu Hl). f_equal. lia.
        - apply Z.ltb_ge in E. destruct HD' as [(-> & _) | (w & Hu & Hl & Hlt & Hmax)]; [reflexivity |].
          specialize (Hmax t1 v1 Hv1 Hl1). specialize (HB' t' w Hu Hl). assert (t' = t1) as -> by lia. lia. }
      destruct (t / ns_day <? t0 / ns_day)%Z eqn:Eb.
      + left. split; [reflexivity |]. intros t' e HD' K. rewrite (HU t' HD'), <- C_values in K.
        assert (on_day tt' C = []) as Em; [| rewrite Em in K; exact (Hnil e K)].
        apply Z.ltb_lt in Eb. unfold tt'. assert (t0 / ns_day <= t1 / ns_day)%Z by (apply Z.div_le_mono; [exact PD | apply (HB t1 w1 H1)]).
        destruct (t1 / ns_day <? t / ns_day)%Z eqn:E; [apply Z.ltb_lt in E; lia |].
        unfold on_day. rewrite filter_none; [reflexivity |]. intros [u w] Hu. cbn [fst]. apply Z.eqb_neq. specialize (HB u w Hu).
        assert (t0 / ns_day <= u / ns_day)%Z by (apply Z.div_le_mono; lia). lia.
      + destruct (Hagg (on_day tt' C) (on_day_noinf tt' C C_noinf)) as [[Ee ->] | (e & Hg & ->)].
        * left. split; [reflexivity |]. intros t' e HD' K. rewrite (HU t' HD'), <- C_values, Ee in K. exact (Hnil e K).
        * right. exists e. split; [reflexivity |]. split.
          -- exists tt'. split; [exact HD |]. rewrite <- C_values. exact Hg.
          -- intros t' e' HD' K. rewrite (HU t' HD'), <- C_values in K. exact (Huniq _ _ _ K Hg).
  Qed.

  Lemma post_row : forall fine t v, In (t, v) s -> 
    let x := position lo hi v in
    let top := last_at NaN (resample_agg fmaximum ns_day C) t in
    let bottom := last_at NaN (resample_agg fminimum ns_day C) t in
    let percent := fdiv x (fadd (last_at NaN (resample_agg fmaximum ns_day sv) t) (ff 1 100000)) in
    (if fine : bool
     then fle (fmax2 bottom (fmul top (ff 96 100))) x && fge percent (ff 9 10) && fle x (fmul top (ff 10025 10000)) && fge x (ff 1 10)
     else fle bottom x && fge percent (ff 95 100) && fle x (fmul top (ff 10025 10000)) && fge x (ff 1 10)) = true <->
    learned_clipped fine P s t v.
  Proof.
    intros fine t v Hin x top bottom percent.
    assert (v = NaN \/ exists q, v = Fin q) as Hv.
    { assert (In v (vals s)) as K by (apply in_map_iff; exists (t, v); auto). destruct (HI v K). destruct v; eauto; congruence. }
    destruct Hv as [-> | [q ->]].
    { split; [| intros (x' & ? & ? & ? & ? & ? & ? & ? & K & _); discriminate]. intros H. exfalso.
      assert (fge x (ff 1 10) = false) as K by reflexivity. rewrite K, !andb_false_r in H. destruct fine; discriminate. }
    set (z := (q - lo) / (hi - lo)). assert (x = Fin z) as Ex by reflexivity. rewrite Ex.
    assert (In (t, Fin z) sv) as Hz by (unfold sv; apply in_map_iff; exists (t, Fin q); auto).
    assert (exists dm, is_max (finvals (on_day t sv)) dm /\ last_at NaN (resample_agg fmaximum ns_day sv) t = Fin dm) as (dm & Hdm & Edm).
    { rewrite (daily_own _ NaN fmaximum sv t _ sv_sorted Hz). destruct (fmaximum_spec _ (on_day_noinf t sv sv_noinf)) as [[E _] | (dm & H & ->)]; [| eauto].
      exfalso. assert (In z (finvals (on_day t sv))) as K by (apply finvals_In, on_day_In, Hz). rewrite E in K. destruct K. }
    assert (z <= dm) as Hzd by (apply Hdm, finvals_In, on_day_In, Hz).
    assert (without (fun u _ => ~ latest P u true) sv f) as HW by (apply detected_without, HP).
    (* any admissible f has the same values *)
    assert (forall lo' hi' f', is_min (finvals (vals s)) lo' -> is_max (finvals (vals s)) hi' ->
      without (fun u _ => ~ latest P u true) (map (fun r => (fst r, position lo' hi' (snd r))) s) f' -> lo' = lo /\ hi' = hi /\ f' = f) as HU.
    { intros lo' hi' f' H1 H2 H3. rewrite (is_min_unique _ _ _ H1 Hlo), (is_max_unique _ _ _ H2 Hhi) in *. fold sv in H3. split; [reflexivity |]. split; [reflexivity |].
      destruct H3 as [T3 V3]. destruct HW as [T4 V4]. apply nth_error_ext. intros i. destruct (nth_error sv i) as [[u w] |] eqn:E.
      - assert (forall g : series, times g = times sv -> exists y, nth_error g i = Some (u, y)) as Y.
        { intros g Eg. assert (nth_error (times g) i = Some u) as K by (rewrite Eg; unfold times; rewrite nth_error_map_some, E; reflexivity).
          unfold times in K. rewrite nth_error_map_some in K. destruct (nth_error g i) as [[u' y] |]; [| discriminate]. cbn in K. injection K as ->. eauto. }
        destruct (Y f' T3) as [y Ey]. destruct (Y f T4) as [y' Ey']. specialize (V3 i u w y E Ey). specialize (V4 i u w y' E Ey').
        rewrite Ey, Ey'. destruct V3 as [[A ->] | [A ->]], V4 as [[B ->] | [B ->]]; try reflexivity; contradiction.
      - assert (forall g : series, times g = times sv -> nth_error g i = None) as Y.
        { intros g Eg. apply nth_error_None in E. apply nth_error_None. rewrite <- (map_length fst g). unfold times in Eg. rewrite Eg, map_length. exact E. }
        rewrite (Y f' T3), (Y f T4). reflexivity. }
    assert (forall e l, ~ (is_max [] e) /\ ~ (is_min [] e) /\ l = l :> list Qc) as Hempty.
    { intros e l. repeat split; intros [[] _]. }
    destruct (level_at fmaximum is_max t (Fin q) fmaximum_spec (fun e => proj1 (Hempty e [])) is_max_unique Hin) as [[Et HNo] | (te & Et & (t1 & HD1 & Ht1) & HUt)].
    { unfold top, bottom. rewrite Et. assert (fle (Fin z) (fmul NaN (ff 10025 10000)) = false) as K by reflexivity. rewrite K.
      split; [intros H; rewrite !andb_false_r in H; destruct fine; discriminate |].
      intros (x' & lo' & hi' & f' & t' & b' & top' & d' & _ & H1 & H2 & _ & H3 & H4 & _ & H6 & _). exfalso.
      destruct (HU lo' hi' f' H1 H2 H3) as (_ & _ & ->). exact (HNo t' top' H4 H6). }
    destruct (level_at fminimum is_min t (Fin q) fminimum_spec (fun e => proj1 (proj2 (Hempty e []))) is_min_unique Hin) as [[Eb HNo] | (be & Eb & (t2 & HD2 & Ht2) & HUb)].
    { exfalso. destruct Ht1 as [Kin Kmax]. destruct (finvals (on_day t1 f)) as [| a l] eqn:E; [destruct Kin |].
      assert (exists e, is_min (a :: l) e) as [e He].
      { clear. revert a. induction l as [| b l IH]; intros a; [exists a; split; [left; reflexivity | intros y [<- | []]; apply Qcle_refl] |].
        destruct (IH b) as (e & [He Hm]). destruct (qle a e) eqn:E.
        - apply qle_spec in E. exists a. split; [left; reflexivity |]. intros y [<- | Hy]; [apply Qcle_refl |]. apply Qcle_trans with e; auto.
        - apply qle_false in E. exists e. split; [right; exact He |]. intros y [<- | Hy]; [apply Qclt_le_weak, E | auto]. }
      apply (HNo t1 e HD1). rewrite E. exact He. }
    unfold percent, top, bottom. rewrite Ex, Et, Eb, Edm. cbn [fadd ff]. unfold ff. cbn [fadd].
    assert (fle (Fin (qf 1 10)) (Fin z) = true <-> qf 1 10 <= z) as X1 by (cbn [fle]; apply qle_spec).
    assert (forall thr, 0 < thr -> qf 1 10 <= z -> (fge (fdiv (Fin z) (Fin (dm + qf 1 100000))) (Fin thr) = true <-> thr * (dm + qf 1 100000) <= z)) as X2.
    { intros thr _ Hz1. assert (0 < dm + qf 1 100000) as Pd.
      { assert (0 < qf 1 10) by reflexivity. assert (0 < qf 1 100000) by reflexivity. qlra. }
      unfold fdiv. assert (qeq (dm + qf 1 100000) 0 = false) as -> by (apply qeq_false, Qc_pos_neq, Pd). unfold fge. cbn [fle]. rewrite qle_spec. split; intros H.
      - assert (thr * (dm + qf 1 100000) <= z / (dm + qf 1 100000) * (dm + qf 1 100000)) as K by (apply Qcmult_le_compat_r; [exact H | apply Qclt_le_weak, Pd]).
        rewrite Qc_div_mul in K by (apply Qc_pos_neq, Pd). exact K.
      - apply Qc_le_div; [exact Pd | exact H]. }
    assert (fle (fmax2 (Fin be) (Fin (te * qf 96 100))) (Fin z) = true <-> be <= z /\ te * qf 96 100 <= z) as X3.
    { cbn [fmax2 isnan fle]. destruct (qle be (te * qf 96 100)) eqn:E; cbn [fle]; rewrite qle_spec.
      - apply qle_spec in E. split; [intros H; split; [apply Qcle_trans with (te * qf 96 100); assumption | exact H] | tauto].
      - apply qle_false in E. split; [intros H; split; [exact H | apply Qcle_trans with be; [apply Qclt_le_weak, E | exact H]] | tauto]. }
    assert (learned_clipped fine P s t (Fin q) <->
      qf 1 10 <= z /\ (if fine then qf 9 10 else qf 95 100) * (dm + qf 1 100000) <= z /\ be <= z /\ z <= te * qf 10025 10000 /\ (fine = true -> te * qf 96 100 <= z)) as X4.
    { split.
      - intros (x' & lo' & hi' & f' & t' & b' & top' & d' & Eq & H1 & H2 & _ & H3 & H4 & H5 & H6 & H7 & H8). cbv zeta in H8.
        destruct (HU lo' hi' f' H1 H2 H3) as (-> & -> & ->). fold sv in H7. rewrite (is_max_unique _ _ _ H7 Hdm) in H8.
        rewrite (HUt t' top' H4 H6), (HUb t' b' H4 H5) in H8. assert (x' = q) as -> by congruence. exact H8.
      - intros H. exists q, lo, hi, f, t2, be. assert (is_max (finvals (on_day t2 f)) te) as H6.
        { destruct (fmaximum_spec (on_day t2 f)) as [[E _] | (e & He & _)].
          - apply on_day_noinf. apply (without_noinf _ _ _ HW sv_noinf).
          - destruct Ht2 as [K _]. rewrite E in K. destruct K.
          - rewrite <- (HUt t2 e HD2 He). exact He. }
        exists te, dm. repeat (split; [first [reflexivity | assumption] |]). exact H. }
    rewrite X4. cbn [fmul]. destruct fine; rewrite !andb_true_iff.
    - unfold fge in *. rewrite X3, X1. cbn [fle]. rewrite qle_spec. split.
      + intros (((A1 & A2) & A3) & A4). assert (0 < qf 9 10) as P9 by reflexivity. apply (X2 _ P9 A4) in A2. tauto.
      + intros (A1 & A2 & A3 & A4 & A5). assert (0 < qf 9 10) as P9 by reflexivity. specialize (A5 eq_refl). apply (X2 _ P9 A1) in A2. tauto.
    - unfold fge in *. rewrite X1. cbn [fle]. rewrite !qle_spec. split.
      + intros (((A1 & A2) & A3) & A4). assert (0 < qf 95 100) as P9 by reflexivity. apply (X2 _ P9 A4) in A2. repeat split; try tauto. discriminate.
      + intros (A1 & A2 & A3 & A4 & A5). assert (0 < qf 95 100) as P9 by reflexivity. apply (X2 _ P9 A1) in A2. tauto.
  Qed.
End Post.

Lemma post_times : forall freq P s, map fst (xgboost_post freq P s) = times s.
Proof.
  intros freq P s. unfold xgboost_post. cbv zeta. rewrite map_map. cbn [fst].
  assert (length (scaled (vals s)) = length (times s)) as EL by (unfold scaled, vals, times; rewrite !map_length; reflexivity).
  revert EL. generalize (scaled (vals s)) as l, (times s) as k. intros l k. revert l. induction k as [| t k IH]; intros [| x l] EL; try discriminate; [reflexivity |].
  cbn [combine map fst]. f_equal. apply IH. cbn in EL. lia.
Qed.

Lemma post_spec : forall freq P s, sorted_index s -> noinf (vals s) -> StronglySorted Z.lt (map fst P) ->
  mask_is (fun _ t v => ~ learned_clipped (freq <? 5)%Z P s t v) s (xgboost_post freq P s).
Proof.
  intros freq P s HS HI HP. split; [apply post_times |]. intros i t v b Hi Hb. pose proof (nth_error_In _ _ Hi) as Hin.
  destruct (fminimum_spec (vals s) HI) as [[E _] | (lo & Hlo & _)].
  { assert (v = NaN) as ->.
    { assert (In v (vals s)) as K by (apply in_map_iff; exists (t, v); auto). destruct (HI v K). destruct v as [| | q |]; try congruence.
      apply finvals_In in K. rewrite E in K. destruct K. }
    assert (forall lo hi, is_min (finvals (vals s)) lo -> is_max (finvals (vals s)) hi -> ~ lo < hi) as HF by (intros lo hi [K _]; rewrite E in K; destruct K).
    unfold xgboost_post in Hb. cbv zeta in Hb. rewrite (scaled_flat s HF HI), !nth_error_map_some, Hi in Hb. cbn [fst snd] in Hb.
    match type of Hb with Some (_, ?y) = _ => assert (b = y) as -> by congruence end. clear Hb.
    assert (fge NaN (ff 1 10) = false) as -> by reflexivity. rewrite !andb_false_r. destruct (freq <? 5)%Z; cbn [negb]; split; try reflexivity;
    intros _ (x & ? & ? & ? & ? & ? & ? & ? & K & _); discriminate. }
  destruct (fmaximum_spec (vals s) HI) as [[E _] | (hi & Hhi & _)]; [destruct Hlo as [K _]; rewrite E in K; destruct K |].
  destruct (qlt lo hi) eqn:EL.
  - apply qlt_spec in EL. unfold xgboost_post in Hb. cbv zeta in Hb. rewrite (scaled_rows s lo hi Hlo Hhi EL HI) in Hb.
    set (sv := map (fun r : Z * fl => (fst r, position lo hi (snd r))) s) in *.
    pose proof (post_row s P lo hi HS HI HP Hlo Hhi EL (freq <? 5)%Z t v Hin) as X. cbv zeta in X. fold sv in X.
    rewrite nth_error_map_some in Hb. unfold sv at 1 in Hb. rewrite nth_error_map_some, Hi in Hb. cbn [fst snd] in Hb.
    match type of Hb with Some (_, ?y) = _ => assert (b = y) as -> by congruence end. clear Hb. rewrite negb_true_iff, <- X.
    destruct (freq <? 5)%Z; match goal with |- ?c = false <-> _ => destruct c end; split; congruence.
  - assert (forall lo hi, is_min (finvals (vals s)) lo -> is_max (finvals (vals s)) hi -> ~ lo < hi) as HF.
    { intros lo' hi' K1 K2 K. rewrite (is_min_unique _ _ _ K1 Hlo), (is_max_unique _ _ _ K2 Hhi) in K. apply qlt_spec in K. congruence. }
    unfold xgboost_post in Hb. cbv zeta in Hb. rewrite (scaled_flat s HF HI), !nth_error_map_some, Hi in Hb. cbn [fst snd] in Hb.
    match type of Hb with Some (_, ?y) = _ => assert (b = y) as -> by congruence end. clear Hb.
    assert (fge NaN (ff 1 10) = false) as -> by reflexivity. rewrite !andb_false_r. destruct (freq <? 5)%Z; cbn [negb]; split; try reflexivity;
    intros _ (x & ? & ? & ? & ? & ? & ? & ? & _ & K1 & K2 & K & _); exact (HF _ _ K1 K2 K).
Qed.

Theorem xgb_spec : forall classify s m w, sorted_index s -> noinf (vals s) -> (10 < length s)%nat -> m <> OtherMounting ->
  is_mode (gaps (times s)) w -> let freq := (w / 60000000000)%Z in (1 <= freq)%Z ->
  exists r, interpolate true true s (TFreq (minutes freq)) None = Ok r /\
    let P := classify r m freq in
    xgboost_clip_filter classify s m = Ok (xgboost_post freq P s) /\
    (StronglySorted Z.lt (map fst P) -> 
     exists mask, xgboost_clip_filter classify s m = Ok mask /\ mask_is (fun _ t v => ~ learned_clipped (freq <? 5)%Z P s t v) s mask).
Proof.
  intros classify s m w HS HI HL Hm HM freq HF.
  assert (mode (steps (times s)) = w) as EF.
  { assert (2 <= length (times s))%nat as HL' by (unfold times; rewrite map_length; lia). destruct (mode_pos _ HS HL') as [_ K]. exact (is_mode_unique _ _ _ K HM). }
  assert (exists r, interpolate true true s (TFreq (minutes freq)) None = Ok r) as [r Er].
  { unfold interpolate. destruct s as [| [t0 v0] s0]; [cbn in HL; lia |]. cbn [times map target_index bind xorb]. eauto. }
  assert (xgboost_clip_filter classify s m = Ok (xgboost_post freq (classify r m freq) s)) as EX.
  { unfold xgboost_clip_filter. destruct (format_spec s m) as [_ X]. destruct (X Hm) as [_ X']. destruct (X' (lt_le_sorted _ HS)) as [_ ->]; [| exact HL].
    cbn [bind]. rewrite EF. change (minutes 1) with 60000000000%Z. fold freq. rewrite Er. reflexivity. }
  exists r. split; [exact Er |]. cbv zeta. split; [exact EX |].
  intros HP. eexists. split; [exact EX |]. apply post_spec; assumption.
Qed.

Lemma xgb_errors : forall classify s m,
  (m = OtherMounting -> xgboost_clip_filter classify s m = Raise ValueError) /\
  (m <> OtherMounting -> ~ StronglySorted Z.le (times s) -> xgboost_clip_filter classify s m = Raise IndexError) /\
  (m <> OtherMounting -> StronglySorted Z.le (times s) -> (length s <= 10)%nat -> xgboost_clip_filter classify s m = Raise PlainException).
Proof.
  intros classify s m. destruct (format_spec s m) as [X1 X2]. unfold xgboost_clip_filter. split; [| split].
  - intros H. rewrite (X1 H). reflexivity.
  - intros H K. destruct (X2 H) as [-> _]; [reflexivity | exact K].
  - intros H K L. destruct (X2 H) as [_ X]. destruct (X K) as [-> _]; [reflexivity | exact L].
Qed.

(** What is never removed, whatever is predicted. *)
Lemma learned_bounds : forall fine P s t v, learned_clipped fine P s t v ->
  exists x lo hi, v = Fin x /\ is_min (finvals (vals s)) lo /\ is_max (finvals (vals s)) hi /\
    qf 1 10 * (hi - lo) <= x - lo /\
    (forall y, In (Fin y) (on_day t s) -> (if fine then qf 9 10 else qf 95 100) * (y - lo) <= x - lo) /\
    (exists u w, In (u, w) s /\ latest P u true).
Proof.
  intros fine P s t v (x & lo & hi & f & t' & bottom & top & dm & -> & H1 & H2 & HL & HW & HD & _ & _ & [_ HM] & H). cbv zeta in H.
  destruct H as (A1 & A2 & _). exists x, lo, hi. split; [reflexivity |]. split; [exact H1 |]. split; [exact H2 |].
  assert (0 < hi - lo) as Pd by qlra.
  assert ((x - lo) / (hi - lo) * (hi - lo) = x - lo) as EX by (apply Qc_div_mul, Qc_pos_neq, Pd).
  split; [| split].
  - rewrite <- EX. apply Qcmult_le_compat_r; [exact A1 | apply Qclt_le_weak, Pd].
  - intros y Hy. assert ((y - lo) / (hi - lo) <= dm) as K.
    { apply HM. apply finvals_In. unfold on_day in *. rewrite filter_map_comm. unfold vals in *. rewrite map_map. cbn [fst snd].
      apply in_map_iff in Hy. destruct Hy as (r & Er & Hr). apply in_map_iff. exists r. split; [rewrite Er; reflexivity | exact Hr]. }
    set (thr := if fine then qf 9 10 else qf 95 100) in *. assert (0 < thr) as Pt by (unfold thr; destruct fine; reflexivity).
    rewrite <- EX. replace (thr * (y - lo)) with (thr * ((y - lo) / (hi - lo)) * (hi - lo)) by (field; apply Qc_pos_neq, Pd).
    apply Qcmult_le_compat_r; [| apply Qclt_le_weak, Pd]. apply Qcle_trans with (thr * (dm + qf 1 100000)); [| exact A2].
    assert (0 < qf 1 100000) by reflexivity. rewrite (Qcmult_comm thr), (Qcmult_comm thr). apply Qcmult_le_compat_r; [| apply Qclt_le_weak, Pt]. qlra.
  - destruct HD as [(_ & u & w & Hu & Hl & _) | (w & Hu & Hl & _)]; eauto.
Qed.

(** ** Affine changes of the data *)

Section Affine.
  Variables a b : Qc.
  Hypothesis Ha : 0 < a.
  Definition affine (x : fl) : fl := fadd (fmul (Fin a) x) (Fin b).
  Let g := affine.

  Lemma affine_cases : g NaN = NaN /\ g PInf = PInf /\ g NInf = NInf /\ forall q, g (Fin q) = Fin (a * q + b).
  Proof.
    unfold g, affine. repeat split; [rewrite (fscale_PInf a Ha : fmul (Fin a) PInf = PInf) | rewrite (fscale_NInf a Ha : fmul (Fin a) NInf = NInf)]; reflexivity.
  Qed.

  Lemma fle_affine : forall x y, fle (g x) (g y) = fle x y.
  Proof.
    destruct affine_cases as (E1 & E2 & E3 & E4). intros [| | p |] [| | q |]; rewrite ?E1, ?E2, ?E3, ?E4; try reflexivity. cbn [fle].
    destruct (qle p q) eqn:E; [apply qle_spec in E; apply qle_spec | apply qle_false in E; apply qle_false].
    - assert (0 <= a * (q - p)) by (apply Qc_mul_nonneg; [apply Qclt_le_weak, Ha | qlra]). qnra.
    - assert (0 < a * (p - q)) by (apply Qc_mul_pos; [exact Ha | qlra]). qnra.
  Qed.

  Lemma isnan_affine : forall x, isnan (g x) = isnan x.
  Proof. destruct affine_cases as (E1 & E2 & E3 & E4). intros [| | p |]; rewrite ?E1, ?E2, ?E3, ?E4; reflexivity. Qed.

  Lemma fsub_affine : forall x y, fsub (g x) (g y) = fscale a (fsub x y).
  Proof.
    destruct affine_cases as (E1 & E2 & E3 & E4). intros [| | p |] [| | q |]; rewrite ?E1, ?E2, ?E3, ?E4; cbn [fsub fneg fadd];
    rewrite ?fscale_PInf, ?fscale_NInf, ?fscale_Fin, ?fscale_NaN by exact Ha; try reflexivity. f_equal. ring.
  Qed.

  Lemma fmaximum_affine : forall l, fmaximum (map g l) = g (fmaximum l).
  Proof.
    induction l as [| x l IH]; [symmetry; apply affine_cases |]. cbn [map fmaximum fold_right]. unfold fmaximum in IH. rewrite IH. unfold fmax2. rewrite !isnan_affine, fle_affine.
    destruct (isnan x); [reflexivity |]. destruct (isnan _); [reflexivity |]. destruct (fle x _); reflexivity.
  Qed.
  Lemma fminimum_affine : forall l, fminimum (map g l) = g (fminimum l).
  Proof.
    induction l as [| x l IH]; [symmetry; apply affine_cases |]. cbn [map fminimum fold_right]. unfold fminimum in IH. rewrite IH. unfold fmin2. rewrite !isnan_affine, fle_affine.
    destruct (isnan x); [reflexivity |]. destruct (isnan _); [reflexivity |]. destruct (fle x _); reflexivity.
  Qed.

  Lemma scaled_affine : forall l, scaled (map g l) = scaled l.
  Proof.
    intros l. unfold scaled. rewrite fmaximum_affine, fminimum_affine, fsub_affine, map_map. apply map_ext. intros x.
    rewrite fsub_affine. apply fdiv_fscale, Ha.
  Qed.

  Lemma post_affine : forall freq P s, xgboost_post freq P (on_values g s) = xgboost_post freq P s.
  Proof.
    intros freq P s. unfold xgboost_post. cbv zeta.
    assert (times (on_values g s) = times s) as -> by (unfold times, on_values; rewrite map_map; reflexivity).
    assert (vals (on_values g s) = map g (vals s)) as -> by (unfold vals, on_values; rewrite !map_map; reflexivity).
    rewrite scaled_affine. reflexivity.
  Qed.

  Lemma xgb_affine : forall classify s m r r', 
    let freq := (mode (steps (times s)) / 60000000000)%Z in
    interpolate true true s (TFreq (minutes freq)) None = Ok r ->
    interpolate true true (on_values g s) (TFreq (minutes freq)) None = Ok r' ->
    classify r' m freq = classify r m freq ->
    xgboost_clip_filter classify (on_values g s) m = xgboost_clip_filter classify s m.
  Proof.
    intros classify s m r r' freq E1 E2 EC. unfold xgboost_clip_filter.
    assert (times (on_values g s) = times s) as ET by (unfold times, on_values; rewrite map_map; reflexivity).
    assert (format_clipping (on_values g s) m = format_clipping s m) as ->.
    { unfold format_clipping. rewrite ET. unfold on_values. rewrite map_length. reflexivity. }
    destruct (format_clipping s m); [cbn [bind] | reflexivity]. rewrite ET. change (minutes 1) with 60000000000%Z. fold freq. rewrite E1, E2. cbn [bind].
    rewrite EC, post_affine. reflexivity.
  Qed.
End Affine.
