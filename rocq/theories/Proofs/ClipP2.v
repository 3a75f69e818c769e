(** The logic-based clipping filter. *)

From Coq Require Import QArith Qcanon List ZArith Bool Arith Lia Sorted.
From Verif.Base Require Import QcExtra ISort Quantile Fl TimeSeries Calendar Rolling.
From Verif.Model Require Import Utilities Interpolation Normalization Clipping.
From Verif.Spec Require Import Stats Filters Normalization Clipping.
From Verif.Proofs Require Import StatsP FlP InterpP EnergyP2 FiltersP NormP2 NormP4 ClipP.
Import ListNotations.
Open Scope Qc_scope.

(** ** Input checks *)

Lemma isort_sorted_id : forall l, StronglySorted Z.le l -> isort Z.leb l = l.
Proof.
  intros l H. unfold isort. induction H as [| a l H IH F]; [reflexivity |]. cbn [fold_right]. rewrite IH. destruct l as [| b l]; [reflexivity |].
  cbn [insert]. inversion F; subst. assert ((a <=? b)%Z = true) as -> by (apply Z.leb_le; assumption). reflexivity.
Qed.

Lemma isort_le_sorted : forall l, StronglySorted Z.le (isort Z.leb l).
Proof.
  intros l. pose proof (isort_sorted Z.leb) as X.
  assert (StronglySorted (le' Z.leb) (isort Z.leb l)) as H.
  { apply X; [intros x y; rewrite !Z.leb_le; lia | intros x y z; rewrite !Z.leb_le; lia]. }
  induction H as [| a k H IH F]; constructor; auto. rewrite Forall_forall in *. intros y Hy. apply Z.leb_le. exact (F y Hy).
Qed.

Lemma format_spec : forall s m,
  (m = OtherMounting -> format_clipping s m = Raise ValueError) /\
  (m <> OtherMounting ->
    (~ StronglySorted Z.le (times s) -> format_clipping s m = Raise IndexError) /\
    (StronglySorted Z.le (times s) ->
      ((length s <= 10)%nat -> format_clipping s m = Raise PlainException) /\
      ((10 < length s)%nat -> format_clipping s m = Ok tt))).
Proof.
  intros s m. split; [intros ->; reflexivity |]. intros Hm.
  assert (format_clipping s m = if negb (same_index (isort Z.leb (times s)) (times s)) then Raise IndexError
            else if (length s <=? 10)%nat then Raise PlainException else Ok tt) as -> by (destruct m; [reflexivity | reflexivity | elim Hm; reflexivity]).
  split.
  - intros H. destruct (same_index _ _) eqn:E; [| reflexivity]. exfalso. apply H. apply same_index_iff in E. rewrite <- E. apply isort_le_sorted.
  - intros H. rewrite (isort_sorted_id _ H). assert (same_index (times s) (times s) = true) as -> by (apply same_index_iff; reflexivity).
    cbn [negb]. split; intros HL.
    + apply Nat.leb_le in HL. rewrite HL. reflexivity.
    + assert ((length s <=? 10)%nat = false) as -> by (apply Nat.leb_gt; exact HL). reflexivity.
Qed.

Lemma lt_le_sorted : forall l, StronglySorted Z.lt l -> StronglySorted Z.le l.
Proof.
  intros l H. induction H as [| a l H IH F]; constructor; auto. rewrite Forall_forall in *. intros y Hy. specialize (F y Hy). lia.
Qed.

(** ** Regular form *)

Lemma regularise_spec : forall freq c, sorted_index c -> noinf (vals c) -> c <> [] -> (0 < freq)%Z ->
  exists r, regularise freq c = Ok r /\ regular_form freq c r /\ sorted_index r /\ noinf (vals r).
Proof.
  intros freq c HS HI Hne HF. unfold regularise, regular_form. destruct (minutes 10 <=? freq)%Z eqn:E.
  - destruct c as [| [t0 v0] c]; [congruence |]. unfold interpolate. cbn [target_index times map fst bind xorb].
    eexists. split; [reflexivity |]. split; [reflexivity |]. apply interpolate_default_ok; [exact HS | exact HI |].
    unfold date_range. apply grid_sorted. exact HF.
  - destruct c as [| [t0 v0] c]; [congruence |]. eexists. split; [reflexivity |].
    set (s := (t0, v0) :: c) in *. set (tl := fst (List.last s (t0, NaN))).
    assert (minutes 15 = quarter) as EQ by reflexivity.
    assert (0 < quarter)%Z as PQ by reflexivity.
    assert (exists k0, bin_start (start_day t0) quarter t0 = quarter * k0)%Z as [k0 EB].
    { unfold bin_start, start_day. exists (96 * (t0 / ns_day) + (t0 - ns_day * (t0 / ns_day)) / quarter)%Z. 
      replace ns_day with (96 * quarter)%Z by reflexivity. ring. }
    assert (exists kd, start_day t0 = quarter * kd)%Z as [kd ED].
    { exists (96 * (t0 / ns_day))%Z. unfold start_day. replace ns_day with (96 * quarter)%Z by reflexivity. ring. }
    assert (resample_agg fmedian (minutes 15) s =
      map (fun b => (b, fmedian (vals (filter (fun x => inside b quarter (fst x)) s))))
          (map (fun k => quarter * k0 + quarter * Z.of_nat k)%Z (seq 0 (S (Z.to_nat ((tl - quarter * k0) / quarter)))))) as ER.
    { unfold resample_agg, bin_starts, s. fold s. rewrite EQ. fold tl. rewrite EB. rewrite !map_map. apply map_ext_in. intros k _. f_equal. f_equal. f_equal.
      apply filter_ext. intros r. apply bin_start_spec with (k := (k0 - kd + Z.of_nat k)%Z); [reflexivity |]. rewrite ED. ring. }
    assert (t0 <= tl)%Z as Hle by (apply (sorted_last c t0 v0 t0 v0 HS); left; reflexivity).
    rewrite ER. split; [split |].
    + intros b v Hin. apply in_map_iff in Hin. destruct Hin as (b' & EE & Hb). pose proof (f_equal fst EE) as E1. pose proof (f_equal snd EE) as E2. cbn [fst snd] in E1, E2. subst b v.
      clear EE. apply in_map_iff in Hb. destruct Hb as (k & <- & _).
      split; [exists (k0 + Z.of_nat k)%Z; ring |]. cbv zeta.
      set (l := vals (filter _ s)). assert (noinf l) as HIl.
      { intros x Hx. apply HI. unfold l, vals in Hx. apply in_map_iff in Hx. destruct Hx as (r & <- & Hr). apply filter_In in Hr. apply in_map, Hr. }
      destruct (finvals l) as [| q ql] eqn:El.
      * left. split; [reflexivity |]. apply fmedian_empty. rewrite (dropna_noinf _ HIl), El. reflexivity.
      * right. assert (finvals l <> []) as Hlne by (rewrite El; discriminate). rewrite (fmedian_noinf _ HIl Hlne), El. eexists. split; [reflexivity |]. apply qmedian_spec. discriminate.
    + split.
      * exists (quarter * k0)%Z. unfold times. rewrite !map_map, !map_length, seq_length. reflexivity.
      * intros t v Hin. pose proof (sorted_last c t0 v0 t v HS Hin) as L. fold s in L. fold tl in L.
        assert (quarter * k0 <= t0)%Z as L0.
        { rewrite <- EB. unfold bin_start. pose proof (Z.mul_div_le (t0 - start_day t0) quarter PQ). lia. }
        exists (quarter * k0 + quarter * ((t - quarter * k0) / quarter))%Z. split.
        -- unfold times. rewrite map_map. cbn [fst]. rewrite map_id. apply in_map_iff. exists (Z.to_nat ((t - quarter * k0) / quarter)).
           assert (0 <= (t - quarter * k0) / quarter)%Z by (apply Z.div_pos; lia). rewrite Z2Nat.id by lia. split; [reflexivity |].
           apply in_seq. split; [lia |]. cbn [plus]. apply le_n_S, Z2Nat.inj_le; [lia | apply Z.div_pos; lia | apply Z.div_le_mono; lia].
        -- unfold in_bin. pose proof (Z.div_mod (t - quarter * k0) quarter ltac:(lia)). pose proof (Z.mod_pos_bound (t - quarter * k0) quarter PQ). lia.
    + split.
      * unfold sorted_index, times. rewrite !map_map. cbn [fst]. apply grid_sorted. exact PQ.
      * intros x Hx. unfold vals at 1 in Hx. rewrite !map_map in Hx. apply in_map_iff in Hx. destruct Hx as (k & <- & _). cbn [snd].
        match goal with |- fmedian ?l <> _ /\ _ => assert (noinf l) as HIl end.
        { intros x Hx. apply HI. unfold vals in Hx. apply in_map_iff in Hx. destruct Hx as (r & <- & Hr). apply filter_In in Hr. apply in_map, Hr. }
        match goal with |- fmedian ?l <> _ /\ _ => destruct (finvals l) as [| q ql] eqn:El end.
        -- rewrite fmedian_empty by (rewrite (dropna_noinf _ HIl), El; reflexivity). split; discriminate.
        -- rewrite (fmedian_noinf _ HIl) by (rewrite El; discriminate). split; discriminate.
Qed.

Lemma detect_spec : forall s m cutoff roll n freq, sorted_index s -> noinf (vals s) -> (2 <= length s)%nat ->
  is_mode (gaps (times s)) freq -> stretch m freq roll n -> (1 <= n)%nat ->
  exists D, detect s m (Fin cutoff) roll = Ok D /\ flagged (regular_form freq) s n cutoff D /\ StronglySorted Z.lt (map fst D).
Proof.
  intros s m cutoff roll n freq HS HI HL HM HN Hn. unfold detect.
  assert (2 <= length (times s))%nat as HL' by (unfold times; rewrite map_length; exact HL).
  destruct (mode_pos _ HS HL') as [HP HM']. rewrite (is_mode_unique _ _ _ HM' HM) in *. clear HM'.
  assert (sorted_index (clean s)) as HSc by (unfold sorted_index; rewrite clean_times; exact HS).
  destruct (regularise_spec freq (clean s) HSc (clean_noinf s HI)) as (r & -> & HR & HSr & HIr); [| exact HP |].
  { destruct s; cbn in HL; [lia | discriminate]. }
  cbn [bind]. eexists. split; [reflexivity |].
  assert (match roll with Some n0 => n0 | None => default_periods m freq end = n) as ->.
  { unfold stretch in HN. destruct roll; [congruence |]. rewrite HN. unfold default_periods. destruct m; [reflexivity | | reflexivity].
    destruct (minutes 10 <=? freq)%Z eqn:E; [reflexivity |]. apply Z.leb_gt in E.
    assert (freq <? minutes 30 = true)%Z as -> by (apply Z.ltb_lt; unfold minutes in *; lia). reflexivity. }
  destruct (clipping_rows_spec n cutoff (drop_low r) (drop_low_noinf r HIr) Hn) as [HT HB].
  pose proof (drop_low_without r HSr HIr) as HW.
  assert (times (drop_low r) = times r) as ET by apply HW. split.
  - exists (clean s), r, (drop_low r). split; [apply clean_without; assumption |]. split; [exact HR |]. split; [exact HW |].
    split; [rewrite HT; exact ET | exact HB].
  - rewrite HT, ET. exact HSr.
Qed.

(** ** Levels *)

Lemma robust_percentile_iff : forall q x v, noinf x -> 0 <= q -> q <= 1 -> (robust_quantile q x = Fin v <-> robust_percentile q x v).
Proof.
  intros q x v HI H0 H1. destruct (list_eq_dec fl_eq_dec x []) as [-> | Hne].
  - split; [discriminate |]. intros (l & (z & (s & k & t & [HP _] & _ & _ & _ & HK & _) & _) & _).
    cbn in HP. assert (s = []) as -> by (apply Permutation.Permutation_nil; first [exact HP | apply Permutation.Permutation_sym; exact HP]). cbn in HK. lia.
  - destruct (robust_part_ex q x HI Hne H0 H1) as [l Hl]. destruct (robust_quantile_spec q x l HI Hne H0 H1 Hl) as [X0 X1].
    destruct l as [| b l].
    + rewrite (X0 eq_refl). split; [discriminate |]. intros (l' & Hl' & K & _). elim K. apply (robust_part_unique q x _ _ Hne H0 H1 Hl' Hl).
    + destruct X1 as (w & -> & Hw); [discriminate |]. split.
      * intros [= <-]. exists (b :: l). split; [exact Hl |]. split; [discriminate | exact Hw].
      * intros (l' & Hl' & _ & Hv). rewrite (robust_part_unique q x _ _ Hne H0 H1 Hl' Hl) in Hv.
        assert (0 <= qz 100 * q /\ qz 100 * q <= qz 100) as [P0 P1].
        { split; [apply Qc_mul_nonneg; [discriminate | exact H0] |]. qlra. }
        assert (b :: l <> []) as Hbl by discriminate.
        f_equal. rewrite (is_percentile_unique _ _ _ Hbl P0 P1 Hv). apply (is_percentile_unique _ _ _ Hbl P0 P1 Hw).
Qed.

Lemma robust_quantile_noinf : forall q x, noinf x -> 0 <= q -> q <= 1 -> robust_quantile q x = NaN \/ exists v, robust_quantile q x = Fin v.
Proof.
  intros q x HI H0 H1. destruct (list_eq_dec fl_eq_dec x []) as [-> | Hne]; [left; reflexivity |]. destruct (robust_part_ex q x HI Hne H0 H1) as [l Hl].
  destruct (robust_quantile_spec q x l HI Hne H0 H1 Hl) as [X0 X1]. destruct l; [left; auto |].
  right. destruct X1 as (v & E & _); [discriminate |]. eauto.
Qed.

Lemma in_levels_spec : forall lo hi x, in_levels (Fin lo) (Fin hi) (Fin x) = true <-> at_level lo hi x.
Proof.
  intros lo hi x. unfold in_levels, at_level, fge, fgt, fsub, fneg, ff, fdiv. cbn [fadd fle fmul]. change (hi + - lo) with (hi - lo).
  destruct (qeq hi 0) eqn:E.
  - apply qeq_spec in E. subst hi. unfold inf_sgn. rewrite !orb_true_iff, !andb_true_iff.
    destruct (qlt 0 (0 - lo)) eqn:E1.
    + apply qlt_spec in E1. cbn [fle flt]. rewrite !qle_spec. split.
      * intros [[[_ K] | [[K1 K2] _]] | [[K1 K2] _]]; [discriminate | |].
        -- right. right. split; [reflexivity |]. split; [qlra |]. apply Qcle_antisym; qlra.
        -- exfalso. assert (qf 9975 10000 < qf 10025 10000) by reflexivity. 
           assert (lo < 0) by qlra. assert (lo * qf 9975 10000 <= lo * qf 10025 10000) by (eapply Qcle_trans; eauto).
           assert (0 < (- lo) * (qf 10025 10000 - qf 9975 10000)) by (apply Qc_mul_pos; qlra). qlra.
      * intros [[K _] | [[K _] | (_ & K & ->)]]; [congruence | congruence |]. left. right. split; [| reflexivity].
        split; [qlra | qlra].
    + apply qlt_false in E1. split.
      * intros H. exfalso. destruct (qlt (0 - lo) 0) eqn:E2; cbn [fle flt] in H; [| intuition discriminate].
        rewrite !qle_spec in H. apply qlt_spec in E2. destruct H as [[[[H1 H2] _] | [_ K]] | [_ K]]; [| discriminate | discriminate].
        apply (Qclt_not_le _ _ E2). qlra.
      * intros [[K _] | [[K _] | (_ & K & _)]]; [congruence | congruence |]. exfalso. apply (Qclt_not_le _ _ K). qlra.
  - assert (hi <> 0) as E' by (intros ->; discriminate). cbn [fle flt]. rewrite !orb_true_iff, !andb_true_iff, !qle_spec, !qlt_spec. tauto.
Qed.

(** ** The mask *)

Lemma detected_without : forall D s, StronglySorted Z.lt (map fst D) ->
  without (fun t _ => ~ latest D t true) s (detected_power D s).
Proof.
  intros D s HD. unfold detected_power. split; [unfold times; rewrite map_map; reflexivity |].
  intros i t v w Hn Hc. rewrite nth_error_map_some, Hn in Hc. cbn [fst snd] in Hc.
  destruct (last_at_latest _ false D t HD) as [HL | [HN E]].
  - destruct (last_at false D t) eqn:E; injection Hc as <-.
    + right. split; [intros K; apply K; exact HL | reflexivity].
    + left. split; [| reflexivity]. intros K. discriminate (latest_unique _ _ _ _ _ HL K).
  - rewrite E in Hc. injection Hc as <-. left. split; [| reflexivity]. intros (j & u & Hj & Hu & _). apply nth_error_In in Hj. specialize (HN _ _ Hj). lia.
Qed.

Lemma without_noinf : forall P s c, without P s c -> noinf (vals s) -> noinf (vals c).
Proof.
  intros P s c [HT H] HI x Hx. unfold vals in Hx. apply in_map_iff in Hx. destruct Hx as ([t w] & <- & Hr). cbn [snd].
  apply In_nth_error in Hr. destruct Hr as [i Hi]. assert (nth_error (times s) i = Some t) as K.
  { rewrite <- HT. unfold times. rewrite nth_error_map_some, Hi. reflexivity. }
  unfold times in K. rewrite nth_error_map_some in K. destruct (nth_error s i) as [[t' v] |] eqn:E; [| discriminate]. cbn in K. injection K as ->.
  destruct (H i t v w E Hi) as [[_ ->] | [_ ->]]; [split; discriminate |]. apply HI. apply nth_error_In in E. apply in_map_iff. exists (t, v). auto.
Qed.

Lemma without_length : forall P s c, without P s c -> length c = length s.
Proof. intros P s c [H _]. rewrite <- (map_length fst c), <- (map_length fst s). unfold times in H. rewrite H. reflexivity. Qed.

Lemma level_spec : forall freq f t v x0, sorted_index f -> noinf (vals f) -> In (t, x0) f -> (v = NaN \/ exists x, v = Fin x) ->
  let lv := last_at (NaN, NaN) (day_levels freq f) t in
  in_levels (fst lv) (snd lv) v = true <-> level_clipped (minutes 10 <=? freq)%Z f t v.
Proof.
  intros freq f t v x0 HS HI Hin Hv. unfold day_levels. rewrite (daily_own _ _ _ f t x0 HS Hin). cbv zeta.
  pose proof (on_day_noinf t f HI) as HId. unfold level_clipped.
  assert (forall lo hi, in_levels lo hi NaN = false) as LN.
  { intros lo hi. unfold in_levels, fge. assert (forall a, fle a NaN = false) as N1 by (destruct a; reflexivity).
    assert (forall a, fle NaN a = false) as N2 by reflexivity. rewrite !N1, !N2. reflexivity. }
  destruct Hv as [-> | [x ->]]; [rewrite LN; split; [discriminate | intros (x & lo & hi & K & _); discriminate] |].
  assert (forall hi, in_levels NaN hi (Fin x) = false) as L1.
  { intros hi. unfold in_levels. assert (fdiv (fsub hi NaN) hi = NaN) as -> by (destruct hi; reflexivity). cbn [fle flt fgt fmul]. rewrite !andb_false_r. reflexivity. }
  assert (forall lo, in_levels lo NaN (Fin x) = false) as L2.
  { intros lo. unfold in_levels. cbn [fsub fneg fadd fdiv fle flt fgt fmul]. rewrite !andb_false_r. reflexivity. }
  destruct (minutes 10 <=? freq)%Z; unfold levels; cbn [fst snd].
  - destruct (fminimum_spec (on_day t f) HId) as [[E ->] | (lo & Hlo & ->)].
    { rewrite L1. split; [discriminate |]. intros (x' & lo & hi & _ & [[K _] _] & _). rewrite E in K. destruct K. }
    destruct (fmaximum_spec (on_day t f) HId) as [[E ->] | (hi & Hhi & ->)].
    { destruct Hlo as [K _]. rewrite E in K. destruct K. }
    rewrite in_levels_spec. split.
    + intros H. exists x, lo, hi. auto.
    + intros (x' & lo' & hi' & [= <-] & [H1 H2] & H). rewrite (is_min_unique _ _ _ H1 Hlo), (is_max_unique _ _ _ H2 Hhi) in H. exact H.
  - assert (0 <= qf 75 1000 /\ qf 75 1000 <= 1 /\ 0 <= q99 /\ q99 <= 1) as (A1 & A2 & A3 & A4) by (repeat split; discriminate).
    destruct (robust_quantile_noinf (qf 75 1000) _ HId A1 A2) as [E | [lo E]]; rewrite E.
    { rewrite L1. split; [discriminate |]. intros (x' & lo & hi & _ & [K _] & _). apply (robust_percentile_iff _ _ _ HId A1 A2) in K. congruence. }
    destruct (robust_quantile_noinf q99 _ HId A3 A4) as [E' | [hi E']]; rewrite E'.
    { rewrite L2. split; [discriminate |]. intros (x' & lo' & hi & _ & [_ K] & _). apply (robust_percentile_iff _ _ _ HId A3 A4) in K. congruence. }
    rewrite in_levels_spec. split.
    + intros H. exists x, lo, hi. split; [reflexivity |]. split; [| exact H].
      split; [apply (robust_percentile_iff _ _ _ HId A1 A2), E | apply (robust_percentile_iff _ _ _ HId A3 A4), E'].
    + intros (x' & lo' & hi' & [= <-] & [H1 H2] & H). apply (robust_percentile_iff _ _ _ HId A1 A2) in H1. apply (robust_percentile_iff _ _ _ HId A3 A4) in H2.
      assert (lo' = lo) as <- by congruence. assert (hi' = hi) as <- by congruence. exact H.
Qed.

Lemma chosen_filter : forall P (p : Z * fl -> bool) s, (forall t v, In (t, v) s -> (p (t, v) = true <-> P t v)) ->
  chosen P s (map snd (filter p s)).
Proof.
  intros P p s H. induction s as [| [t v] s IH]; [constructor |]. cbn [filter].
  assert (chosen P s (map snd (filter p s))) as C by (apply IH; intros; apply H; right; assumption).
  specialize (H t v (or_introl eq_refl)). destruct (p (t, v)).
  - cbn [map snd]. constructor; [apply H; reflexivity | exact C].
  - constructor; [| exact C]. intros K. apply H in K. discriminate.
Qed.

Lemma combine_map_filter : forall (s : series) (p : Z * fl -> bool),
  map (fun q => snd (fst q)) (filter (fun q => snd (snd q)) (combine s (map (fun r => (fst r, p r)) s))) = map snd (filter p s).
Proof.
  intros s p. induction s as [| r s IH]; [reflexivity |]. cbn [map combine filter snd fst]. destruct (p r); cbn [map fst snd]; rewrite IH; reflexivity.
Qed.

Lemma overall_rule_spec : forall power clipped q, noinf power -> noinf clipped -> robust_quantile q99 power = Fin q ->
  overall_rule power clipped = true <-> exists qc, robust_percentile q99 clipped qc /\ overall q qc (length clipped) (length power).
Proof.
  intros power clipped q HI HC Hq. unfold overall_rule, overall. rewrite Hq. rewrite andb_true_iff, qlt_spec.
  assert (0 <= q99 /\ q99 <= 1) as (A3 & A4) by (split; discriminate).
  destruct (robust_quantile_noinf q99 clipped HC A3 A4) as [E | [qc E]]; rewrite E.
  - split; [intros [K _]; discriminate |]. intros (qc & K & _). apply (robust_percentile_iff _ _ _ HC A3 A4) in K. congruence.
  - assert (flt (fabs (fdiv (fsub (Fin q) (Fin qc)) (fdiv (fadd (Fin q) (Fin qc)) (fz 2)))) (ff 5 1000) = true <->
            q + qc <> 0 /\ qabs ((q - qc) / ((q + qc) / qz 2)) < qf 5 1000) as X.
    { unfold fz, fsub, fneg, fadd, fdiv at 2. assert (qeq (qz 2) 0 = false) as -> by reflexivity. unfold fdiv.
      destruct (qeq ((q + qc) / qz 2) 0) eqn:E0.
      - assert (q + qc = 0) as E1.
        { apply qeq_spec in E0. replace (q + qc) with ((q + qc) / qz 2 * qz 2) by (field; discriminate). rewrite E0. ring. }
        split; [| intros [K _]; congruence]. unfold inf_sgn. destruct (qlt 0 (q + - qc)); [discriminate |]. destruct (qlt (q + - qc) 0); discriminate.
      - assert (q + qc <> 0) as E1 by (intros K; rewrite K in E0; discriminate). cbn [fabs flt ff]. unfold ff. rewrite qlt_spec. tauto. }
    rewrite X. split.
    + intros [H1 H2]. exists qc. split; [apply (robust_percentile_iff _ _ _ HC A3 A4), E |]. tauto.
    + intros (qc' & K & H). apply (robust_percentile_iff _ _ _ HC A3 A4) in K. assert (qc' = qc) as -> by congruence. tauto.
Qed.

Theorem logic_clip_spec : forall s m cutoff roll n freq, sorted_index s -> noinf (vals s) -> (10 < length s)%nat -> m <> OtherMounting ->
  is_mode (gaps (times s)) freq -> stretch m freq roll n -> (1 <= n)%nat ->
  let coarse := (minutes 10 <=? freq)%Z in
  exists D c f cl mask, flagged (regular_form freq) s n cutoff D /\
    without (fun t _ => steady (finvals (on_day t s))) s c /\
    without (fun t _ => ~ latest D t true) s f /\
    chosen (level_clipped coarse f) s cl /\
    logic_clip_filter s m (Fin cutoff) roll = Ok mask /\
    mask_is (fun i t v => ~ level_clipped coarse f t v /\ ~ overall_clipped c cl i t) s mask.
Proof.
  intros s m cutoff roll n freq HS HI HL Hm HM HN Hn coarse.
  destruct (detect_spec s m cutoff roll n freq HS HI ltac:(lia) HM HN Hn) as (D & ED & HF & HD).
  pose proof (detected_without D s HD) as HW. set (f := detected_power D s) in *.
  pose proof (clean_without s HS HI) as HC. set (c := clean s) in *.
  pose proof (without_noinf _ _ _ HW HI) as HIf. pose proof (without_noinf _ _ _ HC HI) as HIc.
  assert (sorted_index f) as HSf by (unfold sorted_index; destruct HW as [-> _]; exact HS).
  assert (mode (steps (times s)) = freq) as EF.
  { assert (2 <= length (times s))%nat as HL' by (unfold times; rewrite map_length; lia). destruct (mode_pos _ HS HL') as [_ K]. exact (is_mode_unique _ _ _ K HM). }
  set (p := fun r : Z * fl => let lv := last_at (NaN, NaN) (day_levels freq f) (fst r) in in_levels (fst lv) (snd lv) (snd r)).
  assert (forall t v, In (t, v) s -> (p (t, v) = true <-> level_clipped coarse f t v)) as HP.
  { intros t v Hin. unfold p. cbn [fst snd]. 
    assert (exists w, In (t, w) f) as [w Hw].
    { assert (In t (times f)) as K by (destruct HW as [-> _]; apply in_map_iff; exists (t, v); auto). apply in_map_iff in K. destruct K as ([t' w] & <- & K). exists w. exact K. }
    apply (level_spec freq f t v w HSf HIf Hw). assert (In v (vals s)) as K by (apply in_map_iff; exists (t, v); auto).
    destruct (HI v K). destruct v; eauto; congruence. }
  set (cl := map snd (filter p s)).
  assert (noinf cl) as HIcl.
  { intros x Hx. apply HI. unfold cl in Hx. apply in_map_iff in Hx. destruct Hx as (r & <- & Hr). apply filter_In in Hr. apply in_map, Hr. }
  exists D, c, f, cl. eexists. split; [exact HF |]. split; [exact HC |]. split; [exact HW |]. split; [apply chosen_filter, HP |]. split.
  { unfold logic_clip_filter. destruct (format_spec s m) as [_ X]. destruct (X Hm) as [_ X']. destruct (X' (lt_le_sorted _ HS)) as [_ ->]; [| exact HL].
    cbn [bind]. rewrite ED. cbn [bind]. cbv zeta. rewrite EF. unfold level_mask. fold f. cbv zeta.
    change (map (fun r : Z * fl => (fst r, in_levels (fst (last_at (NaN, NaN) (day_levels freq f) (fst r))) (snd (last_at (NaN, NaN) (day_levels freq f) (fst r))) (snd r))) s)
      with (map (fun r => (fst r, p r)) s).
    rewrite combine_map_filter. fold cl. fold c. reflexivity. }
  set (q := robust_quantile q99 (vals c)). split.
  - rewrite map_map. cbn [fst].
    assert (length (vals c) = length s) as EL by (unfold vals; rewrite map_length; exact (without_length _ _ _ HC)).
    revert EL. generalize (vals c) as l. generalize p as p0. clear. intros p0. unfold times. induction s as [| r s IH]; intros l EL; [reflexivity |].
    destruct l as [| x l]; [discriminate |]. cbn [map combine fst]. f_equal. apply IH. cbn in EL. lia.
  - intros i t v b Hi Hb. rewrite nth_error_map_some, nth_error_combine, nth_error_map_some, Hi in Hb. cbn [fst snd] in Hb.
    assert (nth_error (vals c) i = match nth_error c i with Some x => Some (snd x) | None => None end) as EV by (unfold vals; apply nth_error_map_some). rewrite EV in Hb. clear EV.
    assert (exists x, nth_error c i = Some (t, x)) as [x Hx].
    { assert (nth_error (times c) i = Some t) as K by (destruct HC as [-> _]; unfold times; rewrite nth_error_map_some, Hi; reflexivity).
      unfold times in K. rewrite nth_error_map_some in K. destruct (nth_error c i) as [[t' x] |]; [| discriminate]. injection K as ->. eauto. }
    rewrite Hx in Hb. cbn [fst snd] in Hb. match type of Hb with Some (_, ?y) = _ => assert (b = y) as -> by congruence end. clear Hb.
    rewrite negb_true_iff, orb_false_iff. pose proof (nth_error_In _ _ Hi) as Hin. specialize (HP t v Hin).
    assert (p (t, v) = false <-> ~ level_clipped coarse f t v) as ->.
    { rewrite <- HP. destruct (p (t, v)); split; congruence. }
    apply and_iff_compat_l. unfold overall_clipped.
    assert (0 <= q99 /\ q99 <= 1) as (A3 & A4) by (split; discriminate).
    assert (overall_rule (vals c) cl && fge x q = true <-> 
      exists q1 qc x1, robust_percentile (qf 99 100) (vals c) q1 /\ robust_percentile (qf 99 100) cl qc /\
        overall q1 qc (length cl) (length c) /\ nth_error c i = Some (t, Fin x1) /\ q1 <= x1) as X.
    { rewrite andb_true_iff. destruct (robust_quantile_noinf q99 (vals c) HIc A3 A4) as [E | [q1 E]]; unfold q; rewrite E.
      - split; [intros [_ K]; destruct x; discriminate |]. intros (q1 & qc & x1 & K & _). apply (robust_percentile_iff _ _ _ HIc A3 A4) in K. congruence.
      - rewrite (overall_rule_spec (vals c) cl q1 HIc HIcl E). unfold vals at 1. rewrite map_length. split.
        + intros [(qc & K1 & K2) K3]. assert (In x (vals c)) as Kx by (apply nth_error_In in Hx; apply in_map_iff; exists (t, x); auto).
          destruct (HIc x Kx). destruct x as [| | x1 |]; [destruct q1; discriminate | congruence | | congruence].
          exists q1, qc, x1. split; [apply (robust_percentile_iff _ _ _ HIc A3 A4), E |]. split; [exact K1 |]. split; [exact K2 |]. split; [exact Hx |].
          cbn in K3. apply qle_spec in K3. exact K3.
        + intros (q2 & qc & x1 & K0 & K1 & K2 & K3 & K4). apply (robust_percentile_iff _ _ _ HIc A3 A4) in K0.
          change (qf 99 100) with q99 in K0. assert (q2 = q1) as -> by congruence.
          split; [exists qc; split; assumption |]. assert (x = Fin x1) as -> by congruence. cbn. apply qle_spec, K4. }
    rewrite <- X. destruct (overall_rule (vals c) cl && fge x q); split; congruence.
Qed.
