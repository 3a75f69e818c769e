(** Proofs about the clipping filter with its classifier's numbers. *)

From Coq Require Import QArith Qcanon List ZArith Bool Arith Lia Lqa Sorted.
From Verif.Base Require Import QcExtra ISort Quantile Fl TimeSeries Calendar Rolling.
From Verif.Spec Require Import Stats Energy Filters Normalization Clipping ClipFeatures.
From Verif.Model Require Import Utilities Interpolation Normalization Clipping ClipFeatures.
From Verif.Proofs Require Import StatsP FlP EnergyP2 NormP NormP2 NormP4 ClipP ClipP2 ClipP3 ClipP4 ClipFeatP ClipFeatP2 UnitP.
Import ListNotations.
Open Scope Qc_scope.

(** ** Means of five minutes *)

Lemma bins_spec : forall c, sorted_index c -> noinf (vals c) -> c <> [] ->
  let r := resample_agg fmean (minutes 5) c in bin_means c r /\ sorted_index r /\ noinf (vals r).
Proof.
  intros c HS HI Hne r. destruct c as [| [t0 v0] c]; [congruence |].
  set (s := (t0, v0) :: c) in *. set (tl := fst (List.last s (t0, NaN))).
  assert (0 < five)%Z as PQ by reflexivity.
  assert (exists k0, bin_start (start_day t0) five t0 = five * k0)%Z as [k0 EB].
  { unfold bin_start, start_day. exists (288 * (t0 / ns_day) + (t0 - ns_day * (t0 / ns_day)) / five)%Z.
    replace ns_day with (288 * five)%Z by reflexivity. ring. }
  assert (exists kd, start_day t0 = five * kd)%Z as [kd ED].
  { exists (288 * (t0 / ns_day))%Z. unfold start_day. replace ns_day with (288 * five)%Z by reflexivity. ring. }
  set (N := Z.to_nat ((tl - five * k0) / five)).
  assert (r = map (fun b => (b, fmean (vals (filter (fun x => inside b five (fst x)) s))))
      (map (fun k => five * (k0 + Z.of_nat k))%Z (seq 0 (S N)))) as ER.
  { unfold r, resample_agg, bin_starts, s. fold s. change (minutes 5) with five. fold tl. rewrite EB. fold N. rewrite !map_map. apply map_ext_in. intros k _.
    replace (five * k0 + five * Z.of_nat k)%Z with (five * (k0 + Z.of_nat k))%Z by ring. f_equal. f_equal. f_equal.
    apply filter_ext. intros x. apply bin_start_spec with (k := (k0 - kd + Z.of_nat k)%Z); [reflexivity |]. rewrite ED. ring. }
  assert (t0 <= tl)%Z as Hle by (apply (sorted_last c t0 v0 t0 v0 HS); left; reflexivity).
  assert (five * k0 <= t0)%Z as L0.
  { rewrite <- EB. unfold bin_start. pose proof (Z.mul_div_le (t0 - start_day t0) five PQ). lia. }
  assert (t0 < five * k0 + five)%Z as L1.
  { rewrite <- EB. unfold bin_start. pose proof (Z.mul_succ_div_gt (t0 - start_day t0) five PQ). lia. }
  assert (0 <= (tl - five * k0) / five)%Z as PN by (apply Z.div_pos; lia).
  pose proof (Z.div_mod (tl - five * k0) five ltac:(lia)) as DM. pose proof (Z.mod_pos_bound (tl - five * k0) five PQ) as MB.
  rewrite ER. clearbody r. clear ER r. split; [| split].
  - split.
    + exists k0. unfold times. rewrite !map_map, !map_length, seq_length. reflexivity.
    + assert (forall (f : Z -> Z * fl) l, (forall x, fst (f x) = x) -> times (map f l) = l) as X.
      { intros f l Hf. unfold times. rewrite map_map. rewrite <- (map_id l) at 2. apply map_ext. exact Hf. }
      rewrite X by auto. split; [| split].
      * intros t v Hin. pose proof (sorted_last c t0 v0 t v HS Hin) as L. fold s in L. fold tl in L.
        assert (t0 <= t)%Z as Lt.
        { destruct Hin as [E | Hin]; [injection E as -> _; lia |]. unfold sorted_index in HS. cbn in HS. inversion HS as [| ? ? _ F]; subst.
          rewrite Forall_forall in F. specialize (F t). assert (t0 < t)%Z; [| lia]. apply F. apply in_map_iff. exists (t, v). split; [reflexivity | exact Hin]. }
        exists (five * (k0 + (t - five * k0) / five))%Z.
        assert (0 <= (t - five * k0) / five)%Z by (apply Z.div_pos; lia). split.
        -- apply in_map_iff. exists (Z.to_nat ((t - five * k0) / five)). rewrite Z2Nat.id by lia. split; [reflexivity |].
           apply in_seq. split; [lia |]. cbn [plus]. unfold N. apply le_n_S, Z2Nat.inj_le; [lia | lia | apply Z.div_le_mono; lia].
        -- pose proof (Z.div_mod (t - five * k0) five ltac:(lia)). pose proof (Z.mod_pos_bound (t - five * k0) five PQ). lia.
      * intros b [Hb | Hb].
        -- cbn [seq map hd_error] in Hb. assert (b = five * (k0 + Z.of_nat 0))%Z as -> by congruence. exists t0, v0. split; [left; reflexivity |]. rewrite Z.mul_add_distr_l. change (five * Z.of_nat 0)%Z with 0%Z. lia.
        -- rewrite seq_S, map_app, rev_app_distr in Hb. cbn [map rev app hd_error plus] in Hb. assert (b = five * (k0 + Z.of_nat N))%Z as -> by congruence.
           exists tl. assert (In (List.last s (t0, NaN)) s) as KL.
           { clear -s. unfold s. generalize (t0, v0). induction c as [| y c IH]; intros x; [left; reflexivity |].
             right. replace (List.last (x :: y :: c) (t0, NaN)) with (List.last (y :: c) (t0, NaN)) by reflexivity. apply IH. }
           exists (snd (List.last s (t0, NaN))). split; [unfold tl; rewrite <- surjective_pairing; exact KL |].
           unfold N. rewrite Z2Nat.id by lia. rewrite Z.mul_add_distr_l. lia.
      * intros b v Hin. apply in_map_iff in Hin. destruct Hin as (b' & EE & Hb). pose proof (f_equal fst EE) as EE1. pose proof (f_equal snd EE) as EE2. cbn [fst snd] in EE1, EE2. subst b v. clear EE. cbv zeta.
        change (filter (fun x : Z * fl => (b' <=? fst x)%Z && (fst x <? b' + five)%Z) s) with (filter (fun x : Z * fl => inside b' five (fst x)) s).
        set (l := vals (filter _ s)). assert (noinf l) as HIl.
        { intros x Hx. apply HI. unfold l, vals in Hx. apply in_map_iff in Hx. destruct Hx as (y & <- & Hr). apply filter_In in Hr. apply in_map, Hr. }
        destruct (finvals l) as [| q ql] eqn:El.
        -- left. split; [reflexivity |]. unfold fmean, fsum, fcount. rewrite (dropna_noinf _ HIl), El. reflexivity.
        -- right. split; [discriminate |]. rewrite (fmean_noinf _ HIl) by (rewrite El; discriminate). rewrite El. reflexivity.
  - unfold sorted_index, times. rewrite !map_map. cbn [fst].
    assert (forall k, StronglySorted Z.lt (map (fun j => five * (k0 + Z.of_nat j))%Z (seq k (S N)))) as X.
    { generalize (S N). induction n as [| n IH]; intros k; [constructor |]. cbn [seq map]. constructor; [apply IH |].
      apply Forall_forall. intros y Hy. apply in_map_iff in Hy. destruct Hy as (j & <- & Hj). apply in_seq in Hj. unfold five. lia. }
    apply X.
  - intros x Hx. unfold vals at 1 in Hx. rewrite !map_map in Hx. apply in_map_iff in Hx. destruct Hx as (k & <- & _). cbn [snd].
    match goal with |- fmean ?l <> _ /\ _ => assert (noinf l) as HIl end.
    { intros x Hx. apply HI. unfold vals in Hx. apply in_map_iff in Hx. destruct Hx as (y & <- & Hr). apply filter_In in Hr. apply in_map, Hr. }
    match goal with |- fmean ?l <> _ /\ _ => destruct (finvals l) as [| q ql] eqn:El end.
    + unfold fmean, fsum, fcount. rewrite (dropna_noinf _ HIl), El. split; discriminate.
    + rewrite (fmean_noinf _ HIl) by (rewrite El; discriminate). split; discriminate.
Qed.

Theorem shown_frame : forall freq m regular, sorted_index regular -> noinf (vals regular) -> regular <> [] ->
  exists s, shown_series freq regular s /\ frame_shown freq m s (model_frame freq m regular) /\ sorted_index s.
Proof.
  intros freq m regular HS HI Hne. unfold model_frame, shown_series.
  destruct (freq <? 5)%Z eqn:E.
  - destruct (bins_spec regular HS HI Hne) as (H1 & H2 & H3). eexists. split; [exact H1 |]. split; [| exact H2].
    pose proof (frame_spec freq m _ H3) as F. unfold frame_of in F. rewrite E in F. exact F.
  - exists regular. split; [reflexivity |]. split; [| exact HS]. pose proof (frame_spec freq m _ HI) as F. unfold frame_of in F. rewrite E in F. exact F.
Qed.

Lemma frame_sorted : forall freq m s frame, sorted_index s -> frame_shown freq m s frame -> StronglySorted Z.lt (map fst frame).
Proof.
  intros freq m s frame HS (rows & HR & _ & HF). induction HF as [| i r rows frame [Hi _] HF IH]; [constructor |]. cbn [map]. inversion HR as [| ? ? HR' F]; subst.
  constructor; [apply IH, HR' |]. apply Forall_forall. intros t Ht. apply in_map_iff in Ht. destruct Ht as (r' & <- & Hr').
  assert (exists i', In i' rows /\ nth_error (times s) i' = Some (fst r')) as (i' & Hin & Hn).
  { clear -HF Hr'. induction HF as [| j q rows frame [Hj _] HF IH]; [destruct Hr' |]. destruct Hr' as [-> | Hr']; [exists j; split; [left; reflexivity | exact Hj] |].
    destruct (IH Hr') as (i' & A & B). exists i'. split; [right; exact A | exact B]. }
  rewrite Forall_forall in F. specialize (F i' Hin). clear -HS Hi Hn F. unfold sorted_index in HS. revert i i' Hi Hn F.
  induction HS as [| t T HS IH FT]; intros i i' Hi Hn F; [destruct i; discriminate |].
  destruct i as [| i], i' as [| i']; try lia; cbn in Hi, Hn.
  - injection Hi as <-. rewrite Forall_forall in FT. apply FT. apply nth_error_In with i'. exact Hn.
  - apply (IH i i' Hi Hn). lia.
Qed.

Theorem filter_frame : forall predict s m w, sorted_index s -> noinf (vals s) -> (10 < length s)%nat -> m <> OtherMounting ->
  is_mode (gaps (times s)) w -> let freq := (w / 60000000000)%Z in (1 <= freq)%Z ->
  exists r u frame mask, interpolate true true s (TFreq (60000000000 * freq)%Z) None = Ok r /\ shown_series freq r u /\ frame_shown freq m u frame /\
    xgboost_filter predict s m = Ok mask /\
    mask_is (fun _ t v => ~ learned_clipped (freq <? 5)%Z (map (fun x => (fst x, predict (snd x))) frame) s t v) s mask.
Proof.
  intros predict s m w HS HI HL Hm Hw freq Hf. unfold xgboost_filter.
  destruct (xgb_spec (fun regular m freq => predictions predict (model_frame freq m regular)) s m w HS HI HL Hm Hw Hf) as (r & Er & _ & HM).
  fold freq in Er, HM. unfold minutes in Er. rewrite Z.mul_comm in Er.
  destruct s as [| [t0 v0] s']; [cbn in HL; lia |]. set (s := (t0, v0) :: s') in *.
  assert (sorted_index r /\ noinf (vals r) /\ r <> []) as (R1 & R2 & R3).
  { unfold interpolate in Er. change (Ok (interpolate_series s (date_range t0 (List.last (times s) t0) (60000000000 * freq)%Z) None) = Ok r) in Er.
    assert (r = interpolate_series s (date_range t0 (List.last (times s) t0) (60000000000 * freq)%Z) None) as -> by congruence.
    assert (StronglySorted Z.lt (date_range t0 (List.last (times s) t0) (60000000000 * freq)%Z)) as HG by (unfold date_range; apply grid_sorted; lia).
    destruct (interpolate_default_ok s _ HS HI HG) as [K1 K2]. split; [exact K1 |]. split; [exact K2 |].
    assert (t0 <= List.last (times s) t0)%Z as Lt.
    { pose proof (sorted_last s' t0 v0 t0 v0 HS (or_introl eq_refl)) as K. rewrite last_fst in K. exact (proj2 K). }
    assert (0 <= (List.last (times s) t0 - t0) / (60000000000 * freq))%Z as K by (apply Z.div_pos; lia).
    unfold interpolate_series, date_range. cbv zeta. destruct (Z.to_nat ((List.last (times s) t0 - t0) / (60000000000 * freq) + 1)) eqn:En; [lia | discriminate]. }
  destruct (shown_frame freq m r R1 R2 R3) as (u & U1 & U2 & U3).
  destruct HM as (mask & Em & HM).
  { unfold predictions. rewrite map_map. cbn [fst]. exact (frame_sorted _ _ _ _ U3 U2). }
  exists r, u, (model_frame freq m r), mask. split; [exact Er |]. split; [exact U1 |]. split; [exact U2 |]. split; [exact Em | exact HM].
Qed.

(** ** Affine changes *)

Section AffineFrame.
Variables a b : Qc.
Hypothesis Ha : 0 < a.
Local Notation af := (affine a b).
Local Notation g := (on_values (affine a b)).

Lemma affine_NaN : af NaN = NaN.
Proof. apply (affine_cases a b Ha). Qed.
Lemma times_a : forall s, times (g s) = times s.
Proof. intros s. unfold times, on_values. rewrite map_map. reflexivity. Qed.
Lemma vals_a : forall s, vals (g s) = map af (vals s).
Proof. intros s. unfold vals, on_values. rewrite !map_map. reflexivity. Qed.
Lemma available_a : forall s, available (g s) = g (available s).
Proof. intros s. unfold available, on_values. rewrite filter_map_comm. f_equal. apply filter_ext. intros r. cbn [fst snd]. unfold notnan. now rewrite (isnan_affine a b Ha). Qed.
Lemma find_a : forall (f : Z -> bool) s, find (fun r => f (fst r)) (g s) = option_map (fun r => (fst r, af (snd r))) (find (fun r => f (fst r)) s).
Proof. intros f s. unfold on_values. induction s as [|[t v] s IH]; [reflexivity|]. cbn [map find fst snd]. destruct (f t); [reflexivity|exact IH]. Qed.
Lemma filter_a : forall (f : Z -> bool) s, filter (fun r => f (fst r)) (g s) = g (filter (fun r => f (fst r)) s).
Proof. intros f s. unfold on_values. apply filter_map_comm. Qed.
Lemma last_a : forall (f : Z -> bool) s, last_such (fun r => f (fst r)) (g s) = option_map (fun r => (fst r, af (snd r))) (last_such (fun r => f (fst r)) s).
Proof. intros f s. unfold last_such. rewrite filter_a. unfold on_values. rewrite <- map_rev. destruct (rev _); reflexivity. Qed.
Lemma lookup_a : forall s t, lookup (g s) t = af (lookup s t).
Proof. intros s t. unfold lookup. rewrite (find_a (fun u => (u =? t)%Z)). destruct (find _ s); [reflexivity | symmetry; apply affine_NaN]. Qed.
Lemma reindex_a : forall s idx, reindex (g s) idx = g (reindex s idx).
Proof. intros s idx. unfold reindex, on_values. rewrite map_map. apply map_ext. intros t. cbn [fst snd]. f_equal. apply lookup_a. Qed.
Lemma fadd_a : forall x y, fadd (fscale a x) (af y) = af (fadd x y).
Proof.
  destruct (affine_cases a b Ha) as (E1 & E2 & E3 & E4). intros [| | p |] [| | q |]; rewrite ?E1, ?E2, ?E3, ?E4;
  rewrite ?fscale_PInf, ?fscale_NInf, ?fscale_Fin, ?fscale_NaN by exact Ha; cbn [fadd]; rewrite ?E1, ?E2, ?E3, ?E4; try reflexivity. f_equal. ring.
Qed.
Lemma lin_a : forall t1 v1 t2 v2 t, lin t1 (af v1) t2 (af v2) t = af (lin t1 v1 t2 v2 t).
Proof. intros. unfold lin. rewrite (fsub_affine a b Ha), (fdiv_any a Ha), (fmul_fscale_l a Ha). apply fadd_a. Qed.
Lemma interp_at_a : forall s t, interp_at (g s) t = af (interp_at s t).
Proof.
  intros s t. unfold interp_at. rewrite (last_a (fun u => (u <? t)%Z)), (find_a (fun u => (t <? u)%Z)).
  destruct (last_such _ s) as [[t1 v1]|], (find _ s) as [[t2 v2]|]; cbn [option_map fst snd]; try reflexivity; apply lin_a.
Qed.
Lemma interp_index_a : forall s, interp_index (g s) = g (interp_index s).
Proof.
  intros s. unfold interp_index. rewrite available_a. unfold on_values at 2 3. rewrite !map_map. apply map_ext. intros [t v]. cbn [fst snd]. f_equal.
  rewrite (isnan_affine a b Ha). destruct (isnan v); [apply interp_at_a|reflexivity].
Qed.
Lemma interpolate_series_a : forall s target m, interpolate_series (g s) target m = g (interpolate_series s target m).
Proof.
  intros s target m. unfold interpolate_series, gap_limit, gap_sizes. rewrite available_a, times_a, reindex_a. cbv zeta.
  match goal with |- context [filter (fun r => fle (lookup ?x (fst r)) ?y) _] => rewrite (filter_a (fun t => fle (lookup x t) y)) end.
  rewrite interp_index_a. unfold on_values at 2. rewrite map_map. apply map_ext. intros t. cbn [fst snd]. f_equal. apply lookup_a.
Qed.
Lemma interpolate_a : forall x y s target m, interpolate x y (g s) target m = rmap g (interpolate x y s target m).
Proof.
  intros x y s target m. unfold interpolate. rewrite times_a. destruct (target_index (times s) target) as [idx|]; [|reflexivity]. cbn [bind].
  destruct (xorb _ _); [reflexivity|]. cbn [rmap]. now rewrite interpolate_series_a.
Qed.

Lemma fmean_a : forall l, fmean (map af l) = af (fmean l).
Proof.
  destruct (affine_cases a b Ha) as (E1 & E2 & E3 & E4). intros l.
  assert (dropna (map af l) = map af (dropna l)) as ED.
  { unfold dropna. rewrite filter_map_comm. f_equal. apply filter_ext. intros x. unfold notnan. rewrite (isnan_affine a b Ha). reflexivity. }
  assert (fcount (map af l) = fcount l) as EC by (unfold fcount; rewrite ED; apply map_length).
  unfold fmean. rewrite EC.
  assert (fsum (map af l) = fadd (fscale a (fsum l)) (Fin (b * qz (Z.of_nat (fcount l))))) as ->.
  { clear EC. unfold fsum, fcount. rewrite ED. assert (forall x, In x (dropna l) -> isnan x = false) as Hd.
    { intros x Hx. unfold dropna in Hx. apply filter_In in Hx. destruct Hx as [_ Hx]. unfold notnan in Hx. destruct (isnan x); [discriminate | reflexivity]. }
    clear ED. induction (dropna l) as [| x k IH]; [cbn [map fold_right length]; rewrite fscale_Fin; cbn [fadd]; f_equal; change (qz (Z.of_nat 0)) with 0; ring |].
    cbn [map fold_right length]. rewrite IH by (intros y Hy; apply Hd; right; exact Hy). pose proof (Hd x (or_introl eq_refl)) as Ex. clear IH Hd.
    set (T := fold_right fadd (Fin 0) k). replace (qz (Z.of_nat (S (length k)))) with (1 + qz (Z.of_nat (length k))) by (rewrite Nat2Z.inj_succ, <- Z.add_1_l, qz_add; reflexivity).
    destruct x as [| | p |], T as [| | q |]; try discriminate Ex; rewrite ?E1, ?E2, ?E3, ?E4; cbn [fadd];
    rewrite ?fscale_PInf, ?fscale_NInf, ?fscale_Fin, ?fscale_NaN by exact Ha; cbn [fadd]; try reflexivity. f_equal. ring. }
  set (n := Z.of_nat (fcount l)). assert (0 <= n)%Z as Pn by (unfold n; lia). assert (n = 0%Z -> fsum l = Fin 0) as Hz.
  { unfold n, fcount, fsum. intros K. destruct (dropna l); [reflexivity | cbn in K; lia]. }
  clearbody n. unfold fz. destruct (Z.eq_dec n 0) as [-> | Nn].
  - rewrite (Hz eq_refl), fscale_Fin. cbn [fadd]. unfold fdiv. change (qeq (qz 0) 0) with true. cbv iota.
    replace (a * 0 + b * qz 0) with 0 by (change (qz 0) with 0; ring). change (inf_sgn 0) with NaN. symmetry. exact E1.
  - assert (0 < qz n) as Pq by (apply qz_pos; lia).
    assert (qz n <> 0) as Nq by (intros K; rewrite K in Pq; discriminate Pq).
    assert (inf_sgn (qz n) = PInf) as S1 by (unfold inf_sgn; apply qlt_spec in Pq; rewrite Pq; reflexivity).
    assert (inf_sgn (- qz n) = NInf) as S2.
    { unfold inf_sgn. assert (qlt 0 (- qz n) = false) as -> by (apply qlt_false; qlra). assert (qlt (- qz n) 0 = true) as -> by (apply qlt_spec; qlra). reflexivity. }
    assert (qeq (qz n) 0 = false) as Z0 by (apply qeq_false; exact Nq).
    destruct (fsum l) as [| | q |].
    + rewrite fscale_NaN. symmetry. exact E1.
    + rewrite (fscale_NInf a Ha). cbn [fadd]. unfold fdiv. rewrite Z0, S2. symmetry. exact E3.
    + rewrite fscale_Fin. cbn [fadd]. unfold fdiv. rewrite Z0, E4. f_equal. field. exact Nq.
    + rewrite (fscale_PInf a Ha). cbn [fadd]. unfold fdiv. rewrite Z0, S1. symmetry. exact E2.
Qed.

Lemma features_a : forall freq s, features freq (g s) = features freq s.
Proof.
  intros freq s. unfold features. rewrite vals_a, times_a, (scaled_affine a b Ha). unfold on_values. rewrite map_length. reflexivity.
Qed.

Lemma frame_a : forall freq m r, model_frame freq m (g r) = model_frame freq m r.
Proof.
  intros freq m r. unfold model_frame. cbv zeta. destruct (freq <? 5)%Z.
  - assert (resample_agg fmean (minutes 5) (g r) = g (resample_agg fmean (minutes 5) r)) as ->.
    { rewrite resample_agg_values, (resample_agg_ext _ _ (fun l => af (fmean l))) by exact fmean_a. apply resample_agg_map. }
    rewrite features_a, times_a. reflexivity.
  - rewrite features_a, times_a. reflexivity.
Qed.

Theorem filter_a66 : forall predict s m, xgboost_filter predict (g s) m = xgboost_filter predict s m.
Proof.
  intros predict s m. unfold xgboost_filter, xgboost_clip_filter.
  assert (format_clipping (g s) m = format_clipping s m) as ->.
  { unfold format_clipping. rewrite times_a. unfold on_values. rewrite map_length. reflexivity. }
  destruct (format_clipping s m); [cbn [bind] | reflexivity]. rewrite times_a. cbv zeta. rewrite interpolate_a.
  destruct (interpolate true true s _ None) as [r |]; [| reflexivity]. cbn [rmap bind]. rewrite frame_a, (post_affine a b Ha). reflexivity.
Qed.
End AffineFrame.
