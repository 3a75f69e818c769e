(** Energy: statements about the whole function. *)

From Coq Require Import QArith Qcanon List ZArith Bool Permutation Sorted Lia Arith.
From Verif.Base Require Import QcExtra ISort Quantile Fl TimeSeries Segments.
From Verif.Spec Require Import Stats Interp Energy.
From Verif.Model Require Import Interpolation Energy.
From Verif.Proofs Require Import StatsP FlP YoYP YoYP2 InterpP EnergyP EnergyP2 EnergyP3 EnergyP4 EnergyP5.
Import ListNotations.
Open Scope Qc_scope.

(** ** Conservation *)

Lemma mask_off : forall power limit t, sorted_index power -> ~ in_long_step power limit t ->
  fgt (lookup_bfill (t_step_nanoseconds power) t) (Fin limit) = false.
Proof.
  intros power limit t HS H. destruct (fgt _ _) eqn:E; [| reflexivity]. exfalso. apply H, long_step_iff; assumption.
Qed.

Lemma energy_total : forall freq power width max med, sorted_index power -> noinf (vals power) ->
  (2 <= length power)%nat -> is_median (gaps_between (times power)) med -> (0 < width)%Z -> med < qz width ->
  no_gaps power (the_limit max med) ->
  exists es, energy_from_power freq power (Some width) max RightLabeled = Ok (map (fun e => (fst e, Fin (snd e))) es) /\
    qsum (map snd es) = total_energy power.
Proof.
  intros freq power width max med HS HI HL HM HW Hlt HG.
  destruct power as [| [t0 v0] rest] eqn:Hp; [cbn in HL; lia |]. rewrite <- Hp in *.
  destruct (ng_points power (the_limit max med) t0 v0 rest Hp HI HG) as (q0 & l0 & EP).
  assert (points power <> []) as HP by (rewrite EP; discriminate).
  rewrite (energy_unfold_long freq power width max med RightLabeled HL HM Hlt).
  destruct (aggregate_spec power width (the_limit max med) RightLabeled HS HI HW HP ltac:(discriminate)) as (bs & -> & EB & HC).
  exists (map (fun b => (b, rect_energy power (the_limit max med) (b - width) b)) (tl (bin_labels t0 width (final_time power)))).
  assert (first_time power = t0) as Ef by (rewrite Hp; reflexivity). split.
  - cbn [bind]. f_equal. rewrite map_map, map_map. cbn [fst snd]. rewrite Ef in EB. rewrite <- EB, map_map. apply map_ext_in.
    intros [b c] Hb. cbn [fst snd spec_energy]. f_equal.
    rewrite mask_off; [| exact HS | apply (ng_not_long power _ HI HG)].
    assert (c = true) as ->; [| reflexivity]. apply (HC _ _ Hb). cbn [spec_covered].
    assert (In b (tl (bin_labels t0 width (final_time power)))) as Hb' by (rewrite <- EB; apply in_map_iff; exists (b, c); auto).
    assert (t0 <= final_time power)%Z as HLe.
    { rewrite <- (last_fst power (t0, NaN)) by (rewrite Hp; discriminate). apply (last_ge power t0 v0 rest Hp HS). }
    apply (labels_tl t0 width _ b HW HLe) in Hb'. destruct Hb' as (k & Hk & -> & Hl).
    apply (ng_covered power _ t0 v0 rest Hp HS HI HG); nia.
  - rewrite map_map. cbn [snd]. apply (bins_total power _ t0 v0 rest Hp HS HI HG width HW).
Qed.

(** ** Linear and constant power *)

Lemma energy_linear : forall freq power width max med alpha beta t v out, sorted_index power -> noinf (vals power) ->
  (2 <= length power)%nat -> is_median (gaps_between (times power)) med -> (0 < width)%Z -> med < qz width ->
  no_gaps power (the_limit max med) -> (forall u q, In (u, Fin q) power -> q = alpha + beta * qz u) ->
  energy_from_power freq power (Some width) max Instantaneous = Ok out -> In (t, v) out -> (t <= final_time power)%Z ->
  v = Fin ((alpha + beta * qz (t - width) + (alpha + beta * qz t)) / qz 2 * hours width).
Proof.
  intros freq power width max med alpha beta t v out HS HI HL HM HW Hlt HG HLin E Hin Ht.
  destruct (energy_long_spec freq power width max med Instantaneous HS HI HL HM HW Hlt ltac:(discriminate)) as [_ K].
  destruct power as [| [t0 v0] rest] eqn:Hp; [cbn in HL; lia |]. rewrite <- Hp in *.
  destruct (ng_points power (the_limit max med) t0 v0 rest Hp HI HG) as (q0 & l0 & EP).
  destruct K as (out' & E' & _ & HT & HV); [rewrite EP; discriminate |].
  assert (out' = out) as -> by congruence.
  assert (first_time power = t0) as Ef by (rewrite Hp; reflexivity). rewrite Ef in HT.
  assert (In t (times out)) as Hto by (apply in_map_iff; exists (t, v); auto). apply HT in Hto. destruct Hto as (k & Hk & Et & Hl).
  destruct (HV t v Hin) as (_ & _ & R). cbn [spec_covered spec_energy] in R. rewrite Ef in R.
  rewrite R.
  - f_equal. rewrite (ng_linear power _ t0 v0 rest Hp HS HI HG width _ _ alpha beta HW); [| nia | nia | exact HLin].
    f_equal. f_equal. lia.
  - apply (ng_not_long power _ HI HG).
  - apply (ng_trap_covered power _ t0 v0 rest Hp HS HI HG width _ _ HW); nia.
Qed.

Lemma energy_constant : forall freq power width max med c t v out, sorted_index power -> noinf (vals power) ->
  (2 <= length power)%nat -> is_median (gaps_between (times power)) med -> (0 < width)%Z -> med < qz width ->
  no_gaps power (the_limit max med) -> (forall u q, In (u, Fin q) power -> q = c) ->
  forall pt, pt <> OtherType ->
  energy_from_power freq power (Some width) max pt = Ok out -> In (t, v) out -> (t <= final_time power)%Z ->
  v = Fin (c * hours width).
Proof.
  intros freq power width max med c t v out HS HI HL HM HW Hlt HG HC pt Hpt E Hin Ht. destruct pt; [| | congruence].
  - destruct (energy_long_spec freq power width max med RightLabeled HS HI HL HM HW Hlt ltac:(discriminate)) as [_ K].
    destruct power as [| [t0 v0] rest] eqn:Hp; [cbn in HL; lia |]. rewrite <- Hp in *.
    destruct (ng_points power (the_limit max med) t0 v0 rest Hp HI HG) as (q0 & l0 & EP).
    destruct K as (out' & E' & _ & HT & HV); [rewrite EP; discriminate |].
    assert (out' = out) as -> by congruence.
    assert (first_time power = t0) as Ef by (rewrite Hp; reflexivity). rewrite Ef in HT.
    assert (In t (times out)) as Hto by (apply in_map_iff; exists (t, v); auto). apply HT in Hto. destruct Hto as (k & Hk & Et & Hl).
    destruct (HV t v Hin) as (_ & _ & R). cbn [spec_covered spec_energy] in R.
    rewrite R.
    + f_equal. rewrite (ng_constant power _ t0 v0 rest Hp HS HI HG _ _ c); [| nia | nia | exact HC].
      f_equal. f_equal. lia.
    + apply (ng_not_long power _ HI HG).
    + apply (ng_covered power _ t0 v0 rest Hp HS HI HG); nia.
  - rewrite (energy_linear freq power width max med c 0 t v out HS HI HL HM HW Hlt HG); auto.
    + f_equal. assert (qz 2 = 1 + 1) as -> by (apply Qc_is_canon; reflexivity). field. discriminate.
    + intros u q Hu. rewrite (HC u q Hu). ring.
Qed.

(** ** Scaling *)

Section Scale.
  Variable c : Qc.
  Let f := fun q : Qc => c * q.
  Let lift := fun p : Z * Qc => (fst p, c * snd p).
  Let lift2 := fun pr : (Z * Qc) * (Z * Qc) => (lift (fst pr), lift (snd pr)).

  Lemma points_scale : forall s, points (map_values f s) = map lift (points s).
  Proof. induction s as [| [t v] s IH]; [reflexivity |]. destruct v; cbn [map_values map points fst snd] in *; rewrite ?IH; auto. cbn [map]. f_equal. exact IH. Qed.

  Lemma consec_scale : forall P, consec (map lift P) = map lift2 (consec P).
  Proof.
    induction P as [| a P IH]; [reflexivity |]. destruct P as [| b P]; [reflexivity |].
    rewrite consec_cons. cbn [map] in *. rewrite consec_cons, IH. reflexivity.
  Qed.

  Lemma steps_scale : forall s limit, steps_used (map_values f s) limit = map lift2 (steps_used s limit).
  Proof.
    intros s limit. unfold steps_used. rewrite points_scale, consec_scale, filter_map_comm. reflexivity.
  Qed.

  Lemma rect_scale : forall s limit lo hi, rect_energy (map_values f s) limit lo hi = c * rect_energy s limit lo hi.
  Proof.
    intros s limit lo hi. unfold rect_energy. rewrite steps_scale, map_map, <- qsum_map_scale. apply qsum_map_ext.
    intros pr _. unfold rect_part, lift2, lift. cbn [fst snd]. ring.
  Qed.

  Lemma rect_cov_scale : forall s limit lo hi, rect_covered (map_values f s) limit lo hi <-> rect_covered s limit lo hi.
  Proof.
    intros s limit lo hi. unfold rect_covered. rewrite steps_scale. split.
    - intros (pr & H & Ho). apply in_map_iff in H. destruct H as (pr' & <- & H). exists pr'. split; [exact H | exact Ho].
    - intros (pr & H & Ho). exists (lift2 pr). split; [apply in_map, H | exact Ho].
  Qed.

  Lemma held_scale : forall s stop, held (map_values f s) stop = map lift (held s stop).
  Proof.
    intros s stop. unfold held. rewrite points_scale, map_app, <- map_rev. f_equal.
    destruct (rev (points s)) as [| [t q] k]; [reflexivity |]. cbn [map lift fst snd]. destruct (t <? stop)%Z; reflexivity.
  Qed.

  Lemma last_time_scale : forall s, last_time (map_values f s) = last_time s.
  Proof. intros s. unfold last_time. rewrite points_scale, <- map_rev. destruct (rev (points s)) as [| [t q] k]; reflexivity. Qed.

  Lemma trap_used_scale : forall s limit stop, trap_used (map_values f s) limit stop = map lift2 (trap_used s limit stop).
  Proof.
    intros s limit stop. unfold trap_used. rewrite held_scale, consec_scale, filter_map_comm, last_time_scale. reflexivity.
  Qed.

  Lemma trusted_scale : forall s limit t, trusted (map_values f s) limit t = trusted s limit t.
  Proof.
    intros s limit t. unfold trusted. f_equal.
    - destruct s as [| [t0 v] s]; [reflexivity |]. destruct v; reflexivity.
    - rewrite steps_scale. induction (steps_used s limit) as [| x l IH]; [reflexivity |]. cbn [map existsb]. rewrite IH. reflexivity.
  Qed.

  Lemma next_cut_scale : forall s t0 width t, next_cut (map_values f s) t0 width t = next_cut s t0 width t.
  Proof.
    intros s t0 width t. unfold next_cut.
    assert (match find (fun r : Z * fl => (t <? fst r)%Z) (map_values f s) with Some r => Some (fst r) | None => None end =
            match find (fun r : Z * fl => (t <? fst r)%Z) s with Some r => Some (fst r) | None => None end) as K.
    { induction s as [| [u v] s IH]; [reflexivity |]. cbn [map_values map find fst]. destruct (t <? u)%Z; [reflexivity | exact IH]. }
    destruct (find _ (map_values f s)) as [r |], (find _ s) as [r' |]; try discriminate; [| reflexivity].
    assert (fst r = fst r') as -> by congruence. reflexivity.
  Qed.

  Lemma trap_from_scale : forall s limit t0 width pr, trap_from (map_values f s) limit t0 width (lift2 pr) = trap_from s limit t0 width pr.
  Proof. intros. unfold trap_from. rewrite trusted_scale, next_cut_scale. reflexivity. Qed.

  Lemma trap_scale : forall s limit t0 width stop lo hi,
    trap_energy (map_values f s) limit t0 width stop lo hi = c * trap_energy s limit t0 width stop lo hi.
  Proof.
    intros. unfold trap_energy. rewrite trap_used_scale, map_map, <- qsum_map_scale. apply qsum_map_ext. intros pr _.
    rewrite trap_from_scale. unfold trap_part, lift2, lift. cbn [fst snd]. cbv zeta. destruct (_ <? _)%Z; [| ring].
    unfold on_chord, Qcdiv. ring.
  Qed.

  Lemma trap_cov_scale : forall s limit t0 width stop lo hi,
    trap_covered (map_values f s) limit t0 width stop lo hi <-> trap_covered s limit t0 width stop lo hi.
  Proof.
    intros. unfold trap_covered. rewrite trap_used_scale. split.
    - intros (pr & H & Ho). apply in_map_iff in H. destruct H as (pr' & <- & H). rewrite trap_from_scale in Ho. exists pr'. split; [exact H | exact Ho].
    - intros (pr & H & Ho). exists (lift2 pr). rewrite trap_from_scale. split; [apply in_map, H | exact Ho].
  Qed.

  Lemma fmap_noinf : forall s, noinf (vals s) -> noinf (vals (map_values f s)).
  Proof.
    intros s HI x Hx. unfold vals, map_values in Hx. rewrite map_map in Hx. apply in_map_iff in Hx.
    destruct Hx as ([t v] & <- & Hin). cbn. assert (In v (vals s)) as Hv by (apply in_map_iff; exists (t, v); auto).
    destruct (HI v Hv). destruct v; split; congruence.
  Qed.

  Lemma fmap_sorted : forall s, sorted_index s -> sorted_index (map_values f s).
  Proof. intros s HS. unfold sorted_index. rewrite fmap_times. exact HS. Qed.

  Lemma fmap_ends : forall s, first_time (map_values f s) = first_time s /\ final_time (map_values f s) = final_time s.
  Proof. intros s. unfold first_time, final_time. rewrite fmap_times. auto. Qed.

  Lemma aggregate_scale : forall s width limit pt, sorted_index s -> noinf (vals s) -> (0 < width)%Z ->
    aggregate (map_values f s) width (qz (qfloor limit)) pt = rmap (map_values f) (aggregate s width (qz (qfloor limit)) pt).
  Proof.
    intros s width limit pt HS HI HW. destruct (fmap_ends s) as [E1 E2].
    destruct (points s) as [| p l] eqn:EP.
    { rewrite (aggregate_none s) by (apply points_none; assumption).
      rewrite (aggregate_none (map_values f s)); [reflexivity |]. apply points_none; [apply fmap_noinf, HI |].
      rewrite points_scale, EP. reflexivity. }
    assert (points s <> []) as HP by (rewrite EP; discriminate).
    assert (points (map_values f s) <> []) as HP' by (rewrite points_scale, EP; discriminate).
    assert (pt = OtherType \/ pt <> OtherType) as [-> | Hpt] by (destruct pt; auto; right; discriminate).
    { assert (forall s', noinf (vals s') -> points s' <> [] -> aggregate s' width (qz (qfloor limit)) OtherType = Raise ValueError) as K.
      { intros s' HI' H. unfold aggregate. destruct s' as [| [t0 v0] rest]; [contradiction H; reflexivity |].
        rewrite (available_points _ HI'). destruct (points ((t0, v0) :: rest)); [congruence | reflexivity]. }
      rewrite !K; auto. apply fmap_noinf, HI. }
    destruct (aggregate_spec s width limit pt HS HI HW HP Hpt) as (bs & -> & B1 & B2).
    destruct (aggregate_spec (map_values f s) width limit pt (fmap_sorted s HS) (fmap_noinf s HI) HW HP' Hpt) as (bs' & -> & B1' & B2').
    rewrite E1, E2 in B1'. cbn [rmap]. f_equal.
    assert (forall b x x', In (b, x) bs -> In (b, x') bs' -> x = x') as HB.
    { intros b x x' H H'. apply B2 in H. apply B2' in H'.
      assert (spec_covered pt (map_values f s) limit width (b - width) b <-> spec_covered pt s limit width (b - width) b) as K.
      { destruct pt; cbn [spec_covered]; rewrite ?E1, ?E2; [apply rect_cov_scale | apply trap_cov_scale | congruence]. }
      rewrite K in H'. destruct x, x'; intuition congruence. }
    rewrite <- B1' in B1. clear B1' B2 B2'. revert bs' B1 HB. induction bs as [| [b x] bs IH]; intros [| [b' x'] bs'] B1 HB; try discriminate; [reflexivity |].
    assert (b = b') as <- by (exact (f_equal (hd 0%Z) B1)). cbn [map map_values fst snd].
    rewrite (HB b x x' (or_introl eq_refl) (or_introl eq_refl)). f_equal.
    - f_equal. destruct x'; [| reflexivity]. f_equal.
      destruct pt; cbn [spec_energy]; rewrite ?E1, ?E2; [apply rect_scale | apply trap_scale | congruence].
    - apply IH; [exact (f_equal (@tl Z) B1) |]. intros b1 x1 x1' H H'. apply (HB b1); right; assumption.
  Qed.

  Lemma interpolate_scale : forall s target m, sorted_index s -> noinf (vals s) ->
    interpolate_series (map_values f s) target (Some m) = map_values f (interpolate_series s target (Some m)).
  Proof.
    intros s target m HS HI. destruct (qle 0 m) eqn:E; qb.
    - assert (forall u, map_values f u = map_values (fun q => c * q + 0) u) as K.
      { intros u. unfold map_values. apply map_ext. intros [t v]. cbn [fst snd]. unfold f. destruct v as [| | q |]; try reflexivity.
        replace (c * q + 0) with (c * q) by ring. reflexivity. }
      rewrite !K. apply (interpolate_affine c 0 s target (Some m) m HS HI eq_refl E).
    - rewrite !interpolate_no_limit.
      + unfold map_values. rewrite map_map. reflexivity.
      + exact HS.
      + right. exists m. split; [reflexivity | exact E].
      + apply fmap_sorted, HS.
      + right. exists m. split; [reflexivity | exact E].
  Qed.

  Lemma interp_series_ok : forall s target m, sorted_index s -> noinf (vals s) -> StronglySorted Z.lt target ->
    sorted_index (interpolate_series s target (Some m)) /\ noinf (vals (interpolate_series s target (Some m))).
  Proof.
    intros s target m HS HI HT. split.
    - unfold sorted_index, interpolate_series, times. rewrite map_map, map_id. exact HT.
    - destruct (qle 0 m) eqn:E; qb.
      + intros x Hx. apply in_map_iff in Hx. destruct Hx as ([t v] & <- & H).
        destruct (interpolate_spec s target (Some m) m HS HI eq_refl E) as [_ K]. specialize (K _ _ H). cbn [snd].
        inversion K; split; discriminate.
      + rewrite interpolate_no_limit; [| exact HS | right; exists m; split; [reflexivity | exact E]].
        intros x Hx. unfold vals in Hx. rewrite map_map in Hx. apply in_map_iff in Hx. destruct Hx as (t & <- & _). split; discriminate.
  Qed.

  Lemma default_width : forall s med, sorted_index s -> (2 <= length s)%nat -> is_median (gaps_between (times s)) med -> (0 < qfloor med)%Z.
  Proof.
    intros s med HS HL HM.
    assert (gaps_between (times s) <> []) as Hne by (destruct s as [| r0 [| r1 l]]; cbn in HL; try lia; discriminate).
    assert (qz 1 <= med) as H1.
    { rewrite (is_median_unique _ _ Hne HM).
      assert (forall l x, StronglySorted Z.lt l -> In x (gaps_between l) -> qz 1 <= x) as K.
      { clear. induction l as [| a [| b l] IH]; intros x HS H; [destruct H | destruct H |].
        apply StronglySorted_inv in HS. destruct HS as [HS F]. destruct H as [<- | H]; [| apply IH; assumption].
        inversion F; subst. apply qz_le_i. lia. }
      assert (exists M, forall x, In x (gaps_between (times s)) -> x <= M) as [M HM'].
      { clear. induction (gaps_between (times s)) as [| x l [M IH]]; [exists 0; intros x [] |].
        exists (qmax x M). intros y [<- | Hy]; [qb; qcases; qlra |]. eapply Qcle_trans; [apply IH, Hy | qb; qcases; qlra]. }
      destruct (qmedian_bounds (gaps_between (times s)) (qz 1) M Hne) as [B _]; [| exact B].
      intros x Hx. split; [apply (K (times s)); assumption | apply HM', Hx]. }
    apply qfloor_mono in H1. rewrite qfloor_qz in H1. lia.
  Qed.

  Lemma mask_scale : forall power limit e,
    map (fun r => (fst r, if fgt (lookup_bfill (t_step_nanoseconds (map_values f power)) (fst r)) (Fin limit) then NaN else snd r))
        (map_values f e) =
    map_values f (map (fun r => (fst r, if fgt (lookup_bfill (t_step_nanoseconds power) (fst r)) (Fin limit) then NaN else snd r)) e).
  Proof.
    intros power limit e. unfold t_step_nanoseconds. rewrite fmap_times. unfold map_values. rewrite !map_map. apply map_ext.
    intros [t v]. cbn [fst snd]. destruct (fgt _ _); reflexivity.
  Qed.

  Lemma energy_scale : forall freq power target max pt, sorted_index power -> noinf (vals power) ->
    match target with Some w => (0 < w)%Z | None => True end ->
    energy_from_power freq (map_values f power) target max pt = rmap (map_values f) (energy_from_power freq power target max pt).
  Proof.
    intros freq power target max pt HS HI HW.
    assert ((length power < 2)%nat \/ (2 <= length power)%nat) as [HL | HL] by lia.
    - destruct power as [| [t v] [| r l]]; cbn in HL; try lia.
      + cbn. destruct pt; try reflexivity; destruct target, freq; reflexivity.
      + assert (v = NaN \/ exists q, v = Fin q) as [-> | [q ->]].
        { destruct (HI v (or_introl eq_refl)). destruct v; eauto; congruence. }
        * cbn. destruct pt; try reflexivity; destruct target, freq; reflexivity.
        * assert (forall w, fdiv (fdiv (fmul (Fin (f q)) (fz w)) (fz 1000000000)) (fz 3600) =
              match fdiv (fdiv (fmul (Fin q) (fz w)) (fz 1000000000)) (fz 3600) with Fin q => Fin (f q) | e => e end) as K.
          { intros w. unfold fz. cbn [fmul fdiv]. assert (qeq (qz 1000000000) 0 = false) as -> by reflexivity. cbn [fdiv].
            assert (qeq (qz 3600) 0 = false) as -> by reflexivity. f_equal. unfold f, Qcdiv. ring. }
          unfold energy_from_power, map_values. cbn [map fst snd].
          destruct pt; try reflexivity; destruct target as [w |]; try (destruct freq as [w |]); try reflexivity;
            cbn [rmap map fst snd]; rewrite K; reflexivity.
    - destruct (median_exists power HL) as [med HM].
      assert ((2 <= length (map_values f power))%nat) as HL' by (unfold map_values; rewrite map_length; exact HL).
      assert (is_median (gaps_between (times (map_values f power))) med) as HM' by (rewrite fmap_times; exact HM).
      assert (0 < match target with Some w => w | None => qfloor med end)%Z as HW'.
      { destruct target; [exact HW | apply (default_width power med HS HL HM)]. }
      set (width := match target with Some w => w | None => qfloor med end) in *.
      destruct (fmap_ends power) as [E1 E2].
      destruct (qle (qz width) med) eqn:C; qb.
      + rewrite (energy_unfold_short freq power target width max med pt HL HM eq_refl C).
        rewrite (energy_unfold_short freq (map_values f power) target width max med pt HL' HM' eq_refl C).
        rewrite E1, E2, interpolate_scale by assumption.
        assert (StronglySorted Z.lt (date_range (first_time power) (final_time power) width)) as HD by (apply grid_sorted, HW').
        destruct (interp_series_ok power _ (qz (qfloor (the_limit max med))) HS HI HD) as [I1 I2].
        rewrite aggregate_scale by assumption.
        destruct (aggregate _ _ _ _) as [e | e]; [| reflexivity]. cbn [bind rmap]. f_equal. apply mask_scale.
      + assert (target = Some width) as ET.
        { unfold width in *. destruct target; [reflexivity |]. exfalso. pose proof (qfloor_le med). qlra. }
        rewrite ET. rewrite (energy_unfold_long freq power width max med pt HL HM C).
        rewrite (energy_unfold_long freq (map_values f power) width max med pt HL' HM' C).
        rewrite aggregate_scale by assumption.
        destruct (aggregate _ _ _ _) as [e | e]; [| reflexivity]. cbn [bind rmap]. f_equal. apply mask_scale.
  Qed.
End Scale.

(** ** The value at the end of a long step is not used (right labelled) *)

Section Ignored.
  Variable g : Z.
  Variable q' : Qc.
  Let lift := fun p : Z * Qc => if (fst p =? g)%Z then (g, q') else p.
  Let lift2 := fun pr : (Z * Qc) * (Z * Qc) => (lift (fst pr), lift (snd pr)).

  Lemma lift_fst : forall p, fst (lift p) = fst p.
  Proof. intros p. unfold lift. destruct (fst p =? g)%Z eqn:E; [apply Z.eqb_eq in E; symmetry; exact E | reflexivity]. Qed.

  Lemma points_set : forall s, (forall v, In (g, v) s -> exists q, v = Fin q) -> points (set_value s g q') = map lift (points s).
  Proof.
    induction s as [| [t v] s IH]; intros H; [reflexivity |].
    assert (forall v, In (g, v) s -> exists q, v = Fin q) as H' by (intros w Hw; apply H; right; exact Hw).
    cbn [set_value map fst]. fold (set_value s g q'). destruct (t =? g)%Z eqn:E.
    - apply Z.eqb_eq in E. subst t. destruct (H v (or_introl eq_refl)) as [q ->]. cbn [points map]. unfold lift at 1. cbn [fst].
      rewrite Z.eqb_refl. f_equal. apply IH, H'.
    - destruct v as [| | q |]; cbn [points]; try (apply IH, H'). cbn [map]. unfold lift at 1. cbn [fst]. rewrite E. f_equal. apply IH, H'.
  Qed.

  Lemma set_times : forall s, times (set_value s g q') = times s.
  Proof.
    intros s. unfold times, set_value. rewrite map_map. apply map_ext. intros [t v]. cbn [fst].
    destruct (t =? g)%Z eqn:E; [apply Z.eqb_eq in E; symmetry; exact E | reflexivity].
  Qed.

  Lemma consec_set : forall P, consec (map lift P) = map lift2 (consec P).
  Proof.
    induction P as [| a P IH]; [reflexivity |]. destruct P as [| b P]; [reflexivity |].
    rewrite consec_cons. cbn [map] in *. rewrite consec_cons, IH. reflexivity.
  Qed.

  Lemma close_set : forall limit pr, close limit (lift2 pr) = close limit pr.
  Proof. intros limit pr. unfold close, lift2. cbn [fst snd]. rewrite !lift_fst. reflexivity. Qed.

  Lemma energy_ignored : forall freq power width max med a pa qg, sorted_index power -> noinf (vals power) ->
    (2 <= length power)%nat -> is_median (gaps_between (times power)) med -> (0 < width)%Z -> med < qz width ->
    In ((a, pa), (g, qg)) (consec (points power)) -> the_limit max med < qz (g - a) ->
    energy_from_power freq (set_value power g q') (Some width) max RightLabeled =
    energy_from_power freq power (Some width) max RightLabeled.
  Proof.
    intros freq power width max med a pa qg HS HI HL HM HW Hlt Hgap Hlong.
    destruct (consec_fst _ _ _ _ Hgap) as [_ Hg]. pose proof Hg as Hg'. apply points_In in Hg'.
    assert (forall v, In (g, v) power -> exists q, v = Fin q) as HF.
    { intros v Hv. exists qg. exact (sorted_fun power _ _ _ HS Hv Hg'). }
    pose proof (points_set power HF) as EP. pose proof (set_times power) as ET.
    assert (sorted_index (set_value power g q')) as HS' by (unfold sorted_index; rewrite ET; exact HS).
    assert (noinf (vals (set_value power g q'))) as HI'.
    { intros x Hx. unfold vals, set_value in Hx. rewrite map_map in Hx. apply in_map_iff in Hx. destruct Hx as ([t v] & <- & Hin).
      cbn [fst]. destruct (t =? g)%Z; [split; discriminate |]. cbn [snd]. apply HI. apply in_map_iff. exists (t, v). auto. }
    assert ((2 <= length (set_value power g q'))%nat) as HL' by (unfold set_value; rewrite map_length; exact HL).
    assert (points power <> []) as HP by (intros E; rewrite E in Hg; destruct Hg).
    assert (points (set_value power g q') <> []) as HP' by (rewrite EP; destruct (points power); [congruence | discriminate]).
    assert (forall limit, steps_used (set_value power g q') limit = map lift2 (steps_used power limit)) as ES.
    { intros limit. unfold steps_used. rewrite EP, consec_set, filter_map_comm. f_equal. apply filter_ext. intros pr. apply close_set. }
    set (limit := the_limit max med) in *.
    assert (forall lo hi, rect_energy (set_value power g q') limit lo hi = rect_energy power limit lo hi) as EE.
    { intros lo hi. unfold rect_energy. rewrite ES, map_map. apply qsum_map_ext. intros [x y] Hxy.
      unfold rect_part, lift2. cbn [fst snd]. rewrite !lift_fst. f_equal. unfold lift. destruct (fst y =? g)%Z eqn:E; [exfalso | reflexivity].
      apply Z.eqb_eq in E. apply filter_In in Hxy. destruct Hxy as [Hxy C].
      pose proof (points_sorted power HS) as SP.
      pose proof (sorted_consec _ _ _ SP Hxy) as [L _]. pose proof (sorted_consec _ _ _ SP Hgap) as [L' _]. cbn [fst] in L'.
      pose proof (pair_at_unique (points power) g x y SP Hxy ltac:(lia)) as U1.
      pose proof (pair_at_unique (points power) g _ _ SP Hgap ltac:(cbn [fst]; lia)) as U2.
      rewrite U1 in U2. injection U2 as -> ->. unfold close in C. cbn [fst snd] in C. qb. qlra. }
    assert (forall lo hi, rect_covered (set_value power g q') limit lo hi <-> rect_covered power limit lo hi) as EC.
    { intros lo hi. unfold rect_covered. rewrite ES. split.
      - intros (pr & H & Ho). apply in_map_iff in H. destruct H as (pr' & <- & H). exists pr'. split; [exact H |].
        unfold lift2 in Ho. cbn [fst snd] in Ho. rewrite !lift_fst in Ho. exact Ho.
      - intros (pr & H & Ho). exists (lift2 pr). split; [apply in_map, H |]. unfold lift2. cbn [fst snd]. rewrite !lift_fst. exact Ho. }
    rewrite (energy_unfold_long freq power width max med RightLabeled HL HM Hlt).
    rewrite (energy_unfold_long freq (set_value power g q') width max med RightLabeled HL' ltac:(rewrite ET; exact HM) Hlt).
    fold limit.
    destruct (aggregate_spec power width limit RightLabeled HS HI HW HP ltac:(discriminate)) as (bs & -> & B1 & B2).
    destruct (aggregate_spec (set_value power g q') width limit RightLabeled HS' HI' HW HP' ltac:(discriminate)) as (bs' & -> & B1' & B2').
    cbn [bind]. f_equal. unfold t_step_nanoseconds. rewrite ET.
    assert (first_time (set_value power g q') = first_time power) as F1 by (unfold first_time; rewrite ET; reflexivity).
    assert (final_time (set_value power g q') = final_time power) as F2 by (unfold final_time; rewrite ET; reflexivity).
    rewrite F1, F2 in B1'. f_equal. cbn [spec_energy spec_covered] in *.
    assert (forall b x x', In (b, x) bs -> In (b, x') bs' -> x = x') as HB.
    { intros b x x' H H'. apply B2 in H. apply B2' in H'. rewrite EC in H'. destruct x, x'; intuition congruence. }
    rewrite <- B1' in B1. clear B1' B2 B2'. revert bs' B1 HB.
    induction bs as [| [b x] bs IH]; intros [| [b' x'] bs'] B1 HB; try discriminate; [reflexivity |].
    assert (b = b') as <- by (exact (f_equal (hd 0%Z) B1)). cbn [map fst snd].
    rewrite (HB b x x' (or_introl eq_refl) (or_introl eq_refl)), EE. f_equal.
    apply IH; [exact (f_equal (@tl Z) B1) |]. intros b1 x1 x1' H H'. apply (HB b1); right; assumption.
  Qed.
End Ignored.

(** ** One row, and errors *)

Lemma energy_single : forall freq t q target max pt,
  energy_from_power freq [(t, Fin q)] target max pt =
  match pt, (match target with Some w => Some w | None => freq end) with
  | Instantaneous, _ | _, None => Raise ValueError
  | _, Some w => Ok [(t, Fin (q * hours w))]
  end.
Proof.
  intros freq t q target max pt. unfold energy_from_power. destruct pt; try reflexivity;
    destruct (match target with Some w => Some w | None => freq end) as [w |]; try reflexivity; cbn [map fst snd]; repeat f_equal;
    unfold fz; cbn [fmul fdiv]; (assert (qeq (qz 1000000000) 0 = false) as -> by reflexivity); cbn [fdiv];
    (assert (qeq (qz 3600) 0 = false) as -> by reflexivity); f_equal; unfold hours;
    replace 3600000000000%Z with (1000000000 * 3600)%Z by reflexivity; rewrite qz_mul; field; split; discriminate.
Qed.

Lemma energy_bad_type : forall freq power target max, noinf (vals power) -> sorted_index power -> (2 <= length power)%nat ->
  match target with Some w => (0 < w)%Z | None => True end ->
  exists e, energy_from_power freq power target max OtherType = Raise e.
Proof.
  intros freq power target max HI HS HL HW. destruct (median_exists power HL) as [med HM].
  assert (forall s w l, exists e, aggregate s w l OtherType = Raise e) as K.
  { intros s w l. unfold aggregate. destruct s as [| [t v] rest]; [eauto |]. destruct (available _); eauto. }
  set (width := match target with Some w => w | None => qfloor med end) in *.
  destruct (qle (qz width) med) eqn:C; qb.
  - rewrite (energy_unfold_short freq power target width max med OtherType HL HM eq_refl C).
    match goal with |- context [aggregate ?s ?w ?l _] => destruct (K s w l) as [e ->] end. exists e. reflexivity.
  - assert (target = Some width) as ET.
    { unfold width in *. destruct target; [reflexivity |]. exfalso. pose proof (qfloor_le med). qlra. }
    rewrite ET, (energy_unfold_long freq power width max med OtherType HL HM C).
    match goal with |- context [aggregate ?s ?w ?l _] => destruct (K s w l) as [e ->] end. exists e. reflexivity.
Qed.

(** ** Instantaneous power *)

Lemma energy_long_trap : forall freq power width max med, sorted_index power -> noinf (vals power) ->
  (2 <= length power)%nat -> is_median (gaps_between (times power)) med -> (0 < width)%Z -> med < qz width ->
  (points power = [] -> energy_from_power freq power (Some width) max Instantaneous = Raise IndexError) /\
  (points power <> [] -> exists out, energy_from_power freq power (Some width) max Instantaneous = Ok out /\
    StronglySorted Z.lt (times out) /\
    (forall t, In t (times out) <->
       exists k, (1 <= k)%Z /\ t = (first_time power + width * k)%Z /\ (t - width < final_time power)%Z) /\
    forall t v, In (t, v) out ->
      let stop := end_of_bins (first_time power) width (final_time power) in
      reported (in_long_step power (the_limit max med) t)
               (trap_covered power (the_limit max med) (first_time power) width stop (t - width) t)
               (trap_energy power (the_limit max med) (first_time power) width stop (t - width) t) v).
Proof.
  intros freq power width max med HS HI HL HM HW Hlt.
  exact (energy_long_spec freq power width max med Instantaneous HS HI HL HM HW Hlt ltac:(discriminate)).
Qed.

(** Without gaps: the trapezoids over all steps, the last value held to the end. *)
Lemma energy_trapezoids : forall freq power width max med t v out, sorted_index power -> noinf (vals power) ->
  (2 <= length power)%nat -> is_median (gaps_between (times power)) med -> (0 < width)%Z -> med < qz width ->
  no_gaps power (the_limit max med) ->
  energy_from_power freq power (Some width) max Instantaneous = Ok out -> In (t, v) out ->
  v = Fin (qsum (map (fun pr => trap_part (fst (fst pr)) (t - width) t pr)
                     (consec (held power (end_of_bins (first_time power) width (final_time power)))))).
Proof.
  intros freq power width max med t v out HS HI HL HM HW Hlt HG E Hin.
  destruct (energy_long_trap freq power width max med HS HI HL HM HW Hlt) as [_ K].
  destruct power as [| [t0 v0] rest] eqn:Hp; [cbn in HL; lia |]. rewrite <- Hp in *.
  destruct (ng_points power (the_limit max med) t0 v0 rest Hp HI HG) as (q0 & l0 & EP).
  destruct K as (out' & E' & _ & HT & HV); [rewrite EP; discriminate |].
  assert (out' = out) as -> by congruence.
  assert (first_time power = t0) as Ef by (rewrite Hp; reflexivity). rewrite Ef in *.
  assert (In t (times out)) as Hto by (apply in_map_iff; exists (t, v); auto). apply HT in Hto. destruct Hto as (k & Hk & Et & Hl).
  destruct (HV t v Hin) as (_ & _ & R). rewrite R.
  - f_equal. apply (ng_trap_energy power _ t0 v0 rest Hp HS HI HG width _ _ HW).
  - apply (ng_not_long power _ HI HG).
  - apply (ng_trap_covered power _ t0 v0 rest Hp HS HI HG width _ _ HW); nia.
Qed.

Lemma gap_values : forall l g, In g (gaps_between l) -> exists a b, In (a, b) (consec l) /\ g = qz (b - a).
Proof.
  induction l as [| x [| y l] IH]; intros g H; [destruct H | destruct H |]. destruct H as [<- | H].
  - exists x, y. split; [left; reflexivity | reflexivity].
  - destruct (IH g H) as (a & b & Hab & E). exists a, b. split; [right; exact Hab | exact E].
Qed.

Lemma grid_consec : forall t0 width n m a b,
  In (a, b) (consec (map (fun k => (t0 + width * Z.of_nat k)%Z) (seq m n))) -> b = (a + width)%Z.
Proof.
  intros t0 width n. induction n as [| n IH]; intros m a b H; [destruct H |]. destruct n as [| n]; [destruct H |].
  cbn [seq map] in H. rewrite consec_cons in H. destruct H as [H | H].
  - injection H as <- <-. lia.
  - apply (IH (S m) a b). exact H.
Qed.

Lemma ng_interp : forall power limit t0 v0 rest t, power = (t0, v0) :: rest -> sorted_index power -> noinf (vals power) ->
  no_gaps power limit -> (t0 <= t <= final_time power)%Z -> exists q, interp power limit t (Fin q).
Proof.
  intros power limit t0 v0 rest t Hp HS HI HG Ht. destruct (ng_points power limit t0 v0 rest Hp HI HG) as (q0 & l0 & EP).
  destruct (Z.eq_dec t t0) as [-> | N].
  { exists q0. apply interp_point, points_In. rewrite EP. left. reflexivity. }
  destruct (ng_covers power limit t0 v0 rest Hp HS HI HG t ltac:(lia)) as [[[a p] [b q]] E].
  pose proof (pair_at_Some _ _ _ E) as [E1 E2]. cbn [fst snd] in E2.
  pose proof (sorted_consec _ _ _ (points_sorted power HS) E1) as [_ HC]. cbn [fst] in HC.
  destruct (consec_fst _ _ _ _ E1) as [Ha Hb]. pose proof (ng_close power limit HI HG _ E1) as C. unfold close in C. cbn [fst snd] in C. qb.
  apply points_In in Ha. apply points_In in Hb.
  destruct (Z.eq_dec t b) as [-> | N2]; [exists q; apply interp_point, Hb |].
  eexists. eapply interp_between; [| exact C]. split; [exact Ha |]. split; [exact Hb |]. split; [lia |].
  intros u w Hu. apply points_In in Hu. specialize (HC _ Hu). exact HC.
Qed.

Lemma energy_upsampled_inst : forall freq power target width max med, sorted_index power -> noinf (vals power) ->
  (2 <= length power)%nat -> is_median (gaps_between (times power)) med ->
  width = match target with Some w => w | None => qfloor med end -> (0 < width)%Z -> qz width <= med ->
  no_gaps power (the_limit max med) ->
  exists out, energy_from_power freq power target max Instantaneous = Ok out /\
    StronglySorted Z.lt (times out) /\
    (forall t, In t (times out) <-> on_grid power width t /\ t <> first_time power) /\
    forall t v, In (t, v) out -> exists q' q,
      interp power (the_limit max med) (t - width) (Fin q') /\ interp power (the_limit max med) t (Fin q) /\
      v = Fin ((q + q') / qz 2 * hours width).
Proof.
  intros freq power target width max med HS HI HL HM EW HW Hle HG.
  rewrite (energy_unfold_short freq power target width max med Instantaneous HL HM EW Hle).
  assert (gaps_between (times power) <> []) as Hne by (destruct power as [| r0 [| r1 l]]; cbn in HL; try lia; discriminate).
  assert (qz width <= the_limit max med) as HWl.
  { eapply Qcle_trans; [exact Hle |]. pose proof (is_median_unique _ _ Hne HM) as EM.
    destruct (qmedian_bounds (gaps_between (times power)) 0 (the_limit max med) Hne) as [_ B]; [| rewrite <- EM in B; exact B].
    intros x Hx. split; [apply Qclt_le_weak, (gaps_positive (times power)); assumption | apply HG, Hx]. }
  set (limit := the_limit max med) in *.
  assert (0 <= limit) as H0 by (eapply Qcle_trans; [| exact HWl]; apply qz_nonneg; lia).
  destruct power as [| [t0 v0] rest] eqn:Hp; [cbn in HL; lia |]. rewrite <- Hp in *.
  assert (first_time power = t0) as Ef by (rewrite Hp; reflexivity). rewrite Ef.
  set (grid := date_range t0 (final_time power) width).
  set (p := interpolate_series power grid (Some (qz (qfloor limit)))).
  pose proof (p_times power width limit t0) as PT. fold grid p in PT.
  pose proof (p_sorted power width limit t0 HW) as PS. fold grid p in PS.
  pose proof (p_noinf power width limit t0 HS HI H0) as PI. fold grid p in PI.
  pose proof (p_interp power width limit t0 HS HI H0) as PV. fold grid p in PV.
  pose proof (p_value power width limit t0 HS HI H0) as PW. fold grid p in PW.
  destruct (p_cons power width limit t0 v0 rest Hp HS HW) as (w & l & Ep). fold grid in Ep. fold p in Ep.
  pose proof (grid_In power width t0 v0 rest Hp HS HW) as GI. fold grid in GI.
  assert (forall t, In t grid -> exists q, interp power limit t (Fin q)) as GV.
  { intros t Ht. apply GI in Ht. destruct Ht as (k & Hk & -> & Hf). apply (ng_interp power limit t0 v0 rest); auto. nia. }
  assert (no_gaps p limit) as PG.
  { split.
    - intros v Hv. apply in_map_iff in Hv. destruct Hv as ([t v'] & <- & Hv). cbn [snd].
      assert (In t grid) as Ht by (rewrite <- PT; apply in_map_iff; exists (t, v'); auto).
      destruct (GV t Ht) as [q Hq]. rewrite (interp_unique _ _ _ _ _ HS (PV _ _ Hv) Hq). discriminate.
    - intros g Hg. rewrite PT in Hg. apply gap_values in Hg. destruct Hg as (a & b & Hab & ->).
      unfold grid, date_range in Hab. apply grid_consec in Hab. subst b. replace (a + width - a)%Z with width by lia. exact HWl. }
  destruct (ng_points p limit t0 w l Ep PI PG) as (q0 & l0 & EP).
  assert (final_time p = (t0 + width * ((final_time power - t0) / width))%Z) as EF.
  { rewrite <- (last_fst p (t0, NaN)) by (rewrite Ep; discriminate). apply (final_grid power width limit t0 v0 rest Hp HS HW). }
  assert (end_of_bins t0 width (final_time p) = final_time p) as EB.
  { unfold end_of_bins. rewrite EF. replace (- (t0 + width * ((final_time power - t0) / width) - t0))%Z with ((- ((final_time power - t0) / width)) * width)%Z by lia.
    rewrite Z.div_mul by lia. lia. }
  assert (held p (final_time p) = points p) as EH.
  { unfold held. destruct (rev (points p)) as [| [tn qn] k] eqn:ER; [apply app_nil_r |].
    assert (tn = final_time p) as ->.
    { pose proof (ng_ends p limit t0 w l Ep PI PG) as K.
      assert (points p = rev k ++ [(tn, qn)]) as EQ by (rewrite <- (rev_involutive (points p)), ER; reflexivity).
      rewrite EQ, map_app in K. cbn [map] in K. rewrite last_last in K. exact K. }
    rewrite Z.ltb_irrefl. apply app_nil_r. }
  destruct (aggregate_spec p width limit Instantaneous PS PI HW ltac:(rewrite EP; discriminate) ltac:(discriminate)) as (bs & -> & B1 & B2).
  cbn [bind]. rewrite map_map. cbn [fst snd]. eexists. split; [reflexivity |].
  assert (first_time p = t0) as Efp by (rewrite Ep; reflexivity). rewrite Efp in B1.
  assert (bin_labels t0 width (final_time p) = grid) as EL.
  { rewrite EF. unfold bin_labels, grid, date_range. f_equal. f_equal. unfold cdiv.
    replace (- (t0 + width * ((final_time power - t0) / width) - t0))%Z with ((- ((final_time power - t0) / width)) * width)%Z by lia.
    rewrite Z.div_mul by lia.
    assert (t0 <= final_time power)%Z.
    { rewrite <- (last_fst power (t0, NaN)) by (rewrite Hp; discriminate). apply (last_ge power t0 v0 rest Hp HS). }
    assert (0 <= (final_time power - t0) / width)%Z by (apply Z.div_pos; lia). lia. }
  rewrite EL in B1.
  assert (StronglySorted Z.lt grid) as SG by (apply grid_sorted, HW).
  assert (exists k, grid = t0 :: k) as [k Ek] by (exists (times l); rewrite <- PT, Ep; reflexivity).
  rewrite Ek in SG. apply StronglySorted_inv in SG. destruct SG as [SG F]. rewrite Forall_forall in F.
  unfold times at 1 2. rewrite !map_map. cbn [fst]. change (fun x : Z * bool => fst x) with (@fst Z bool). rewrite B1.
  split; [rewrite Ek; exact SG |]. split.
  - intros t. unfold on_grid. rewrite Ef, <- GI, Ek. cbn [tl In]. split.
    + intros K. split; [right; exact K |]. specialize (F _ K). lia.
    + intros [[K | K] N]; [congruence | exact K].
  - intros t v H. apply in_map_iff in H. destruct H as ([b c] & E & Hb). cbn [fst snd] in E.
    assert (b = t) as -> by (exact (f_equal fst E)). assert (_ = v) as Ev by (exact (f_equal snd E)). cbn [snd] in Ev. clear E.
    assert (In t (tl grid)) as Htl by (rewrite <- B1; apply in_map_iff; exists (t, c); auto).
    assert (In t grid /\ (t0 < t)%Z) as [Ht Hlt].
    { rewrite Ek in Htl |- *. cbn [tl] in Htl. split; [right; exact Htl | apply F, Htl]. }
    assert (In (t - width)%Z grid) as Ht'.
    { apply GI in Ht. destruct Ht as (j & Hj & -> & Hf). apply GI. exists (j - 1)%Z. assert (1 <= j)%Z by nia. split; [lia |]. split; lia. }
    destruct (GV _ Ht) as [q Hq]. destruct (GV _ Ht') as [q' Hq']. exists q', q. split; [exact Hq' |]. split; [exact Hq |].
    assert (t <= final_time p)%Z as Hfp.
    { rewrite <- (last_fst p (t0, NaN)) by (rewrite Ep; discriminate). apply (proj2 (last_row p t0 w l Ep PS)). rewrite PT. exact Ht. }
    assert (c = true) as ->.
    { apply (B2 _ _ Hb). cbn [spec_covered]. rewrite Efp.
      assert (t0 <= t - width)%Z by (apply GI in Ht'; destruct Ht' as (j & Hj & -> & _); nia).
      apply (ng_trap_covered p limit t0 w l Ep PS PI PG width _ _ HW); lia. }
    rewrite mask_off in Ev; [| exact HS | apply (ng_not_long power _ HI HG)]. rewrite <- Ev. f_equal.
    cbn [spec_energy]. rewrite Efp, (ng_trap_energy p limit t0 w l Ep PS PI PG width _ _ HW), EB, EH.
    pose proof (PW _ _ Ht Hq) as K1. pose proof (PW _ _ Ht' Hq') as K2. apply points_In in K1. apply points_In in K2.
    assert (In (((t - width)%Z, q'), (t, q)) (consec (points p))) as HIN.
    { destruct (pair_at_ex (points p) t _ _ (points_sorted p PS) K2 K1 ltac:(cbn [fst]; lia)) as [[x y] E].
      apply pair_at_Some in E. destruct E as [E1 E2]. cbn [fst snd] in E2.
      assert (fst y = (fst x + width)%Z) as Exy.
      { assert (In (fst x, fst y) (consec (map fst (points p)))) as KC.
        { apply consec_In in E1. destruct E1 as (l1 & l2 & EQ). apply consec_In. rewrite EQ, map_app. exists (map fst l1), (map fst l2). reflexivity. }
        rewrite (ng_times p limit PI PG), PT in KC. unfold grid, date_range in KC. apply grid_consec in KC. exact KC. }
      pose proof (sorted_consec _ _ _ (points_sorted p PS) E1) as [_ HC]. pose proof (HC _ K1) as C1. pose proof (HC _ K2) as C2. cbn [fst] in C1, C2.
      destruct (consec_fst _ _ _ _ E1) as [Hx Hy]. destruct x as [tx qx], y as [ty qy]. cbn [fst] in *.
      assert (ty = t) as -> by lia. assert (tx = (t - width)%Z) as -> by lia.
      apply points_In in Hx. apply points_In in Hy. apply points_In in K1. apply points_In in K2.
      pose proof (sorted_fun p _ _ _ PS Hx K2) as X1. pose proof (sorted_fun p _ _ _ PS Hy K1) as X2.
      replace q' with qx by congruence. replace q with qy by congruence. exact E1. }
    rewrite (qsum_single _ _ _ (((t - width)%Z, q'), (t, q))).
    + unfold trap_part. cbn [fst snd]. cbv zeta. rewrite Z.max_id, Z.min_id. assert (t - width <? t = true)%Z as -> by lia.
      rewrite chord_end, chord_start by lia. f_equal. f_equal. lia.
    + apply consec_NoDup, points_sorted, PS.
    + exact HIN.
    + intros [x y] Hxy Hne'. unfold trap_part. cbn [fst snd]. cbv zeta.
      destruct (Z.max (fst x) (t - width) <? Z.min (fst y) t)%Z eqn:C; [exfalso | reflexivity]. apply Hne'.
      pose proof (pair_at_unique (points p) (Z.min (fst y) t) x y (points_sorted p PS) Hxy ltac:(lia)) as U1.
      pose proof (pair_at_unique (points p) (Z.min (fst y) t) _ _ (points_sorted p PS) HIN ltac:(cbn [fst]; lia)) as U2.
      congruence.
Qed.

Lemma energy_uncovered : forall freq power width max med t v out, sorted_index power -> noinf (vals power) ->
  (2 <= length power)%nat -> is_median (gaps_between (times power)) med -> (0 < width)%Z -> med < qz width ->
  energy_from_power freq power (Some width) max RightLabeled = Ok out -> In (t, v) out ->
  (forall pr, In pr (consec (points power)) -> (fst (fst pr) < t)%Z -> (t - width < fst (snd pr))%Z ->
     the_limit max med < qz (fst (snd pr) - fst (fst pr))) -> v = NaN.
Proof.
  intros freq power width max med t v out HS HI HL HM HW Hlt E Hin HU.
  destruct (energy_long freq power width max med HS HI HL HM HW Hlt) as [K0 K].
  assert (points power <> []) as HP by (intros HP; specialize (K0 HP); congruence).
  destruct (K HP) as (out' & E' & _ & _ & HV). assert (out' = out) as -> by congruence.
  destruct (HV t v Hin) as (_ & R & _). apply R. intros (pr & Hpr & Hov). apply filter_In in Hpr. destruct Hpr as [Hpr C].
  unfold close in C. qb. unfold overlap in Hov.
  assert (the_limit max med < qz (fst (snd pr) - fst (fst pr))) by (apply HU; [exact Hpr | lia | lia]). qlra.
Qed.
