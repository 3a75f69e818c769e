(** From measured power to the report: a system that always delivers the same share of the
    expected power. *)

From Coq Require Import QArith Qcanon List ZArith Bool Arith Lia Sorted Permutation String.
From Verif.Base Require Import QcExtra ISort Quantile Fl TimeSeries Calendar Rolling.
From Verif.Spec Require Import Stats Time YoY Interp Energy Normalization Superposition FilterSets TrendRuns Pipeline Steady Fading RawPower Filters.
From Verif.Model Require Import Interpolation Energy Normalization FilterDict TrendAnalysis YearOnYear.
From Verif.Proofs Require Import StatsP InterpP EnergyP EnergyP2 EnergyP4 EnergyP6 NormP2 SuperP GrowP EnergyP7 DictP SteadyP SteadyP2 TrendP7 FadingP NormP.
Import ListNotations.
Open Scope list_scope.
Open Scope Qc_scope.

(** ** Two limits that make no difference *)

Lemma step_back : forall s w t, (0 < w)%Z -> on_grid s w t -> t <> first_time s -> on_grid s w (t - w).
Proof.
  intros s w t HW (k & Hk & -> & Hle) N. exists (k - 1)%Z. assert (k <> 0)%Z by (intros ->; apply N; lia). split; [lia |]. split; [lia | lia].
Qed.

Lemma same_limit : forall freq freq' s target target' width max max' med l l', sorted_index s -> noinf (vals s) -> (2 <= List.length s)%nat ->
  is_median (gaps_between (times s)) med ->
  width = match target with Some w => w | None => qfloor med end -> width = match target' with Some w => w | None => qfloor med end ->
  l = the_limit max med -> l' = the_limit max' med -> (0 < width)%Z -> qz width <= med -> qz width <= l -> qz width <= l' ->
  (forall t q, on_grid s width t -> (interp s l t (Fin q) <-> interp s l' t (Fin q))) ->
  (forall t, ~ in_long_step s l t /\ ~ in_long_step s l' t) ->
  energy_from_power freq s target max RightLabeled = energy_from_power freq' s target' max' RightLabeled.
Proof.
  intros freq freq' s target target' width max max' med l l' HS HI HL HM EW EW' EL EL' HW Hm Hl Hl' HT HN.
  assert (0 <= l /\ 0 <= l') as [H0 H0'] by (assert (0 < qz width) by (apply qz_pos; exact HW); split; qlra).
  destruct (energy_short freq s target width max med l HS HI HL HM EW EL HW Hm H0) as [N P].
  destruct (energy_short freq' s target' width max' med l' HS HI HL HM EW' EL' HW Hm H0') as [N' P'].
  assert (s <> []) as NE by (destruct s; [cbn in HL; lia | discriminate]).
  destruct (grid_dec s width l HS HI H0 HW NE) as [(t0 & q0 & G0 & I0) | NG].
  - destruct (P t0 q0 G0 I0) as (out & Eo & S1 & T1 & V1). destruct (P' t0 q0 G0 (proj1 (HT t0 q0 G0) I0)) as (out' & Eo' & S2 & T2 & V2).
    rewrite Eo, Eo'. f_equal.
    assert (forall t v v', In (t, v) out -> In (t, v') out' -> v = v') as U.
    { intros t v v' H H'. destruct (V1 t v H) as (_ & A2 & A3). destruct (V2 t v' H') as (_ & B2 & B3).
      assert (In t (times out)) as It by (apply in_map_iff; exists (t, v); auto). apply T1 in It. destruct It as [Gt Nt].
      pose proof (step_back s width t HW Gt Nt) as Gb.
      assert (forall q, both_ends s width l t q <-> both_ends s width l' t q) as EB.
      { intros q. unfold both_ends. rewrite (HT t q Gt). split; intros (_ & X & q' & Y); (split; [assumption |]; split; [exact X |]; exists q'); apply (HT _ q' Gb); exact Y. }
      destruct (ends_dec s width l t HS HI H0) as [(q & Q) | Q].
      - rewrite (A3 q (proj1 (HN t)) Q), (B3 q (proj2 (HN t)) (proj1 (EB q) Q)). reflexivity.
      - rewrite (A2 Q), B2; [reflexivity |]. intros q C. exact (Q q (proj2 (EB q) C)). }
    apply series_unique; [exact S1 | exact S2 |]. intros t v. split; intros H.
    + assert (In t (times out)) as It by (apply in_map_iff; exists (t, v); auto). apply T1 in It. apply T2 in It. apply in_map_iff in It. destruct It as ([t' v'] & E & H'). cbn in E. subst t'.
      rewrite (U t v v' H H'). exact H'.
    + assert (In t (times out')) as It by (apply in_map_iff; exists (t, v); auto). apply T2 in It. apply T1 in It. apply in_map_iff in It. destruct It as ([t' v'] & E & H'). cbn in E. subst t'.
      rewrite <- (U t v' v H' H). exact H'.
  - rewrite (N NG), N'; [reflexivity |]. intros t q G C. exact (NG t q G (proj2 (HT t q G) C)).
Qed.

(** ** Power on a regular grid *)

Section Grid.
  Variable s : series.
  Variable w : Z.
  Hypothesis HW : (0 < w)%Z.
  Hypothesis HR : regular w (times s).
  Hypothesis HL : (2 <= List.length s)%nat.
  Hypothesis HI : noinf (vals s).

  Lemma regular_at : exists t0, times s = grid t0 w (List.length s).
  Proof. destruct HR as [t0 E]. exists t0. unfold times in E at 2. rewrite map_length in E. exact E. Qed.
  Lemma regular_sorted : sorted_index s.
  Proof. destruct regular_at as [t0 E]. unfold sorted_index. rewrite E. apply grid_SSorted. exact HW. Qed.
  Lemma regular_gap : forall g, In g (gaps_between (times s)) -> g = qz w.
  Proof.
    intros g Hg. destruct regular_at as [t0 E]. rewrite E in Hg. apply gap_values in Hg. destruct Hg as (a & b & Hab & ->). unfold grid in Hab.
    pose proof (grid_consec _ _ _ _ _ _ Hab) as Eb. f_equal. lia.
  Qed.
  Lemma regular_median : is_median (gaps_between (times s)) (qz w).
  Proof.
    destruct (median_exists s HL) as [med Hm]. assert (gaps_between (times s) <> []) as Ng by (destruct s as [| r0 [| r1 l]]; cbn in HL; try lia; discriminate).
    pose proof (is_median_unique _ _ Ng Hm) as Eq. assert (med = qz w) as <-; [| exact Hm].
    rewrite Eq. apply qmedian_const; [exact Ng |]. exact regular_gap.
  Qed.
  Lemma regular_no_long : forall l t, qz w <= l -> ~ in_long_step s l t.
  Proof.
    intros l t Hl (a & b & Hc & _ & C). destruct regular_at as [t0 E]. rewrite E in Hc. unfold grid in Hc. pose proof (grid_consec _ _ _ _ _ _ Hc) as Eb.
    assert (b - a = w)%Z as EE by lia. rewrite EE in C. qlra.
  Qed.
  (** Between rows there are at least two steps. *)
  Lemma regular_apart : forall t1 t2 t, In t1 (times s) -> In t2 (times s) -> on_grid s w t -> (t1 < t < t2)%Z -> qz w < qz (t2 - t1).
  Proof.
    intros t1 t2 t H1 H2 (k & Hk & -> & _) H. destruct regular_at as [t0 E]. assert (first_time s = t0) as Ef.
    { unfold first_time. destruct s as [| [u x] s0]; [cbn in HL; lia |]. cbn in E. injection E as E _. cbn. rewrite E. lia. }
    rewrite Ef in *. rewrite E in H1, H2. apply grid_In in H1, H2. destruct H1 as (i & _ & ->). destruct H2 as (j & _ & ->).
    assert (Z.of_nat i < k)%Z as K1 by (apply (Z.mul_lt_mono_pos_l w); [exact HW | lia]).
    assert (k < Z.of_nat j)%Z as K2 by (apply (Z.mul_lt_mono_pos_l w); [exact HW | lia]).
    assert (w * (Z.of_nat i + 2) <= w * Z.of_nat j)%Z as K3 by (apply Z.mul_le_mono_nonneg_l; [|lia]; lia). apply qz_lt_i. lia.
  Qed.
  Lemma small_limit : forall t q, on_grid s w t -> (interp s (qz w) t (Fin q) <-> In (t, Fin q) s).
  Proof.
    intros t q G. split; [| apply interp_point]. intros H. inversion H as [x Hx | t1 v1 t2 v2 B L E | | |]; subst; [assumption |].
    exfalso. destruct B as (B1 & B2 & B3 & _).
    assert (qz w < qz (t2 - t1)) as C.
    { apply (regular_apart t1 t2 t); [apply in_map_iff; exists (t1, Fin v1); auto | apply in_map_iff; exists (t2, Fin v2); auto | exact G | exact B3]. }
    qlra.
  Qed.

  Lemma regular_on_grid : forall t, on_grid s w t <-> In t (times s).
  Proof.
    destruct regular_at as [t0 E]. intros t. unfold on_grid, first_time, final_time. rewrite E, grid_In.
    set (n := List.length s) in *.
    assert (hd 0%Z (grid t0 w n) = t0) as E1 by (destruct n as [| n']; [lia | cbn; lia]).
    assert (List.last (grid t0 w n) 0%Z = (t0 + w * Z.of_nat (n - 1))%Z) as E2.
    { destruct n as [| n']; [lia |]. unfold grid. rewrite seq_S, map_app. cbn [map]. rewrite last_last. f_equal. f_equal. lia. }
    rewrite E1, E2. split.
    - intros (k & Hk & -> & L). exists (Z.to_nat k). split; [nia |]. rewrite Z2Nat.id by lia. reflexivity.
    - intros (k & Hk & ->). exists (Z.of_nat k). split; [lia |]. split; [reflexivity |]. nia.
  Qed.
  (** Interpolation with this limit adds nothing on the grid. *)
  Definition complete (m : Qc) : Prop := forall t q, In t (times s) -> interp s m t (Fin q) -> In (t, Fin q) s.

  Lemma regular_energy : forall freq max out, at_least w max -> (forall m, max = Some m -> complete m) ->
    energy_from_power freq s None max RightLabeled = Ok out ->
    energy_from_power None s (Some w) None RightLabeled = Ok out /\ sorted_index out /\ regular w (times out) /\ S (List.length out) = List.length s.
  Proof.
    intros freq max out HM HC EO.
    assert (qz w <= the_limit max (qz w)) as Hl by (destruct max as [m |]; cbn; [exact HM | apply Qcle_refl]).
    assert (forall t q, on_grid s w t -> (interp s (the_limit max (qz w)) t (Fin q) <-> In (t, Fin q) s)) as HB.
    { intros t q G. destruct max as [m |]; cbn; [| apply small_limit; exact G]. split; [| apply interp_point]. apply (HC m eq_refl). apply regular_on_grid. exact G. }
    assert (w = qfloor (qz w)) as Ef by (symmetry; apply qfloor_qz).
    pose proof (same_limit freq None s None (Some w) w max None (qz w) _ (qz w) regular_sorted HI HL regular_median Ef eq_refl eq_refl eq_refl HW
      (Qcle_refl _) Hl (Qcle_refl _)) as ES.
    assert (energy_from_power None s (Some w) None RightLabeled = Ok out) as E2.
    { rewrite <- ES; [exact EO | |].
      - intros t q G. rewrite (HB t q G), (small_limit t q G). reflexivity.
      - intros t. split; apply regular_no_long; [exact Hl | apply Qcle_refl]. }
    split; [exact E2 |].
    assert (0 <= qz w) as H0 by (apply qz_nonneg; lia).
    destruct (energy_short None s (Some w) w None (qz w) (qz w) regular_sorted HI HL regular_median eq_refl eq_refl HW (Qcle_refl _) H0) as [N P].
    assert (s <> []) as NE by (destruct s; [cbn in HL; lia | discriminate]).
    destruct (grid_dec s w (qz w) regular_sorted HI H0 HW NE) as [(t0 & q0 & G0 & I0) | NG].
    2:{ rewrite (N NG) in E2. discriminate. }
    destruct (P t0 q0 G0 I0) as (out' & Eo & S1 & T1 & _). rewrite E2 in Eo. injection Eo as <-.
    split; [exact S1 |]. destruct regular_at as [u E].
    assert (times out = grid (u + w) w (List.length s - 1)) as ET.
    { apply sorted_same; [exact S1 | apply grid_SSorted; exact HW |]. intros t. rewrite T1. fold (on_grid s w t). rewrite regular_on_grid, E, !grid_In.
      assert (first_time s = u) as Ef'. { unfold first_time. rewrite E. destruct (List.length s); [lia |]. cbn. lia. }
      rewrite Ef'. split.
      - intros [(k & Hk & ->) Nk]. exists (k - 1)%nat. assert (k <> 0)%nat by (intros ->; apply Nk; lia). split; [lia |]. replace (Z.of_nat (k - 1)) with (Z.of_nat k - 1)%Z by lia. lia.
      - intros (k & Hk & ->). split; [exists (S k); split; [lia | lia] |]. nia. }
    assert (List.length out = (List.length s - 1)%nat) as EL by (rewrite <- (map_length fst out); change (map fst out) with (times out); rewrite ET; apply grid_length).
    split; [| lia]. exists (u + w)%Z. rewrite ET, grid_length. reflexivity.
  Qed.
End Grid.

(** ** Interpolating twice *)
Lemma interpolate_twice : forall s target m, sorted_index s -> noinf (vals s) -> StronglySorted Z.lt target -> 0 <= m ->
  forall t q, In t target -> interp (interpolate_series s target (Some m)) m t (Fin q) -> In (t, Fin q) (interpolate_series s target (Some m)).
Proof.
  intros s target m HS HI HT H0 t q It H. destruct (interpolate_spec s target (Some m) m HS HI eq_refl H0) as [T V].
  set (e := interpolate_series s target (Some m)) in *. clearbody e.
  inversion H as [x Hx | t1 v1 t2 v2 B L E | | |]; subst; [assumption |]. exfalso.
  destruct B as (B1 & B2 & B3 & B4). assert (exists v, In (t, v) e) as (v & Hv).
  { apply in_map_iff in It. destruct It as ([u v] & Eu & Hv). cbn in Eu. subst u. exists v. exact Hv. }
  pose proof (V _ _ B1) as V1. pose proof (V _ _ B2) as V2. pose proof (V _ _ Hv) as V0.
  assert (forall x, v <> Fin x) as Nf by (intros x ->; specialize (B4 _ _ Hv); lia).
  assert (forall u x, interp s m u (Fin x) -> (exists a y, In (a, Fin y) s /\ (a <= u)%Z) /\ (exists b y, In (b, Fin y) s /\ (u <= b)%Z)) as K.
  { intros u x Hx. inversion Hx as [y Hy | a y b z (A1 & A2 & A3 & _) L1 E1 | | |]; subst.
    - split; exists u, x; (split; [assumption | lia]).
    - split; [exists a, y | exists b, z]; (split; [assumption | lia]). }
  inversion V0 as [x Hx | a y b z Bx Lx Ex | a y b z Bx Lx Ex | C Ex | C Ex]; subst.
  - exact (Nf _ eq_refl).
  - exact (Nf _ eq_refl).
  - destruct Bx as (A1 & A2 & A3 & A4).
    assert (t1 <= a)%Z as L1.
    { inversion V1 as [x Hx | c d f g (C1 & C2 & C3 & C4) Lc Ec | | |]; subst; [specialize (A4 _ _ Hx); lia |].
      pose proof (A4 _ _ C1). pose proof (A4 _ _ C2). pose proof (C4 _ _ A1). pose proof (C4 _ _ A2).
      destruct (Z.le_gt_cases t1 a) as [Y | Y]; [exact Y | exfalso]. assert (c = a) as -> by lia. assert (f = b) as -> by lia. qlra. }
    assert (b <= t2)%Z as L2.
    { inversion V2 as [x Hx | c d f g (C1 & C2 & C3 & C4) Lc Ec | | |]; subst; [specialize (A4 _ _ Hx); lia |].
      pose proof (A4 _ _ C1). pose proof (A4 _ _ C2). pose proof (C4 _ _ A1). pose proof (C4 _ _ A2).
      destruct (Z.le_gt_cases b t2) as [Y | Y]; [exact Y | exfalso]. assert (c = a) as -> by lia. assert (f = b) as -> by lia. qlra. }
    assert (qz (b - a) <= qz (t2 - t1)) by (apply qz_le_i; lia). qlra.
  - destruct (K _ _ V1) as [(a & y & Ha & La) _]. specialize (C _ _ Ha). lia.
  - destruct (K _ _ V2) as [_ (a & y & Ha & La)]. specialize (C _ _ Ha). lia.
Qed.

(** ** Shares *)
Lemma share_weighted : forall c s, noinf (vals s) -> share c s = weighted c s 0 s.
Proof.
  intros c s. induction s as [| [t v] s IH]; intros HI; [reflexivity |]. unfold share, weighted in *. cbn [map combine fst snd]. f_equal.
  - f_equal. destruct v as [| | q |]; [reflexivity | exfalso; apply (proj2 (HI NInf (or_introl eq_refl))); reflexivity | | exfalso; apply (proj1 (HI PInf (or_introl eq_refl))); reflexivity].
    cbn [fmul fadd]. f_equal. ring.
  - apply IH. intros x Hx. apply HI. right. exact Hx.
Qed.
Lemma side_self : forall s, noinf (vals s) -> side_by_side s s.
Proof.
  induction s as [| [t v] s IH]; intros HI; constructor.
  - split; [reflexivity |]. destruct v as [| | q |]; [left; auto | exfalso; apply (proj2 (HI NInf (or_introl eq_refl))); reflexivity | right; exists q, q; auto | exfalso; apply (proj1 (HI PInf (or_introl eq_refl))); reflexivity].
  - apply IH. intros x Hx. apply HI. right. exact Hx.
Qed.
Lemma side_noinf : forall s, side_by_side s s -> noinf (vals s).
Proof.
  intros s H x Hx. apply in_map_iff in Hx. destruct Hx as ([t v] & <- & Hv). cbn [snd].
  assert (forall a b : series, side_by_side a b -> forall r, In r a -> exists r' : Z * fl, both_or_none (snd r) (snd r')) as K.
  { clear. intros a b H. induction H as [| r r' a b [_ Hr] _ IH]; intros x Hx; [destruct Hx |]. destruct Hx as [<- | Hx]; [exists r'; exact Hr | exact (IH x Hx)]. }
  destruct (K _ _ H _ Hv) as (r' & [[X _] | (p & q & X & _)]); cbn [snd] in X; rewrite X; split; discriminate.
Qed.
Lemma linear_share : forall f c s, linear f -> noinf (vals s) ->
  match f s with Ok u => noinf (vals u) /\ f (share c s) = Ok (share c u) | Raise e => f (share c s) = Raise e end.
Proof.
  intros f c s HL HI. specialize (HL s s (side_self s HI)). rewrite (share_weighted c s HI). destruct (f s) as [u | e].
  - destruct HL as [Hu H]. pose proof (side_noinf u Hu) as Nu. split; [exact Nu |]. rewrite H, (share_weighted c u Nu). reflexivity.
  - destruct HL as [_ H]. apply H.
Qed.
Lemma share_times : forall c s, times (share c s) = times s.
Proof. intros c s. unfold times, share. rewrite map_map. reflexivity. Qed.

(** ** The constructor *)
Lemma interp_ok : forall s target max, sorted_index s -> noinf (vals s) -> StronglySorted Z.lt target ->
  sorted_index (interpolate_series s target max) /\ noinf (vals (interpolate_series s target max)).
Proof. intros s target [m |] HS HI HT; [apply interp_series_ok | apply interpolate_default_ok]; assumption. Qed.
Lemma share_interpolate : forall c s target max, noinf (vals s) -> interpolate_series (share c s) target max = share c (interpolate_series s target max).
Proof.
  intros c s target max HI. pose proof (linear_share _ c s (interpolate_linear false false (TIndex target) max) HI) as H.
  cbn [interpolate target_index bind xorb] in H. unfold interpolate in H. cbn [target_index bind xorb] in H. destruct H as [_ H]. injection H as H. exact H.
Qed.
Lemma first_final : forall s : series, s <> [] -> sorted_index s -> (first_time s <= final_time s)%Z.
Proof.
  intros s NE HS. unfold first_time, final_time, sorted_index in *. assert (times s <> []) as N by (destruct s; [congruence | discriminate]).
  destruct (times s) as [| a l]; [congruence |]. cbn [hd]. destruct l as [| b l]; [cbn; lia |].
  apply StronglySorted_inv in HS. destruct HS as [_ HF]. rewrite Forall_forall in HF.
  assert (In (List.last (b :: l) 0%Z) (b :: l)) as Hin. { rewrite (app_removelast_last 0%Z) at 2 by discriminate. apply in_or_app. right. left. reflexivity. }
  specialize (HF _ Hin). change (List.last (a :: b :: l) 0%Z) with (List.last (b :: l) 0%Z). lia.
Qed.

Section Raw.
Context {P W T O YK SK YR SR : Type}.
Local Notation env := (environment P W T O YK SK YR SR).

Theorem raw_proportional : forall (E : env) empty poa cell ambient gamma width wind expected tm rated w max level (s : state P W T O YR SR),
  sorted_index expected -> noinf (vals expected) -> (0 < w)%Z -> three_steps w expected -> at_least w max -> recognises (e_infer E) (e_freq E) w ->
  construct_analysis E empty (share level expected) poa cell ambient gamma width PvPower wind (Some expected) tm rated (Some w) max = Ok s ->
  exists energy model, i_energy (s_inputs s) = Present energy /\ i_expected (s_inputs s) = Some model /\
    proportional (e_infer E) (e_freq E) level energy model model /\
    sorted_index model /\ noinf (vals model) /\ i_width (s_inputs s) = width /\
    dget "normalized_filter" (params_of s) <> None /\
    (forall p, poa = Some p -> i_poa (s_inputs s) = Some (interpolate_series p (times model) max)).
Proof.
  intros E empty poa cell ambient gamma width wind expected tm rated w max level s HS HI HW H3 HM [HK HR] H.
  unfold construct_analysis in H.
  assert (expected <> []) as NE by (intros ->; change (0 + 3 * w <= 0)%Z in H3; lia).
  set (idx := date_range (first_time expected) (final_time expected) w) in *.
  assert (interpolate true true (share level expected) (TFreq w) max = Ok (share level (interpolate_series expected idx max))) as Ei.
  { unfold interpolate, target_index. rewrite share_times. unfold idx, first_time, final_time. destruct (times expected) as [| a l] eqn:Et; [destruct expected; [congruence | discriminate] |].
    cbn [hd bind xorb]. f_equal. rewrite (share_interpolate level expected _ max HI). f_equal. f_equal. f_equal.
    assert (forall (x : list Z) d d', x <> [] -> List.last x d = List.last x d') as LL.
    { clear. induction x as [| y x IH]; intros d d' N; [congruence |]. destruct x as [| z x]; [reflexivity |]. change (List.last (z :: x) d = List.last (z :: x) d'). apply IH. discriminate. }
    apply LL. discriminate. }
  rewrite Ei in H. cbn [bind] in H. set (model := interpolate_series expected idx max) in *.
  assert (StronglySorted Z.lt idx) as SI by (apply grid_sorted; exact HW).
  destruct (interp_ok expected idx max HS HI SI) as [Sm Nm]. fold model in Sm, Nm.
  assert (times model = idx) as Tm by (unfold model, interpolate_series, times; rewrite map_map; apply map_id).
  rewrite share_times, Tm in H.
  destruct (interpolated poa idx max) as [poa' |] eqn:Ep; [| discriminate H]. cbn [bind] in H.
  destruct (interpolated cell idx max) as [cell' |] eqn:Ec; [| discriminate H]. cbn [bind] in H.
  destruct (interpolated ambient idx max) as [amb' |] eqn:Ea; [| discriminate H]. cbn [bind] in H.
  unfold interpolated, interpolate in H. cbn [target_index bind xorb] in H. fold model in H.
  set (n := Z.to_nat ((final_time expected - first_time expected) / w + 1)).
  assert (regular w (times model)) as Rm.
  { exists (first_time expected). rewrite Tm. unfold idx, date_range. rewrite map_length, seq_length. reflexivity. }
  assert (List.length model = n) as Ln by (rewrite <- (map_length fst model); change (map fst model) with (times model); rewrite Tm; unfold idx, date_range; rewrite map_length, seq_length; reflexivity).
  assert (4 <= n)%nat as Hn.
  { unfold n. unfold three_steps in H3. assert (3 <= (final_time expected - first_time expected) / w)%Z by (apply Z.div_le_lower_bound; lia). lia. }
  destruct (energy_from_power (e_freq E idx) (share level model) None max RightLabeled) as [energy |] eqn:Ee; [| discriminate H]. cbn [bind] in H.
  pose proof (linear_share _ level model (energy_linear (e_freq E idx) None max RightLabeled) Nm) as Le. cbn beta in Le. rewrite Ee in Le.
  destruct (energy_from_power (e_freq E idx) model None max RightLabeled) as [modelled |] eqn:Em; [| discriminate Le].
  destruct Le as [_ Le]. injection Le as Le.
  destruct (regular_energy model w HW Rm ltac:(lia) Nm (e_freq E idx) max modelled HM) as (E1 & E2 & E3 & E4).
  { intros m Em'. intros t q It Iq. unfold model in *. rewrite Em' in *. rewrite Tm in It. apply (interpolate_twice expected idx m HS HI SI); [| exact It | exact Iq].
    cbn in HM. assert (0 < qz w) by (apply qz_pos; exact HW). qlra. }
  { exact Em. }
  assert (times energy = times modelled) as Te by (rewrite Le; apply share_times).
  assert (3 <= List.length (times modelled))%nat as L3 by (unfold times; rewrite map_length; lia).
  assert (3 <= List.length (times model))%nat as L3' by (unfold times; rewrite map_length; lia).
  destruct (initial_params_spec (Kwargs empty) NoValue true (match cell' with Some _ => true | None => false end)) as (d & D1 & _ & D3 & _).
  rewrite D1 in H. cbn [bind] in H. rewrite initial_params_aggregated_spec in H. cbn [bind] in H. injection H as <-.
  exists energy, model. cbn [s_inputs i_energy i_expected i_width i_poa snd]. split; [reflexivity |]. split; [reflexivity |]. split.
  - split; [unfold sorted_index; rewrite Te; exact E2 |]. split; [apply HK |]. split.
    + intros (a & b & A & B & L). rewrite Te in B. destruct (HR _ E3 L3) as [F | [F _]], (HR _ Rm L3') as [G | [G _]]; rewrite F in B; rewrite G in A;
        [| assert (a = qz w) as -> by exact (regular_avg w _ a Rm A) | assert (b = qz w) as -> by exact (regular_avg w _ b E3 B) |
           assert (a = qz w) as -> by exact (regular_avg w _ a Rm A); assert (b = qz w) as -> by exact (regular_avg w _ b E3 B)]; try destruct A as [_ A]; try destruct B as [_ B]; subst; qlra.
    + exists w, modelled. rewrite Te. split; [exact (HR _ E3 L3) |]. split; [exact E1 | exact Le].
  - split; [exact Sm |]. split; [exact Nm |]. split; [reflexivity |]. split.
    + unfold params_of. cbn [s_completed c_params contents]. destruct d as [| [key v] d]; [discriminate D3 |]. cbn in D3. injection D3 as -> _. cbn. discriminate.
    + intros p ->. unfold interpolated, interpolate in Ep. cbn [target_index bind xorb] in Ep. injection Ep as <-. rewrite Tm. reflexivity.
Qed.
End Raw.

(** ** With a clear-sky model *)
Section Clear.
Context {P W T O YK SK YR SR : Type}.
Local Notation env := (environment P W T O YK SK YR SR).
Lemma clear_ready : forall (E : env) loc o p cell ambient (s s' : state P W T O YR SR) energy, set_clearsky loc o (Some p) cell ambient s = (s', Ok tt) ->
  i_energy (s_inputs s) = Present energy -> sorted_index energy -> sorted_index p -> noinf (vals p) ->
  i_energy (s_inputs s') = Present energy /\ i_expected (s_inputs s') = i_expected (s_inputs s) /\ i_width (s_inputs s') = i_width (s_inputs s) /\
  params_of s' = params_of s /\
  exists poa, irradiance_of Clearsky (s_inputs s') (completion E (s_inputs s') (s_completed s')) = Some poa /\ sorted_index poa /\ noinf (vals poa).
Proof.
  intros E loc o p cell ambient s s' energy H He Se Sp Np. unfold set_clearsky in H. rewrite He in H. cbn [use bind interpolated] in H.
  unfold interpolate in H at 1. cbn [target_index bind xorb] in H.
  repeat match type of H with context [bind ?x _] => destruct x as [?|] eqn:?; cbn [bind] in H; [| discriminate H] end.
  injection H as <-. cbn [s_inputs i_energy i_expected i_width]. split; [first [reflexivity | exact He] |]. split; [reflexivity |]. split; [reflexivity |]. split; [reflexivity |].
  eexists. split; [reflexivity |]. apply interp_ok; assumption.
Qed.
End Clear.

(** ** The report *)
Section Report.
Context {P W T O YK SK SR : Type}.
Local Notation env := (environment P W T O YK SK yoy_out SR).
Local Notation st := (state P W T O yoy_out SR).
Local Notation req := (@request YK SK).

Theorem raw_steady : forall (E : env) empty poa cell ambient gamma width wind expected tm rated w max level (s s' : st) (q : req)
  infer sortv choice starts (recenter : YK -> bool) ep cl (m : YK -> umethod),
  sorted_index expected -> noinf (vals expected) -> (0 < w)%Z -> three_steps w expected -> at_least w max -> recognises (e_infer E) (e_freq E) w ->
  sorted_index poa -> noinf (vals poa) -> 0 < level -> (0 < width)%Z -> dividing width ->
  sorts_by_shifted sortv -> draws_ok choice -> starts <> [] ->
  (forall y p, e_yoy E y p = degradation_year_on_year infer sortv choice starts (recenter y) (ep y) (cl y) (m y) p) ->
  (forall en, sorted_index en -> excludes_missing E en) ->
  construct_analysis E empty (share level expected) (Some poa) cell ambient gamma width PvPower wind (Some expected) tm rated (Some w) max = Ok s ->
  q_case q = Sensor -> In "yoy_degradation"%string (q_names q) -> analyse E q s = (s', Ok tt) ->
  exists o z, d_result (s_sensor s') = Some (Outcome (Some o) z) /\ no_change o /\ yo_renorm o = (if recenter (q_yoy q) then Fin level else Fin 1).
Proof.
  intros E empty poa cell ambient gamma width wind expected tm rated w max level s s' q infer sortv choice starts recenter ep cl m
    HS HI HW H3 HM HR Sp Np Hl Hw Dv Sv Dr St Ey Ex HC Hq Rq A.
  destruct (raw_proportional E empty (Some poa) cell ambient gamma width wind expected tm rated w max level s HS HI HW H3 HM HR HC)
    as (energy & model & R1 & R2 & R3 & R4 & R5 & R6 & R7 & R8).
  destruct (interp_ok poa (times model) max Sp Np R4) as [Sp' Np']. specialize (R8 poa eq_refl).
  pose proof (analysis_flat E q s s' level energy model model (interpolate_series poa (times model) max) infer sortv choice starts recenter ep cl m Hl Sv Dr St Ey Ex R7) as F.
  rewrite Hq, R6 in F. unfold level_of in F. rewrite R2 in F. cbn [irradiance_of side_of] in F.
  apply F; try assumption. unfold model_of. rewrite R2. split; reflexivity.
Qed.

Theorem raw_steady_clear : forall (E : env) empty poa cell ambient gamma width wind expected tm rated w max level (s0 s s' : st) (q : req) loc o clear cell' ambient'
  infer sortv choice starts (recenter : YK -> bool) ep cl (m : YK -> umethod),
  sorted_index expected -> noinf (vals expected) -> (0 < w)%Z -> three_steps w expected -> at_least w max -> recognises (e_infer E) (e_freq E) w ->
  sorted_index clear -> noinf (vals clear) -> 0 < level -> (0 < width)%Z -> dividing width ->
  sorts_by_shifted sortv -> draws_ok choice -> starts <> [] ->
  (forall y p, e_yoy E y p = degradation_year_on_year infer sortv choice starts (recenter y) (ep y) (cl y) (m y) p) ->
  (forall en, sorted_index en -> excludes_missing E en) ->
  construct_analysis E empty (share level expected) poa cell ambient gamma width PvPower wind (Some expected) tm rated (Some w) max = Ok s0 ->
  set_clearsky loc o (Some clear) cell' ambient' s0 = (s, Ok tt) ->
  q_case q = Clearsky -> In "yoy_degradation"%string (q_names q) -> analyse E q s = (s', Ok tt) ->
  exists r z, d_result (s_clear s') = Some (Outcome (Some r) z) /\ no_change r /\ yo_renorm r = (if recenter (q_yoy q) then Fin level else Fin 1).
Proof.
  intros E empty poa cell ambient gamma width wind expected tm rated w max level s0 s s' q loc o clear cell' ambient' infer sortv choice starts recenter ep cl m
    HS HI HW H3 HM HR Sp Np Hl Hw Dv Sv Dr St Ey Ex HC HS' Hq Rq A.
  destruct (raw_proportional E empty poa cell ambient gamma width wind expected tm rated w max level s0 HS HI HW H3 HM HR HC)
    as (energy & model & R1 & R2 & R3 & R4 & R5 & R6 & R7 & _).
  destruct (clear_ready E loc o clear cell' ambient' s0 s energy HS' R1 (proj1 R3) Sp Np) as (C1 & C2 & C3 & C4 & poa' & C5 & C6 & C7).
  rewrite <- C4 in R7. rewrite R2 in C2. rewrite R6 in C3.
  pose proof (analysis_flat E q s s' level energy model model poa' infer sortv choice starts recenter ep cl m Hl Sv Dr St Ey Ex R7) as F.
  rewrite Hq, C3 in F. unfold level_of in F. rewrite C2 in F. cbn [side_of] in F.
  apply F; try assumption. unfold model_of. rewrite C2. split; reflexivity.
Qed.
End Report.

(** ** Power that fades, on a regular grid *)
Lemma known_noinf : forall s, all_known s -> noinf (vals s).
Proof. intros s H x Hx. apply in_map_iff in Hx. destruct Hx as ([t v] & <- & Hv). destruct (H _ _ Hv) as [q E]. cbn [snd]. rewrite E. split; discriminate. Qed.
Lemma shares_times : forall f s, times (shares f s) = times s.
Proof. intros f s. unfold times, shares. rewrite map_map. reflexivity. Qed.
Lemma shares_known : forall f s, all_known s -> all_known (shares f s).
Proof.
  intros f s H t v Hv. apply in_map_iff in Hv. destruct Hv as ([u x] & E & Hx). injection E as -> <-. destruct (H _ _ Hx) as [q ->]. cbn. eauto.
Qed.
Lemma known_complete : forall s m, sorted_index s -> all_known s -> complete s m.
Proof.
  intros s m HS HK t q It H. apply in_map_iff in It. destruct It as ([u v] & Eu & Hv). cbn in Eu. subst u. destruct (HK _ _ Hv) as [x ->].
  rewrite (interp_unique s m t (Fin q) (Fin x) HS H (interp_point _ _ _ _ Hv)). exact Hv.
Qed.
Lemma own_index : forall s max, sorted_index s -> all_known s -> (2 <= List.length s)%nat -> (forall m, max = Some m -> 0 <= m) -> interpolate_series s (times s) max = s.
Proof.
  intros s max HS HK HL HM.
  assert (exists limit, limit_is s max limit /\ 0 <= limit) as (limit & L1 & L2).
  { destruct max as [m |]; [exists m; split; [reflexivity | exact (HM m eq_refl)] |].
    assert (available s = s) as Ea.
    { unfold available. clear -HK. induction s as [| [t v] s IH]; [reflexivity |]. cbn [filter snd]. destruct (HK t v (or_introl eq_refl)) as [q ->]. cbn [notnan isnan negb].
      f_equal. apply IH. intros u x Hx. apply (HK u x). right. exact Hx. }
    assert (2 <= List.length (available s))%nat as HA by (rewrite Ea; exact HL). destruct (default_limit_exists s HA) as [limit HLm].
    exists limit. split; [apply limit_for_ok; auto | exact (limit_for_nonneg s limit HS HA HLm)]. }
  destruct (interpolate_spec s (times s) max limit HS (known_noinf s HK) L1 L2) as [T V].
  apply series_unique; [unfold sorted_index; rewrite T; exact HS | exact HS |]. intros t v.
  assert (forall x, In (t, x) s -> forall y, In (t, y) (interpolate_series s (times s) max) -> y = x) as U.
  { intros x Hx y Hy. destruct (HK _ _ Hx) as [q ->]. exact (interp_unique s limit t y (Fin q) HS (V _ _ Hy) (interp_point _ _ _ _ Hx)). }
  split; intros H.
  - assert (In t (times s)) as It by (rewrite <- T; apply in_map_iff; exists (t, v); auto). apply in_map_iff in It. destruct It as ([u x] & Eu & Hx). cbn in Eu. subst u.
    rewrite (U x Hx v H). exact Hx.
  - assert (In t (times (interpolate_series s (times s) max))) as It by (rewrite T; apply in_map_iff; exists (t, v); auto). apply in_map_iff in It. destruct It as ([u x] & Eu & Hx). cbn in Eu. subst u.
    rewrite <- (U v H x Hx). exact Hx.
Qed.
Lemma known_energy : forall freq s w max, (0 < w)%Z -> regular w (times s) -> (2 <= List.length s)%nat -> all_known s -> at_least w max ->
  exists out, energy_from_power freq s None max RightLabeled = Ok out /\ energy_from_power None s (Some w) None RightLabeled = Ok out /\
    sorted_index out /\ regular w (times out) /\ S (List.length out) = List.length s /\
    forall t v, In (t, v) out <-> t <> first_time s /\ exists q, In (t, Fin q) s /\ v = Fin (q * hours w).
Proof.
  intros freq s w max HW HR HL HK HM. pose proof (known_noinf s HK) as HI. pose proof (regular_sorted s w HW HR) as HS.
  pose proof (regular_median s w HR HL HI) as Md. pose proof (qfloor_qz w) as Ef. symmetry in Ef.
  assert (qz w <= the_limit max (qz w)) as Hl by (destruct max as [m |]; cbn; [exact HM | apply Qcle_refl]).
  assert (0 < qz w) as Hp by (apply qz_pos; exact HW).
  destruct (energy_short freq s None w max (qz w) _ HS HI HL Md Ef eq_refl HW (Qcle_refl _) ltac:(qlra)) as [_ P].
  assert (forall t, In t (times s) -> exists q, In (t, Fin q) s) as KQ.
  { intros t It. apply in_map_iff in It. destruct It as ([u x] & Eu & Hx). cbn in Eu. subst u. destruct (HK _ _ Hx) as [q ->]. eauto. }
  assert (exists q0, In (first_time s, Fin q0) s) as [q0 H0].
  { apply KQ. unfold first_time. destruct s as [| r s0]; [cbn in HL; lia | left; reflexivity]. }
  assert (on_grid s w (first_time s)) as G0 by (apply (regular_on_grid s w HW HR HL); apply in_map_iff; exists (first_time s, Fin q0); auto).
  destruct (P _ q0 G0 (interp_point _ _ _ _ H0)) as (out & Eo & S1 & T1 & V1).
  exists out. split; [exact Eo |].
  destruct (regular_energy s w HW HR HL HI freq max out HM (fun m _ => known_complete s m HS HK) Eo) as (E1 & _ & E3 & E4).
  split; [exact E1 |]. split; [exact S1 |]. split; [exact E3 |]. split; [exact E4 |].
  assert (forall t v, In (t, v) out -> forall q, In (t, Fin q) s -> v = Fin (q * hours w)) as VV.
  { intros t v Hv q Hq. destruct (V1 _ _ Hv) as (_ & _ & V3). apply V3; [apply (regular_no_long s w HR); first [exact HL | exact HI | exact Hl] |].
    assert (In t (times out)) as It by (apply in_map_iff; exists (t, v); auto). apply T1 in It. destruct It as [Gt Nt].
    pose proof (step_back s w t HW Gt Nt) as Gb. apply (regular_on_grid s w HW HR HL) in Gb. destruct (KQ _ Gb) as [q' Hq'].
    split; [exact Hl |]. split; [apply interp_point; exact Hq |]. exists q'. apply interp_point. exact Hq'. }
  intros t v. split.
  - intros Hv. assert (In t (times out)) as It by (apply in_map_iff; exists (t, v); auto). apply T1 in It. destruct It as [Gt Nt]. split; [exact Nt |].
    apply (regular_on_grid s w HW HR HL) in Gt. destruct (KQ _ Gt) as [q Hq]. exists q. split; [exact Hq | exact (VV _ _ Hv _ Hq)].
  - intros (Nt & q & Hq & ->). assert (In t (times out)) as It.
    { apply T1. split; [apply (regular_on_grid s w HW HR HL); apply in_map_iff; exists (t, Fin q); auto | exact Nt]. }
    apply in_map_iff in It. destruct It as ([u x] & Eu & Hx). cbn in Eu. subst u. rewrite <- (VV _ _ Hx _ Hq). exact Hx.
Qed.

Lemma fade_energy : forall infer freq m w max f, (0 < w)%Z -> regular w (times m) -> (4 <= List.length m)%nat -> all_known m -> at_least w max -> recognises infer freq w ->
  exists energy, energy_from_power (freq (times m)) (shares f m) None max RightLabeled = Ok energy /\
    (forall index, times index = times m -> follows_model infer freq f energy m index) /\ (forall t, In t (times energy) -> In t (times m)).
Proof.
  intros infer freq m w max f HW HR HL HK HM [HF HN].
  assert (regular w (times (shares f m))) as HR' by (rewrite shares_times; exact HR).
  assert (List.length (shares f m) = List.length m) as EL by (unfold shares; apply map_length).
  destruct (known_energy (freq (times m)) (shares f m) w max HW HR' ltac:(lia) (shares_known f _ HK) HM) as (energy & A1 & A2 & A3 & A4 & A5 & A6).
  destruct (known_energy None m w max HW HR ltac:(lia) HK HM) as (modelled & B1 & B2 & B3 & B4 & B5 & B6).
  assert (energy = shares f modelled) as Es.
  { apply series_unique; [exact A3 | unfold sorted_index; rewrite shares_times; exact B3 |]. intros t v. rewrite A6.
    assert (first_time (shares f m) = first_time m) as -> by (unfold first_time; rewrite shares_times; reflexivity). unfold shares. split.
    - intros (Nt & q & Hq & ->). apply in_map_iff in Hq. destruct Hq as ([u x] & Eu & Hx). cbn [fst snd] in Eu. injection Eu as -> Ex. destruct (HK _ _ Hx) as [y ->]. cbn [fmul] in Ex. injection Ex as <-.
      apply in_map_iff. exists (t, Fin (y * hours w)). split; [cbn [fst snd fmul]; f_equal; f_equal; ring |]. apply B6. split; [exact Nt |]. eauto.
    - intros Hv. apply in_map_iff in Hv. destruct Hv as ([u x] & Eu & Hx). cbn [fst snd] in Eu. injection Eu as -> <-. apply B6 in Hx. destruct Hx as (Nt & q & Hq & ->). split; [exact Nt |].
      exists (f t * q). split; [apply in_map_iff; exists (t, Fin q); split; [reflexivity | exact Hq] |]. cbn [fmul]. f_equal. ring. }
  assert (3 <= List.length (times energy))%nat as L3 by (unfold times; rewrite map_length; lia).
  assert (3 <= List.length (times m))%nat as L3' by (unfold times; rewrite map_length; lia).
  exists energy. split; [exact A1 |]. split.
  - intros index Ti. split; [exact A3 |]. split; [apply HF |]. split.
    + rewrite Ti. intros (a & b & A & B & L). destruct (HN _ A4 L3) as [F | [F _]], (HN _ HR L3') as [G | [G _]]; rewrite F in B; rewrite G in A;
      [| assert (a = qz w) as -> by exact (regular_avg w _ a HR A) | assert (b = qz w) as -> by exact (regular_avg w _ b A4 B) |
         assert (a = qz w) as -> by exact (regular_avg w _ a HR A); assert (b = qz w) as -> by exact (regular_avg w _ b A4 B)]; try destruct A as [_ A]; try destruct B as [_ B]; subst; qlra.
    + exists w, modelled. split; [exact (HN _ A4 L3) |]. split; [exact B2 | exact Es].
  - intros t It. apply in_map_iff in It. destruct It as ([u v] & Eu & Hv). cbn in Eu. subst u. apply A6 in Hv. destruct Hv as (_ & q & Hq & _).
    rewrite <- (shares_times f m). apply in_map_iff. exists (t, Fin q). auto.
Qed.
Lemma limit_nonneg : forall w max, (0 < w)%Z -> at_least w max -> forall m, max = Some m -> 0 <= m.
Proof. intros w max HW HM m ->. cbn in HM. assert (0 < qz w) by (apply qz_pos; exact HW). qlra. Qed.

Section Fade.
Context {P W T O YK SK YR SR : Type}.
Local Notation env := (environment P W T O YK SK YR SR).
Theorem raw_follows : forall (E : env) empty poa cell ambient gamma width wind expected tm rated w max f,
  (0 < w)%Z -> regular w (times expected) -> (4 <= List.length expected)%nat -> all_known expected -> at_least w max -> recognises (e_infer E) (e_freq E) w ->
  exists s : state P W T O YR SR,
  construct_analysis E empty (shares f expected) poa cell ambient gamma width PvPower wind (Some expected) tm rated None max = Ok s /\
  exists energy, i_energy (s_inputs s) = Present energy /\ i_expected (s_inputs s) = Some expected /\
    follows_model (e_infer E) (e_freq E) f energy expected expected /\ (forall t, In t (times energy) -> In t (times expected)) /\
    i_width (s_inputs s) = width /\ dget "normalized_filter" (params_of s) <> None /\
    (forall p, poa = Some p -> i_poa (s_inputs s) = Some (interpolate_series p (times expected) max)).
Proof.
  intros E empty poa cell ambient gamma width wind expected tm rated w max f HW HR HL HK HM HN.
  pose proof (regular_sorted expected w HW HR) as HS.
  destruct (fade_energy (e_infer E) (e_freq E) expected w max f HW HR HL HK HM HN) as (energy & A1 & A2 & A3).
  unfold construct_analysis. cbn [bind]. rewrite shares_times. unfold interpolated, interpolate. cbn [target_index bind xorb].
  rewrite A1. rewrite (own_index expected max HS HK ltac:(lia) (limit_nonneg w max HW HM)).
  destruct (initial_params_spec (Kwargs empty) NoValue true (match cell with Some _ => true | None => false end)) as (d & D1 & _ & D3 & _).
  exists (State (Inputs (Present (shares f expected)) (Present energy) (option_map (fun p => interpolate_series p (times expected) max) poa)
      (option_map (fun p => interpolate_series p (times expected) max) ambient) gamma width wind (Some expected) rated max Unset None)
    (Completed tm (option_map (fun p => interpolate_series p (times expected) max) cell) Unset Unset Unset (Validated valid_filter_params d)
      (Validated valid_filter_params_aggregated [("two_way_window_filter", Kwargs empty); ("ad_hoc_filter", NoValue)]%string)) empty_side empty_side).
  split.
  - destruct poa, cell, ambient; cbn [bind option_map fst snd] in *; rewrite D1; cbn [bind]; rewrite initial_params_aggregated_spec; reflexivity.
  - exists energy. cbn [s_inputs i_energy i_expected i_width i_poa]. split; [reflexivity |]. split; [reflexivity |]. split; [exact (A2 expected eq_refl) |]. split; [exact A3 |].
    split; [reflexivity |]. split; [| intros p ->; reflexivity].
    unfold params_of. cbn [s_completed c_params contents]. destruct d as [| [key v] d]; [discriminate D3 |]. cbn in D3. injection D3 as -> _. cbn. discriminate.
Qed.
End Fade.

Section FadeReport.
Context {P W T O YK SK SR : Type}.
Local Notation env := (environment P W T O YK SK yoy_out SR).
Local Notation st := (state P W T O yoy_out SR).
Local Notation req := (@request YK SK).
Lemma fades_fewer : forall w a slope f rows rows', (forall t, In t rows' -> In t rows) -> fades w a slope f rows -> fades w a slope f rows'.
Proof. intros w a slope f rows rows' H F t It. destruct (F t (H t It)) as [F1 F2]. split; [exact F1 |]. intros u m j Iu. apply F2. exact (H u Iu). Qed.

Theorem raw_fading : forall (E : env) empty poa cell ambient gamma width wind expected tm rated w max f a slope (s s' : st) (q : req)
  infer sortv choice starts (recenter : YK -> bool) ep cl (m : YK -> umethod),
  (0 < w)%Z -> regular w (times expected) -> (4 <= List.length expected)%nat -> all_known expected -> at_least w max -> recognises (e_infer E) (e_freq E) w ->
  sorted_index poa -> noinf (vals poa) -> (0 < width)%Z -> dividing width -> fades width a slope f (times expected) ->
  sorts_by_shifted sortv -> draws_ok choice ->
  (forall y p, e_yoy E y p = degradation_year_on_year infer sortv choice starts (recenter y) (ep y) (cl y) (m y) p) ->
  (forall en, sorted_index en -> excludes_missing E en) ->
  construct_analysis E empty (shares f expected) (Some poa) cell ambient gamma width PvPower wind (Some expected) tm rated None max = Ok s ->
  q_case q = Sensor -> In "yoy_degradation"%string (q_names q) -> analyse E q s = (s', Ok tt) ->
  exists p o z rho, d_performance (s_sensor s') = Present p /\ d_result (s_sensor s') = Some (Outcome (Some o) z) /\ on_fading_line 1 a slope p /\
    yo_renorm o = Fin rho /\ 0 < rho /\ first_year_level (recenter (q_yoy q)) p rho /\
    one_change (qz 100 * (slope * qz (days 365)) / rho) (m (q_yoy q)) o.
Proof.
  intros E empty poa cell ambient gamma width wind expected tm rated w max f a slope s s' q infer sortv choice starts recenter ep cl m
    HW HR HL HK HM HN Sp Np Hw Dv Fd Sv Dr Ey Ex HC Hq Rq A.
  destruct (raw_follows (YR := yoy_out) (SR := SR) E empty (Some poa) cell ambient gamma width wind expected tm rated w max f HW HR HL HK HM HN)
    as (s1 & C1 & energy & R1 & R2 & R3 & R4 & R5 & R6 & R7).
  rewrite HC in C1. injection C1 as <-. specialize (R7 poa eq_refl).
  destruct (interp_ok poa (times expected) max Sp Np (regular_sorted expected w HW HR)) as [Sp' Np'].
  pose proof (analysis_line E q s s' f a slope energy expected expected (interpolate_series poa (times expected) max) infer sortv choice starts recenter ep cl m Sv Dr Ey Ex R6) as F.
  rewrite Hq, R5 in F. cbn [irradiance_of side_of] in F.
  destruct F as (p & o & z & scale & rho & F1 & F2 & [_ F3] & F4 & F5 & F6 & F7 & F8); try assumption.
  - exact (fades_fewer _ _ _ _ _ _ R4 Fd).
  - unfold model_of. rewrite R2. split; reflexivity.
  - rewrite R2 in F3. subst scale. exists p, o, z, rho. replace (slope * qz (days 365)) with (1 * slope * qz (days 365)) by ring. repeat (split; [assumption |]). assumption.
Qed.

Theorem raw_fading_clear : forall (E : env) empty poa cell ambient gamma width wind expected tm rated w max f a slope (s0 s s' : st) (q : req) loc o' clear cell' ambient'
  infer sortv choice starts (recenter : YK -> bool) ep cl (m : YK -> umethod),
  (0 < w)%Z -> regular w (times expected) -> (4 <= List.length expected)%nat -> all_known expected -> at_least w max -> recognises (e_infer E) (e_freq E) w ->
  sorted_index clear -> noinf (vals clear) -> (0 < width)%Z -> dividing width -> fades width a slope f (times expected) ->
  sorts_by_shifted sortv -> draws_ok choice ->
  (forall y p, e_yoy E y p = degradation_year_on_year infer sortv choice starts (recenter y) (ep y) (cl y) (m y) p) ->
  (forall en, sorted_index en -> excludes_missing E en) ->
  construct_analysis E empty (shares f expected) poa cell ambient gamma width PvPower wind (Some expected) tm rated None max = Ok s0 ->
  set_clearsky loc o' (Some clear) cell' ambient' s0 = (s, Ok tt) ->
  q_case q = Clearsky -> In "yoy_degradation"%string (q_names q) -> analyse E q s = (s', Ok tt) ->
  exists p o z rho, d_performance (s_clear s') = Present p /\ d_result (s_clear s') = Some (Outcome (Some o) z) /\ on_fading_line 1 a slope p /\
    yo_renorm o = Fin rho /\ 0 < rho /\ first_year_level (recenter (q_yoy q)) p rho /\
    one_change (qz 100 * (slope * qz (days 365)) / rho) (m (q_yoy q)) o.
Proof.
  intros E empty poa cell ambient gamma width wind expected tm rated w max f a slope s0 s s' q loc o' clear cell' ambient' infer sortv choice starts recenter ep cl m
    HW HR HL HK HM HN Sp Np Hw Dv Fd Sv Dr Ey Ex HC HS' Hq Rq A.
  destruct (raw_follows (YR := yoy_out) (SR := SR) E empty poa cell ambient gamma width wind expected tm rated w max f HW HR HL HK HM HN)
    as (s1 & C1 & energy & R1 & R2 & R3 & R4 & R5 & R6 & _).
  rewrite HC in C1. injection C1 as <-.
  destruct (clear_ready E loc o' clear cell' ambient' s0 s energy HS' R1 (proj1 R3) Sp Np) as (D1 & D2 & D3 & D4 & poa' & D5 & D6 & D7).
  rewrite <- D4 in R6. rewrite R2 in D2. rewrite R5 in D3.
  pose proof (analysis_line E q s s' f a slope energy expected expected poa' infer sortv choice starts recenter ep cl m Sv Dr Ey Ex R6) as F.
  rewrite Hq, D3 in F. cbn [side_of] in F.
  destruct F as (p & o & z & scale & rho & F1 & F2 & [_ F3] & F4 & F5 & F6 & F7 & F8); try assumption.
  - exact (fades_fewer _ _ _ _ _ _ R4 Fd).
  - unfold model_of. rewrite D2. split; reflexivity.
  - rewrite D2 in F3. subst scale. exists p, o, z, rho. replace (slope * qz (days 365)) with (1 * slope * qz (days 365)) by ring. repeat (split; [assumption |]). assumption.
Qed.
End FadeReport.

(** ** The same for PVWatts *)
Lemma zip_same : forall g a b, times a = times b -> times (zip_aligned g a b) = times a.
Proof.
  intros g a b E. unfold zip_aligned, align, same_index. destruct (list_eq_dec Z.eq_dec (times a) (times b)) as [_ | N]; [| contradiction].
  unfold times. rewrite !map_map. cbn [fst]. unfold times in E. revert b E. induction a as [| [t v] a IH]; intros b E; [reflexivity |].
  destruct b as [| [u x] b]; [discriminate E |]. cbn in E. injection E as E1 E2. cbn. f_equal. exact (IH b E2).
Qed.
Lemma pvwatts_known : forall rated gamma poa cell m, sorted_index poa -> all_known poa -> all_known cell -> times cell = times poa ->
  pvwatts_of rated gamma poa cell m -> all_known m /\ m = pvwatts_dc_power poa (Fin rated) (Some cell) (fz 1000) (fz 25) (Some (Fin gamma)).
Proof.
  intros rated gamma poa cell m HS Kp Kc Tc [Tm Vm].
  assert (sorted_index cell) as Sc by (unfold sorted_index; rewrite Tc; exact HS).
  assert (sorted_index m) as Sm by (unfold sorted_index; rewrite Tm; exact HS).
  assert (K : all_known m).
  { intros t v Hv. destruct (Vm _ _ Hv) as (g & c & _ & _ & ->). cbn. eauto. }
  split; [exact K |].
  assert (forall t x, In (t, x) (pvwatts_dc_power poa (Fin rated) (Some cell) (Fin (qz 1000)) (Fin (qz 25)) (Some (Fin gamma))) <-> In (t, x) m) as PW.
  { intros t x. rewrite (pvwatts_with_temperature poa cell rated (qz 1000) (qz 25) gamma t x); [| apply TrendP7.sorted_nodup; exact HS | apply TrendP7.sorted_nodup; exact Sc | apply known_noinf; exact Kp | apply known_noinf; exact Kc | discriminate].
    assert (forall s u y, sorted_index s -> In (u, y) s -> forall z, value_at s u z -> z = y) as VA.
    { intros s u y Hs Hy z Hz. destruct Hz as [Hz | [_ Hn]]; [exact (sorted_fun _ _ _ _ Hs Hz Hy) | exfalso; apply Hn; apply in_map_iff; exists (u, y); auto]. }
    split.
    - intros (It & g & c & Hg & Hc & ->).
      assert (In t (times m)) as Im by (rewrite Tm; destruct It as [It | It]; [exact It | rewrite <- Tc; exact It]).
      apply in_map_iff in Im. destruct Im as ([u y] & Eu & Hy). cbn in Eu. subst u. destruct (Vm _ _ Hy) as (g' & c' & G & C & Ey).
      rewrite (VA _ _ _ HS G _ Hg), (VA _ _ _ Sc C _ Hc), <- Ey. exact Hy.
    - intros Hx. destruct (Vm _ _ Hx) as (g & c & G & C & ->). split; [left; apply in_map_iff; exists (t, Fin g); auto |].
      exists (Fin g), (Fin c). split; [left; exact G |]. split; [left; exact C | reflexivity]. }
  apply series_unique; [exact Sm | | intros t v; symmetry; apply PW].
  unfold sorted_index. cbn [pvwatts_dc_power]. rewrite zip_same; rewrite ?on_values_times; [exact HS | symmetry; exact Tc].
Qed.

Section FadeWatts.
Context {P W T O YK SK SR : Type}.
Local Notation env := (environment P W T O YK SK yoy_out SR).
Local Notation st := (state P W T O yoy_out SR).
Local Notation req := (@request YK SK).
Theorem raw_fading_pvwatts : forall (E : env) empty poa cell ambient gamma width wind m tm rated w max f a slope (s s' : st) (q : req)
  infer sortv choice starts (recenter : YK -> bool) ep cl (um : YK -> umethod),
  (0 < w)%Z -> regular w (times poa) -> (4 <= List.length poa)%nat -> all_known poa -> all_known cell -> times cell = times poa -> pvwatts_of rated gamma poa cell m ->
  at_least w max -> recognises (e_infer E) (e_freq E) w -> (0 < width)%Z -> dividing width -> fades width a slope f (times poa) ->
  sorts_by_shifted sortv -> draws_ok choice ->
  (forall y p, e_yoy E y p = degradation_year_on_year infer sortv choice starts (recenter y) (ep y) (cl y) (um y) p) ->
  (forall en, sorted_index en -> excludes_missing E en) ->
  construct_analysis E empty (shares f m) (Some poa) (Some cell) ambient (Some (Fin gamma)) width PvPower wind None tm (Some (Fin rated)) None max = Ok s ->
  q_case q = Sensor -> In "yoy_degradation"%string (q_names q) -> analyse E q s = (s', Ok tt) ->
  exists p o z rho, d_performance (s_sensor s') = Present p /\ d_result (s_sensor s') = Some (Outcome (Some o) z) /\ on_fading_line 1 a slope p /\
    yo_renorm o = Fin rho /\ 0 < rho /\ first_year_level (recenter (q_yoy q)) p rho /\
    one_change (qz 100 * (slope * qz (days 365)) / rho) (um (q_yoy q)) o.
Proof.
  intros E empty poa cell ambient gamma width wind m tm rated w max f a slope s s' q infer sortv choice starts recenter ep cl um
    HW HR HL Kp Kc Tc HP HM HN Hw Dv Fd Sv Dr Ey Ex HC Hq Rq A.
  pose proof (regular_sorted poa w HW HR) as HS. assert (sorted_index cell) as Sc by (unfold sorted_index; rewrite Tc; exact HS).
  destruct (pvwatts_known rated gamma poa cell m HS Kp Kc Tc HP) as [Km Em]. destruct HP as [Tm _].
  assert (List.length m = List.length poa) as Lm by (rewrite <- (map_length fst m), <- (map_length fst poa); change (List.length (times m) = List.length (times poa)); rewrite Tm; reflexivity).
  assert (List.length cell = List.length poa) as Lc by (rewrite <- (map_length fst cell), <- (map_length fst poa); change (List.length (times cell) = List.length (times poa)); rewrite Tc; reflexivity).
  destruct (fade_energy (e_infer E) (e_freq E) m w max f HW ltac:(rewrite Tm; exact HR) ltac:(lia) Km HM HN) as (energy & A1 & A2 & A3).
  unfold construct_analysis in HC. cbn [bind] in HC. rewrite shares_times in HC. rewrite A1 in HC. rewrite Tm in HC. unfold interpolated at 1 2 4 in HC. unfold interpolate in HC. cbn [target_index bind xorb] in HC.
  rewrite (own_index poa max HS Kp ltac:(lia) (limit_nonneg w max HW HM)) in HC.
  assert (interpolate_series cell (times poa) max = cell) as Ec by (rewrite <- Tc; apply (own_index cell max Sc Kc ltac:(lia) (limit_nonneg w max HW HM))). rewrite Ec in HC.
  destruct (interpolated ambient (times poa) max) as [amb |]; [| discriminate HC]. cbn [bind fst snd] in HC.
  destruct (initial_params_spec (Kwargs empty) NoValue false true) as (d & D1 & _ & D3 & _). rewrite D1 in HC. cbn [bind] in HC. rewrite initial_params_aggregated_spec in HC. cbn [bind] in HC. injection HC as <-.
  set (s := State _ _ _ _) in *.
  assert (dget "normalized_filter" (params_of s) <> None) as R6.
  { unfold params_of. cbn [s s_completed c_params contents]. destruct d as [| [key v] d]; [discriminate D3 |]. cbn in D3. injection D3 as -> _. cbn. discriminate. }
  pose proof (analysis_line E q s s' f a slope energy m poa poa infer sortv choice starts recenter ep cl um Sv Dr Ey Ex R6) as F.
  rewrite Hq in F. cbn [irradiance_of side_of s s_inputs i_width i_energy i_poa] in F.
  destruct F as (p & o & z & scale & rho & F1 & F2 & [_ F3] & F4 & F5 & F6 & F7 & F8); try assumption; try reflexivity.
  - apply (fades_fewer _ _ _ _ (times poa)); [| exact Fd]. rewrite <- Tm. exact A3.
  - apply known_noinf. exact Kp.
  - unfold model_of. cbn [s s_inputs i_expected]. exists poa, cell. split; [reflexivity |]. split; [reflexivity |]. split; [reflexivity |]. exact Em.
  - apply A2. symmetry. exact Tm.
  - cbn in F3. subst scale. exists p, o, z, rho. replace (slope * qz (days 365)) with (1 * slope * qz (days 365)) by ring. repeat (split; [assumption |]). assumption.
Qed.
End FadeWatts.
