(** Instantaneous energy for intervals up to the median step, with gaps. *)

From Coq Require Import QArith Qcanon List ZArith Bool Arith Lia Sorted.
From Verif.Base Require Import QcExtra ISort Quantile Fl TimeSeries Rolling Segments.
From Verif.Spec Require Import Stats Interp Energy Window Upsampled.
From Verif.Model Require Import Interpolation Energy.
From Verif.Proofs Require Import StatsP InterpP EnergyP EnergyP2 EnergyP3 EnergyP4 EnergyP5 EnergyP6 WindowP GrowP.
Import ListNotations.
Open Scope list_scope.
Open Scope Qc_scope.

Lemma last_one_app : forall A (l : list A) x, last_one (l ++ [x]) = [x].
Proof. intros A l x. unfold last_one. rewrite app_length. cbn [length]. replace (length l + 1 - 1)%nat with (length l) by lia. rewrite skipn_app, skipn_all, Nat.sub_diag. reflexivity. Qed.

Lemma trap_used_exact : forall s limit stop P' L q, sorted_index s -> points s = P' ++ [(L, q)] ->
  trap_used s limit stop = steps_used s limit ++ (if (L <? stop)%Z then [((L, q), (stop, q))] else []).
Proof.
  intros s limit stop P' L q S EP. unfold trap_used, steps_used, held.
  assert (rev (points s) = (L, q) :: rev P') as ER by (rewrite EP, rev_app_distr; reflexivity).
  assert (last_time s = L) as EL by (unfold last_time; rewrite ER; reflexivity).
  rewrite ER, consec_app, filter_app. f_equal.
  - apply filter_ext_in. intros [a [tb qb]] H. destruct (sorted_consec _ _ _ (points_sorted s S) H) as [Hlt _].
    apply consec_fst in H. destruct H as [_ H]. pose proof (last_time_max s tb qb S H) as M. cbn [fst snd] in *.
    destruct (last_time s <=? fst a)%Z eqn:C; [apply Z.leb_le in C; lia | apply orb_false_r].
  - rewrite EP, last_one_app. destruct (L <? stop)%Z; [| reflexivity]. cbn [app]. rewrite consec_cons. cbn [consec filter fst]. rewrite EL, Z.leb_refl, orb_true_r. reflexivity.
Qed.

Section Inst.
  Variable power : series.
  Variable width : Z.
  Variable limit : Qc.
  Variable t0 : Z.
  Variable v0 : fl.
  Variable rest : series.
  Hypothesis Hp : power = (t0, v0) :: rest.
  Hypothesis HS : sorted_index power.
  Hypothesis HI : noinf (vals power).
  Hypothesis HW : (0 < width)%Z.
  Hypothesis H0 : 0 <= limit.

  Let grid := date_range t0 (final_time power) width.
  Let p := interpolate_series power grid (Some (qz (qfloor limit))).

  Let PT : times p = grid := p_times power width limit t0.
  Let PS : sorted_index p := p_sorted power width limit t0 HW.
  Let PI : noinf (vals p) := p_noinf power width limit t0 HS HI H0.
  Let PV : forall t v, In (t, v) p -> interp power limit t v := p_interp power width limit t0 HS HI H0.
  Let PW : forall t v, In t grid -> interp power limit t v -> In (t, v) p := p_value power width limit t0 HS HI H0.
  Let GI : forall t, In t grid <-> exists k, (0 <= k)%Z /\ t = (t0 + width * k)%Z /\ (t <= final_time power)%Z := grid_In power width t0 v0 rest Hp HS HW.
  Let SG : forall a qa b qb, In ((a, qa), (b, qb)) (steps_used p limit) -> b = (a + width)%Z := step_of_grid power width limit t0 v0 rest Hp HS HI HW H0.

  Lemma p_grid : forall t v, In (t, v) p -> In t grid.
  Proof. intros t v H. rewrite <- PT. exact (time_In _ _ _ H). Qed.

  Lemma first_is : first_time power = t0.
  Proof. rewrite Hp. reflexivity. Qed.

  Lemma grid_on : forall t, In t grid <-> on_grid power width t.
  Proof. intros t. unfold on_grid. rewrite first_is. apply GI. Qed.

  (** Values exist on the grid only from its start on. *)
  Lemma value_late : forall t q, interp power limit t (Fin q) -> (t0 <= t)%Z.
  Proof.
    intros t q H. assert (forall u v, In (u, v) power -> (t0 <= u)%Z) as K.
    { intros u v Hu. assert (StronglySorted Z.lt (times power)) as S' by exact HS. rewrite Hp in S', Hu. cbn [times map fst] in S'. apply StronglySorted_inv in S'. destruct S' as [_ F].
      destruct Hu as [E | Hu]; [injection E as -> _; lia |]. rewrite Forall_forall in F. specialize (F u (time_In _ _ _ Hu)). lia. }
    inversion H as [q' Hq | t1 v1 t2 v2 (H1 & _ & Hlt & _) _ | | |]; [exact (K _ _ Hq) |]. pose proof (K _ _ H1). lia.
  Qed.
  Lemma value_early : forall t q, interp power limit t (Fin q) -> (t <= final_time power)%Z.
  Proof.
    intros t q H. assert (forall u v, In (u, v) power -> (u <= final_time power)%Z) as K by (intros u v Hu; apply last_max; [exact HS | exact (time_In _ _ _ Hu)]).
    inversion H as [q' Hq | t1 v1 t2 v2 (_ & H2 & Hlt & _) _ | | |]; [exact (K _ _ Hq) |]. pose proof (K _ _ H2). lia.
  Qed.
  Lemma value_before : forall t q, In t grid -> interp power limit (t - width) (Fin q) -> In (t - width)%Z grid.
  Proof.
    intros t q Ht H. pose proof (value_late _ _ H). apply GI in Ht. destruct Ht as (k & Hk & -> & Hf). apply GI. exists (k - 1)%Z. nia.
  Qed.

  Lemma step_in : forall t q q', In t grid -> qz width <= limit -> interp power limit (t - width) (Fin q') -> interp power limit t (Fin q) ->
    In (((t - width)%Z, q'), (t, q)) (steps_used p limit).
  Proof.
    intros t q q' Ht Hw I2 I1. pose proof (value_before t q' Ht I2) as Gp. apply filter_In.
    split; [| unfold close; cbn [fst snd]; apply qle_spec; replace (t - (t - width))%Z with width by lia; exact Hw].
    pose proof (PW _ _ Ht I1) as K1. pose proof (PW _ _ Gp I2) as K2. apply points_In in K1. apply points_In in K2.
    destruct (pair_at_ex (points p) t _ _ (points_sorted p PS) K2 K1 ltac:(cbn [fst]; lia)) as [[x y] E].
    apply pair_at_Some in E. destruct E as [E1 E2]. cbn [fst snd] in E2.
    pose proof (sorted_consec _ _ _ (points_sorted p PS) E1) as [_ C]. destruct (consec_fst _ _ _ _ E1) as [Hx Hy].
    pose proof (C _ K2) as C2. pose proof (C _ K1) as C1. cbn [fst] in C1, C2. destruct x as [tx qx], y as [ty qy]. cbn [fst] in *.
    apply points_In in Hx. apply points_In in Hy. apply points_In in K1. apply points_In in K2.
    assert (ty = t) as -> by lia. assert (tx = (t - width)%Z) as ->.
    { pose proof (p_grid _ _ Hx) as Gx. apply GI in Gx. destruct Gx as (i & Hi & -> & _). apply GI in Ht. destruct Ht as (k & Hk & -> & _). assert (i = k - 1)%Z; [nia | subst i; lia]. }
    pose proof (sorted_fun p _ _ _ PS Hx K2) as X1. pose proof (sorted_fun p _ _ _ PS Hy K1) as X2.
    replace q' with qx by congruence. replace q with qy by congruence. exact E1.
  Qed.

  Lemma step_out : forall a qa b qb, In ((a, qa), (b, qb)) (steps_used p limit) ->
    b = (a + width)%Z /\ In a grid /\ In b grid /\ qz width <= limit /\ interp power limit a (Fin qa) /\ interp power limit b (Fin qb).
  Proof.
    intros a qa b qb H. pose proof (SG _ _ _ _ H) as E. split; [exact E |]. apply filter_In in H. destruct H as [H C]. unfold close in C. cbn [fst snd] in C.
    destruct (consec_fst _ _ _ _ H) as [Ha Hb]. apply points_In in Ha. apply points_In in Hb.
    split; [exact (p_grid _ _ Ha) |]. split; [exact (p_grid _ _ Hb) |]. split; [| split; [exact (PV _ _ Ha) | exact (PV _ _ Hb)]].
    subst b. replace (a + width - a)%Z with width in C by lia. qb. exact C.
  Qed.

  Lemma trusted_iff : forall a qa, In a grid -> interp power limit a (Fin qa) -> (trusted p limit a = true <-> may_start power width limit a).
  Proof.
    intros a qa Ha Hq. unfold trusted, may_start. rewrite orb_true_iff, first_is. destruct (p_cons power width limit t0 v0 rest Hp HS HW) as (w & l & Ep).
    fold grid in Ep. fold p in Ep. split.
    - intros [H | H].
      + left. rewrite Ep in H. destruct w; try discriminate. apply Z.eqb_eq in H. auto.
      + right. apply existsb_exists in H. destruct H as ([[x qx] [y qy]] & H & E). cbn [fst snd] in E. apply Z.eqb_eq in E. subst y.
        destruct (step_out _ _ _ _ H) as (E & _ & _ & L & I1 & _). split; [exact L |]. exists qx. replace (a - width)%Z with x by lia. exact I1.
    - intros [-> | (L & q & H)].
      + left. pose proof (PW _ _ Ha Hq) as K. assert (w = Fin qa) as ->; [| rewrite Ep; apply Z.eqb_refl].
        apply (sorted_fun p t0 _ _ PS); [rewrite Ep; left; reflexivity | exact K].
      + right. apply existsb_exists. exists (((a - width)%Z, q), (a, qa)). split; [exact (step_in a qa q Ha L H Hq) | apply Z.eqb_refl].
  Qed.

  Lemma cut_is : forall a, In a grid -> In (a + width)%Z grid -> next_cut p t0 width a = (a + width)%Z.
  Proof.
    intros a Ha Hb. unfold next_cut. apply GI in Ha. destruct Ha as (k & Hk & -> & _).
    replace (t0 + width * k - t0)%Z with (k * width)%Z by lia. rewrite Z.div_mul by lia. replace (t0 + width * (k + 1))%Z with (t0 + width * k + width)%Z by lia.
    destruct (find _ p) as [[u v] |] eqn:F; [| reflexivity]. apply find_some in F. destruct F as [F1 F2]. cbn [fst] in *. apply Z.ltb_lt in F2.
    apply p_grid, GI in F1. destruct F1 as (i & Hi & -> & _). assert (k < i)%Z by nia. nia.
  Qed.
  Lemma from_is : forall a qa b, In a grid -> In (a + width)%Z grid -> interp power limit a (Fin qa) ->
    (may_start power width limit a -> trap_from p limit t0 width ((a, qa), b) = a) /\
    (~ may_start power width limit a -> trap_from p limit t0 width ((a, qa), b) = (a + width)%Z).
  Proof.
    intros a qa b Ha Hb Hq. unfold trap_from. cbn [fst]. pose proof (trusted_iff a qa Ha Hq) as T. rewrite (cut_is a Ha Hb).
    destruct (trusted p limit a); split; intros M; try reflexivity.
    - exfalso. apply M, T. reflexivity.
    - apply T in M. discriminate.
  Qed.

  (** ** What a step adds *)
  Section At.
  Variable t : Z.
  Hypothesis Ht : In t grid.
  Hypothesis Hlt : (t0 < t)%Z.
  Let part pr := trap_part (trap_from p limit t0 width pr) (t - width) t pr.
  Let meets pr := (0 < overlap (trap_from p limit t0 width pr) (fst (snd pr)) (t - width) t)%Z.

  Lemma start_dec : forall a qa, In a grid -> interp power limit a (Fin qa) -> may_start power width limit a \/ ~ may_start power width limit a.
  Proof. intros a qa Ha Hq. pose proof (trusted_iff a qa Ha Hq) as T. destruct (trusted p limit a); [left; apply T; reflexivity | right; intros M; apply T in M; discriminate]. Qed.

  Lemma before_t : In (t - width)%Z grid.
  Proof. apply GI in Ht. destruct Ht as (k & Hk & E & Hf). apply GI. exists (k - 1)%Z. assert (1 <= k)%Z by nia. split; [lia |]. split; lia. Qed.

  Lemma empty_part : forall pr, (Z.min (fst (snd pr)) t <= Z.max (trap_from p limit t0 width pr) (t - width))%Z -> part pr = 0 /\ ~ meets pr.
  Proof.
    intros pr H. split; [| unfold meets, overlap; lia]. unfold part, trap_part.
    destruct (Z.max (trap_from p limit t0 width pr) (t - width) <? Z.min (fst (snd pr)) t)%Z eqn:C; [apply Z.ltb_lt in C; lia | reflexivity].
  Qed.

  Lemma step_zero : forall a qa b qb, In ((a, qa), (b, qb)) (steps_used p limit) -> a <> (t - width)%Z \/ ~ may_start power width limit a ->
    part ((a, qa), (b, qb)) = 0 /\ ~ meets ((a, qa), (b, qb)).
  Proof.
    intros a qa b qb H N. destruct (step_out _ _ _ _ H) as (-> & Ga & Gb & L & I1 & I2). apply empty_part. cbn [fst snd].
    pose proof (from_later p limit t0 width ((a, qa), ((a + width)%Z, qb)) HW) as FL. cbn [fst] in FL.
    destruct N as [N | N].
    - apply GI in Ga. destruct Ga as (i & Hi & -> & _). pose proof Ht as Gt. apply GI in Gt. destruct Gt as (k & Hk & -> & _).
      assert (i <> k - 1)%Z by (intros ->; apply N; lia). destruct (Z_lt_le_dec i (k - 1)); nia.
    - rewrite (proj2 (from_is a qa ((a + width)%Z, qb) Ga Gb I1) N). lia.
  Qed.
  Lemma step_part : forall q' q, In (((t - width)%Z, q'), (t, q)) (steps_used p limit) -> may_start power width limit (t - width) ->
    part (((t - width)%Z, q'), (t, q)) = (q + q') / qz 2 * hours width /\ meets (((t - width)%Z, q'), (t, q)).
  Proof.
    intros q' q H M. destruct (step_out _ _ _ _ H) as (_ & Ga & Gb & L & I1 & I2).
    pose proof (proj1 (from_is _ q' (t, q) Ga ltac:(replace (t - width + width)%Z with t by lia; exact Gb) I1) M) as F. split.
    - unfold part, trap_part. rewrite F. cbn [fst snd]. cbv zeta. rewrite Z.max_id, Z.min_id. assert (t - width <? t = true)%Z as -> by lia.
      rewrite chord_end, chord_start by lia. f_equal. f_equal. lia.
    - unfold meets. rewrite F. cbn [fst snd]. unfold overlap. lia.
  Qed.

  Lemma steps_sum : forall e, mean_of_ends power width limit t e -> qsum (map part (steps_used p limit)) = e /\ exists pr, In pr (steps_used p limit) /\ meets pr.
  Proof.
    intros e (L & M & q' & q & I1 & I2 & ->). pose proof (step_in t q q' Ht L I1 I2) as H. destruct (step_part q' q H M) as [P K]. split; [| eexists; split; [exact H | exact K]].
    rewrite (qsum_single _ _ _ (((t - width)%Z, q'), (t, q))).
    - exact P.
    - apply NoDup_filter, consec_NoDup, points_sorted, PS.
    - exact H.
    - intros [[a qa] [b qb]] H' N. apply (step_zero a qa b qb H'). left. intros ->. apply N.
      destruct (step_out _ _ _ _ H') as (-> & _ & _ & _ & J1 & J2). replace (t - width + width)%Z with t in * by lia.
      pose proof (interp_unique _ _ _ _ _ HS I1 J1) as X1. pose proof (interp_unique _ _ _ _ _ HS I2 J2) as X2. congruence.
  Qed.
  Lemma steps_none : ~ (exists e, mean_of_ends power width limit t e) -> qsum (map part (steps_used p limit)) = 0 /\ ~ exists pr, In pr (steps_used p limit) /\ meets pr.
  Proof.
    intros N. assert (forall pr, In pr (steps_used p limit) -> part pr = 0 /\ ~ meets pr) as K.
    { intros [[a qa] [b qb]] H. apply step_zero; [exact H |]. destruct (Z.eq_dec a (t - width)) as [-> | E]; [right; intros M; apply N | left; exact E].
      destruct (step_out _ _ _ _ H) as (-> & _ & _ & L & J1 & J2). replace (t - width + width)%Z with t in J2 by lia. eexists. split; [exact L |]. split; [exact M |]. exists qa, qb.
      split; [exact J1 |]. split; [exact J2 | reflexivity]. }
    split; [apply qsum_zeros; intros pr H; apply (K pr H) | intros (pr & H & M); exact (proj2 (K pr H) M)].
  Qed.

  (** ** What the held value adds *)
  Variable last : Z.
  Variable q : Qc.
  Variable P' : list (Z * Qc).
  Hypothesis EP : points p = P' ++ [(last, q)].

  Lemma last_in : In (last, Fin q) p.
  Proof. apply points_In. rewrite EP. apply in_or_app. right. left. reflexivity. Qed.
  Lemma last_is : In last grid /\ interp power limit last (Fin q) /\ forall g x, In g grid -> interp power limit g (Fin x) -> (g <= last)%Z.
  Proof.
    pose proof last_in as H. split; [exact (p_grid _ _ H) |]. split; [exact (PV _ _ H) |]. intros g x Hg Hx. pose proof (PW _ _ Hg Hx) as K. apply points_In in K.
    pose proof (last_time_max p g x PS K) as M. unfold last_time in M. rewrite EP, rev_app_distr in M. exact M.
  Qed.
  Definition final_point : Z := final_time p.
  Lemma grid_final : forall g, In g grid -> (g <= final_point)%Z.
  Proof. intros g H. unfold final_point, final_time. apply last_max; [exact PS | rewrite PT; exact H]. Qed.

  Lemma held_zero : (t <= last)%Z \/ (~ may_start power width limit last /\ (t <= last + width)%Z) ->
    (last < final_point)%Z -> part ((last, q), (final_point, q)) = 0 /\ ~ meets ((last, q), (final_point, q)).
  Proof.
    intros H HF. apply empty_part. cbn [fst snd]. destruct last_is as (Gl & Il & _).
    pose proof (from_later p limit t0 width ((last, q), (final_point, q)) HW) as FL. cbn [fst] in FL.
    destruct (Z_le_gt_dec t last) as [Hle | Hgt]; [lia |]. destruct H as [H | [N H]]; [lia |].
    assert (In (last + width)%Z grid) as Gn.
    { apply GI in Gl. destruct Gl as (i & Hi & El & _). pose proof Ht as Gt. apply GI in Gt. destruct Gt as (k & Hk & Et & Hf). apply GI. exists (i + 1)%Z.
      assert (i < k)%Z by nia. split; [lia |]. split; [lia |]. nia. }
    rewrite (proj2 (from_is last q (final_point, q) Gl Gn Il) N). lia.
  Qed.
  Lemma held_value : (last < t)%Z -> may_start power width limit last \/ (last + width < t)%Z ->
    part ((last, q), (final_point, q)) = q * hours width /\ meets ((last, q), (final_point, q)).
  Proof.
    intros Hl M. destruct last_is as (Gl & Il & _). pose proof (grid_final t Ht) as HF.
    assert (last + width <= t)%Z as Hn.
    { apply GI in Gl. destruct Gl as (i & Hi & El & _). pose proof Ht as Gt. apply GI in Gt. destruct Gt as (k & Hk & Et & Hf). assert (i < k)%Z by nia. nia. }
    assert (In (last + width)%Z grid) as Gn.
    { apply GI in Gl. destruct Gl as (i & Hi & El & _). pose proof Ht as Gt. apply GI in Gt. destruct Gt as (k & Hk & Et & Hf). apply GI. exists (i + 1)%Z. split; [lia |]. split; lia. }
    assert (Z.max (trap_from p limit t0 width ((last, q), (final_point, q))) (t - width) = t - width)%Z as EX.
    { destruct (start_dec last q Gl Il) as [D | D].
      - rewrite (proj1 (from_is last q (final_point, q) Gl Gn Il) D). lia.
      - rewrite (proj2 (from_is last q (final_point, q) Gl Gn Il) D). destruct M as [M | M]; [contradiction |].
        assert (last + width <= t - width)%Z; [| lia]. apply GI in Gl. destruct Gl as (i & Hi & El & _). pose proof Ht as Gt. apply GI in Gt. destruct Gt as (k & Hk & Et & Hf).
        assert (i + 1 < k)%Z by nia. nia. }
    split.
    - unfold part, trap_part. cbn [fst snd]. cbv zeta. rewrite EX, Z.min_r by lia. assert (t - width <? t = true)%Z as -> by lia.
      replace (t - (t - width))%Z with width by lia. f_equal. unfold on_chord. replace (q - q) with 0 by ring. rewrite !Qcmult_0_l.
      assert (qz 2 = 1 + 1) as -> by (apply Qc_is_canon; reflexivity). field. discriminate.
    - unfold meets. cbn [fst snd]. unfold overlap. rewrite EX. lia.
  Qed.

  Lemma total_split : trap_energy p limit t0 width final_point (t - width) t =
    qsum (map part (steps_used p limit)) + (if (last <? final_point)%Z then part ((last, q), (final_point, q)) else 0).
  Proof.
    unfold trap_energy. rewrite (trap_used_exact p limit final_point P' last q PS EP), map_app, qsum_app. f_equal.
    destruct (last <? final_point)%Z; [| reflexivity]. cbn [map]. unfold part. cbn. ring.
  Qed.
  Lemma covered_split : trap_covered p limit t0 width final_point (t - width) t <->
    (exists pr, In pr (steps_used p limit) /\ meets pr) \/ ((last < final_point)%Z /\ meets ((last, q), (final_point, q))).
  Proof.
    unfold trap_covered. rewrite (trap_used_exact p limit final_point P' last q PS EP). split.
    - intros (pr & H & O). apply in_app_or in H. destruct H as [H | H]; [left; exists pr; auto |]. right.
      destruct (last <? final_point)%Z eqn:C; [| destruct H]. apply Z.ltb_lt in C. destruct H as [<- | []]. auto.
    - intros [(pr & H & O) | (C & O)]; [exists pr; split; [apply in_or_app; left; exact H | exact O] |].
      eexists. split; [apply in_or_app; right; apply Z.ltb_lt in C; rewrite C; left; reflexivity | exact O].
  Qed.

  Lemma held_iff : forall e, last_held power width limit t e <-> (last < t)%Z /\ (may_start power width limit last \/ (last + width < t)%Z) /\ e = q * hours width.
  Proof.
    intros e. destruct last_is as (Gl & Il & ML). split.
    - intros (l & x & Hl & Ix & Mx & Hlt' & M & E). apply grid_on in Hl. assert (l = last) as ->.
      { pose proof (ML l x Hl Ix). pose proof (Mx last q (proj1 (grid_on last) Gl) Il). lia. }
      pose proof (interp_unique _ _ _ _ _ HS Ix Il) as X. injection X as ->. auto.
    - intros (H1 & H2 & H3). exists last, q. split; [apply grid_on; exact Gl |]. split; [exact Il |]. split; [| auto].
      intros g x Hg Hx. apply (ML g x); [apply grid_on; exact Hg | exact Hx].
  Qed.

  Theorem inst_spec :
    (trap_covered p limit t0 width final_point (t - width) t <-> exists e, mean_of_ends power width limit t e \/ last_held power width limit t e) /\
    forall e, mean_of_ends power width limit t e \/ last_held power width limit t e -> trap_energy p limit t0 width final_point (t - width) t = e.
  Proof.
    destruct last_is as (Gl & Il & ML). pose proof (grid_final t Ht) as HF. rewrite covered_split, total_split.
    assert (forall e, mean_of_ends power width limit t e -> (t <= last)%Z) as ME by (intros e (_ & _ & q1 & q2 & _ & I2 & _); exact (ML t q2 Ht I2)).
    split; [split |].
    - intros [H | (C & O)].
      + destruct (ex_dec _ (fun pr => meets pr) (steps_used p limit)) as [(([a qa], [b qb]) & H1 & H2) | N]; [intros pr; unfold meets; destruct (Z_lt_dec 0 (overlap (trap_from p limit t0 width pr) (fst (snd pr)) (t - width) t)); auto | | destruct (N H)].
        destruct (step_out _ _ _ _ H1) as (-> & Ga & _ & L & J1 & J2).
        destruct (Z.eq_dec a (t - width)) as [-> | E]; [| destruct (proj2 (step_zero _ _ _ _ H1 (or_introl E)) H2)].
        destruct (start_dec _ _ Ga J1) as [M | M]; [| destruct (proj2 (step_zero _ _ _ _ H1 (or_intror M)) H2)].
        replace (t - width + width)%Z with t in J2 by lia. eexists. left. split; [exact L |]. split; [exact M |]. exists qa, qb. split; [exact J1 |]. split; [exact J2 | reflexivity].
      + destruct (Z_le_gt_dec t last) as [Hle | Hgt]; [destruct (proj2 (held_zero (or_introl Hle) C) O) |].
        exists (q * hours width). right. apply held_iff. split; [lia |]. split; [| reflexivity].
        destruct (start_dec last q Gl Il) as [M | M]; [left; exact M |]. destruct (Z_lt_le_dec (last + width) t) as [L | L]; [right; exact L |].
        destruct (proj2 (held_zero (or_intror (conj M L)) C) O).
    - intros (e & [H | H]); [left; exact (proj2 (steps_sum e H)) |]. right. apply held_iff in H. destruct H as (H1 & H2 & _). split; [lia | exact (proj2 (held_value H1 H2))].
    - intros e [H | H].
      + rewrite (proj1 (steps_sum e H)). pose proof (ME e H) as Hle. destruct (last <? final_point)%Z eqn:C; [| ring]. apply Z.ltb_lt in C.
        rewrite (proj1 (held_zero (or_introl Hle) C)). ring.
      + apply held_iff in H. destruct H as (H1 & H2 & ->). rewrite (proj1 (held_value H1 H2)).
        assert (last <? final_point = true)%Z as -> by lia. rewrite (proj1 (steps_none ltac:(intros (e & He); pose proof (ME e He); lia))). ring.
  Qed.
  End At.
End Inst.

Theorem energy_short_inst : forall freq power target width max med limit, sorted_index power -> noinf (vals power) ->
  (2 <= length power)%nat -> is_median (gaps_between (times power)) med ->
  width = match target with Some w => w | None => qfloor med end -> limit = the_limit max med ->
  (0 < width)%Z -> qz width <= med -> 0 <= limit ->
  ((forall t q, on_grid power width t -> ~ interp power limit t (Fin q)) ->
     energy_from_power freq power target max Instantaneous = Raise IndexError) /\
  (forall t1 q1, on_grid power width t1 -> interp power limit t1 (Fin q1) ->
    exists out, energy_from_power freq power target max Instantaneous = Ok out /\
    StronglySorted Z.lt (times out) /\
    (forall t, In t (times out) <-> on_grid power width t /\ t <> first_time power) /\
    forall t v, In (t, v) out ->
      (in_long_step power limit t -> v = NaN) /\
      ((forall e, ~ mean_of_ends power width limit t e /\ ~ last_held power width limit t e) -> v = NaN) /\
      (forall e, ~ in_long_step power limit t -> mean_of_ends power width limit t e \/ last_held power width limit t e -> v = Fin e)).
Proof.
  intros freq power target width max med limit HS HI HL HM EW EL HW Hle H0.
  rewrite (energy_unfold_short freq power target width max med Instantaneous HL HM EW Hle). rewrite <- EL.
  destruct power as [| [t0 v0] rest] eqn:Hp; [cbn in HL; lia |]. rewrite <- Hp in *.
  assert (first_time power = t0) as Ef by (rewrite Hp; reflexivity). rewrite Ef.
  set (grid := date_range t0 (final_time power) width).
  set (p := interpolate_series power grid (Some (qz (qfloor limit)))).
  pose proof (p_times power width limit t0) as PT. fold grid p in PT.
  pose proof (p_sorted power width limit t0 HW) as PS. fold grid p in PS.
  pose proof (p_noinf power width limit t0 HS HI H0) as PI. fold grid p in PI.
  pose proof (p_interp power width limit t0 HS HI H0) as PV. fold grid p in PV.
  pose proof (p_value power width limit t0 HS HI H0) as PW. fold grid p in PW.
  destruct (p_cons power width limit t0 v0 rest Hp HS HW) as (w & l & Ep). fold grid in Ep. fold p in Ep.
  pose proof (grid_In power width t0 v0 rest Hp HS HW) as GI. fold grid in GI.
  assert (forall t, In t grid <-> on_grid power width t) as GO by (intros t; unfold on_grid; rewrite Ef; apply GI).
  split.
  - intros H. rewrite aggregate_none; [reflexivity |]. apply points_none; [exact PI |].
    destruct (points p) as [| [t q] k] eqn:E; [reflexivity | exfalso].
    assert (In (t, Fin q) p) as K by (apply points_In; rewrite E; left; reflexivity).
    apply (H t q); [apply GO; rewrite <- PT; exact (time_In _ _ _ K) | apply PV, K].
  - intros t1 q1 G1 I1. apply GO in G1.
    assert (points p <> []) as NP by (intros E; pose proof (PW _ _ G1 I1) as K; apply points_In in K; rewrite E in K; destruct K).
    destruct (exists_last NP) as (P' & [last q] & EP).
    assert (final_time p = (t0 + width * ((final_time power - t0) / width))%Z) as EF.
    { rewrite <- (last_fst p (t0, NaN)) by (rewrite Ep; discriminate). apply (final_grid power width limit t0 v0 rest Hp HS HW). }
    assert (end_of_bins t0 width (final_time p) = final_time p) as EB.
    { unfold end_of_bins. rewrite EF. replace (- (t0 + width * ((final_time power - t0) / width) - t0))%Z with ((- ((final_time power - t0) / width)) * width)%Z by lia.
      rewrite Z.div_mul by lia. lia. }
    destruct (aggregate_spec p width limit Instantaneous PS PI HW NP ltac:(discriminate)) as (bs & -> & B1 & B2).
    cbn [bind]. rewrite map_map. cbn [fst snd]. eexists. split; [reflexivity |].
    assert (first_time p = t0) as Efp by (rewrite Ep; reflexivity). rewrite Efp in B1.
    assert (bin_labels t0 width (final_time p) = grid) as ELb.
    { rewrite EF. unfold bin_labels, grid, date_range. f_equal. f_equal. unfold cdiv.
      replace (- (t0 + width * ((final_time power - t0) / width) - t0))%Z with ((- ((final_time power - t0) / width)) * width)%Z by lia.
      rewrite Z.div_mul by lia.
      assert (t0 <= final_time power)%Z.
      { rewrite <- (last_fst power (t0, NaN)) by (rewrite Hp; discriminate). apply (last_ge power t0 v0 rest Hp HS). }
      assert (0 <= (final_time power - t0) / width)%Z by (apply Z.div_pos; lia). lia. }
    rewrite ELb in B1.
    assert (StronglySorted Z.lt grid) as SG by (apply grid_sorted, HW).
    assert (exists k, grid = t0 :: k) as [k Ek] by (exists (times l); rewrite <- PT, Ep; reflexivity).
    rewrite Ek in SG. apply StronglySorted_inv in SG. destruct SG as [SG F]. rewrite Forall_forall in F.
    unfold times at 1 2. rewrite !map_map. cbn [fst]. change (fun x : Z * bool => fst x) with (@fst Z bool). rewrite B1.
    split; [rewrite Ek; exact SG |]. split.
    + intros t. rewrite <- GO, Ek. cbn [tl In]. split.
      * intros K. split; [right; exact K |]. specialize (F _ K). lia.
      * intros [[K | K] N]; [congruence | exact K].
    + intros t v H. apply in_map_iff in H. destruct H as ([b c] & E & Hb). cbn [fst snd] in E.
      assert (b = t) as -> by (exact (f_equal fst E)). assert (_ = v) as Ev by (exact (f_equal snd E)). cbn [snd] in Ev. clear E.
      assert (In t (tl grid)) as Htl by (rewrite <- B1; apply in_map_iff; exists (t, c); auto).
      assert (In t grid /\ (t0 < t)%Z) as [Ht Hlt].
      { rewrite Ek in Htl |- *. cbn [tl] in Htl. split; [right; exact Htl | apply F, Htl]. }
      pose proof (inst_spec power width limit t0 v0 rest Hp HS HI HW H0 t Ht Hlt last q P' EP) as [C1 C2].
      unfold final_point in C1, C2. fold grid in C1, C2. fold p in C1, C2.
      pose proof (B2 _ _ Hb) as BC. cbn [spec_covered spec_energy] in BC, Ev. rewrite Efp, EB in BC, Ev.
      match type of Ev with (if ?x then _ else if c then Fin ?e else NaN) = _ =>
        pose proof (reported_if (in_long_step power limit t) _ e x c (long_step_iff power limit t HS) BC) as (R1 & R2 & R3) end.
      rewrite Ev in R1, R2, R3. split; [exact R1 |]. split.
      * intros HN. apply R2. rewrite C1. intros (e & [X | X]); [exact (proj1 (HN e) X) | exact (proj2 (HN e) X)].
      * intros e HNl X. rewrite (R3 HNl); [| apply C1; eauto]. f_equal. apply C2, X.
Qed.
