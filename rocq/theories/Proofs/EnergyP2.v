(** Right-labelled energy: the whole function. *)

From Coq Require Import QArith Qcanon List ZArith Bool Permutation Sorted Lia Arith.
From Verif.Base Require Import QcExtra ISort Quantile Fl TimeSeries Segments.
From Verif.Spec Require Import Stats Interp Energy.
From Verif.Model Require Import Interpolation Energy.
From Verif.Proofs Require Import StatsP FlP YoYP YoYP2 InterpP EnergyP.
Import ListNotations.
Open Scope Qc_scope.

Lemma hours_0 : hours 0 = 0.
Proof. unfold hours. rewrite qz_0. unfold Qcdiv. ring. Qed.

Lemma rect_meets : forall lo hi pr, meets lo hi (rect_piece pr) = (0 <? overlap (fst (fst pr)) (fst (snd pr)) lo hi)%Z.
Proof. intros lo hi [[a p] [b q]]. cbn [meets rect_piece fst snd]. unfold overlap. lia. Qed.

Lemma rect_clipped : forall lo hi pr, clipped lo hi (rect_piece pr) = rect_part lo hi pr.
Proof.
  intros lo hi [[a p] [b q]]. cbn [clipped rect_piece rect_part fst snd]. unfold rect_part, overlap. cbn [fst snd].
  destruct (Z.max a lo <? Z.min b hi)%Z eqn:E.
  - rewrite (Z.max_r 0) by lia. rewrite hours_sub. ring.
  - rewrite (Z.max_l 0) by lia. rewrite hours_0. ring.
Qed.

(** ** Limits only matter up to whole nanoseconds *)

Lemma qle_floor : forall z limit, qle (qz z) (qz (qfloor limit)) = qle (qz z) limit.
Proof.
  intros z limit. destruct (qle (qz z) limit) eqn:E; qb.
  - apply qz_le_i. rewrite <- (qfloor_qz z). apply qfloor_mono, E.
  - apply Qcle_lt_trans with limit; [apply qfloor_le | exact E].
Qed.

Lemma steps_used_floor : forall s limit, steps_used s (qz (qfloor limit)) = steps_used s limit.
Proof. intros s limit. unfold steps_used. apply filter_ext. intros pr. unfold close. apply qle_floor. Qed.

Lemma interp_floor : forall s limit t v, interp s (qz (qfloor limit)) t v <-> interp s limit t v.
Proof.
  intros s limit t v.
  assert (forall z, qz z <= qz (qfloor limit) <-> qz z <= limit) as K.
  { intros z. rewrite <- !qle_spec, qle_floor. reflexivity. }
  assert (forall z, qz (qfloor limit) < qz z <-> limit < qz z) as L.
  { intros z. rewrite <- !qle_false, qle_floor. reflexivity. }
  split; intros H; inversion H; subst.
  - apply interp_point; assumption.
  - eapply interp_between; [eassumption | apply K; assumption].
  - eapply interp_gap; [eassumption | apply L; assumption].
  - apply interp_before; assumption.
  - apply interp_after; assumption.
  - apply interp_point; assumption.
  - eapply interp_between; [eassumption | apply K; assumption].
  - eapply interp_gap; [eassumption | apply L; assumption].
  - apply interp_before; assumption.
  - apply interp_after; assumption.
Qed.

(** ** The final mask *)

Lemma long_step_iff : forall s limit t, sorted_index s ->
  (fgt (lookup_bfill (t_step_nanoseconds s) t) (Fin limit) = true <-> in_long_step s limit t).
Proof.
  intros s limit t HS. unfold t_step_nanoseconds.
  set (P := map (fun r : Z * fl => (fst r, 0)) s).
  assert (times s = map fst P) as EP by (unfold P, times; rewrite map_map; reflexivity).
  assert (StronglySorted Z.lt (map fst P)) as HP by (rewrite <- EP; exact HS).
  assert (forall a b, In (a, b) (consec (times s)) <-> exists x y, In ((a, x), (b, y)) (consec P)) as EC.
  { intros a b. rewrite consec_In. split.
    - intros (l1 & l2 & E). rewrite EP in E. apply map_eq_app in E. destruct E as (k1 & k2 & EQ & E1 & E2).
      destruct k2 as [| [a' x] [| [b' y] k2]]; try discriminate. cbn in E2. injection E2 as -> -> _.
      exists x, y. apply consec_In. exists k1, k2. exact EQ.
    - intros (x & y & H). apply consec_In in H. destruct H as (k1 & k2 & E). exists (map fst k1), (map fst k2).
      rewrite EP, E, map_app. reflexivity. }
  rewrite EP, gap_bfill by exact HP. unfold in_long_step. split.
  - destruct (pair_at P t) as [[[a x] [b y]] |] eqn:E; [| discriminate]. cbn [fst snd]. intros H.
    apply pair_at_Some in E. destruct E as [E1 E2]. exists a, b. split; [apply EC; eauto |]. split; [exact E2 |].
    apply qlt_spec. exact H.
  - intros (a & b & H & Ht & Hl). apply EC in H. destruct H as (x & y & H).
    rewrite (pair_at_unique P t (a, x) (b, y) HP H Ht). cbn [fst snd]. apply qlt_spec. exact Hl.
Qed.

(** ** The median step *)

Lemma combine_vals : forall l d, length d = length l -> vals (combine l d) = d.
Proof.
  induction l as [| a l IH]; intros [| b d] H; try discriminate; [reflexivity |]. cbn. f_equal. apply IH. cbn in H. lia.
Qed.

Lemma median_step_spec : forall s med, (2 <= length s)%nat -> is_median (gaps_between (times s)) med ->
  median_step s = Fin med.
Proof.
  intros s med HL HM. unfold median_step, t_step_nanoseconds.
  assert (vals (combine (times s) (time_diffs (times s))) = time_diffs (times s)) as ->.
  { apply combine_vals, time_diffs_length. }
  destruct (time_diffs_gaps (times s)) as [E N].
  assert (gaps_between (times s) <> []) as Hne.
  { destruct s as [| r1 [| r2 l]]; cbn in HL; try lia. discriminate. }
  rewrite fmedian_noinf; [| exact N | rewrite E; exact Hne]. rewrite E, <- (is_median_unique _ _ Hne HM). reflexivity.
Qed.

(** ** Target intervals longer than the median step *)

Lemma labels_tl : forall t0 width last t, (0 < width)%Z -> (t0 <= last)%Z ->
  (In t (tl (bin_labels t0 width last)) <-> exists k, (1 <= k)%Z /\ t = (t0 + width * k)%Z /\ (t - width < last)%Z).
Proof.
  intros t0 width last t HW HL. unfold bin_labels. cbn [seq map tl]. rewrite in_map_iff.
  pose proof (Z.div_mod (- (last - t0)) width ltac:(lia)) as D. pose proof (Z.mod_pos_bound (- (last - t0)) width HW) as M.
  unfold cdiv. set (d := (- (last - t0) / width)%Z) in *. assert (d <= 0)%Z by nia. split.
  - intros (k & <- & Hk). apply in_seq in Hk. exists (Z.of_nat k). split; [lia |]. split; [reflexivity |].
    assert (Z.of_nat k <= - d)%Z by lia. nia.
  - intros (k & Hk & -> & Hl). exists (Z.to_nat k). rewrite Z2Nat.id by lia. split; [reflexivity |].
    apply in_seq. assert (k <= - d)%Z by nia. lia.
Qed.

Lemma grid_sorted : forall t0 width n m, (0 < width)%Z ->
  StronglySorted Z.lt (map (fun k => (t0 + width * Z.of_nat k)%Z) (seq m n)).
Proof.
  intros t0 width n. induction n as [| n IH]; intros m HW; cbn [seq map]; constructor; [apply IH, HW |].
  apply Forall_forall. intros x Hx. apply in_map_iff in Hx. destruct Hx as (k & <- & Hk). apply in_seq in Hk. nia.
Qed.

Lemma labels_tl_sorted : forall t0 width last, (0 < width)%Z -> StronglySorted Z.lt (tl (bin_labels t0 width last)).
Proof. intros t0 width last HW. unfold bin_labels. cbn [seq map tl]. apply grid_sorted, HW. Qed.

Lemma reported_if : forall long covered energy (bl bc : bool), (bl = true <-> long) -> (bc = true <-> covered) ->
  reported long covered energy (if bl then NaN else if bc then Fin energy else NaN).
Proof.
  intros long covered energy bl bc HL HC. unfold reported. destruct bl, bc; firstorder congruence.
Qed.

Lemma covered_iff : forall s limit lo hi,
  existsb (meets lo hi) (map rect_piece (steps_used s limit)) = true <-> rect_covered s limit lo hi.
Proof.
  intros s limit lo hi. rewrite existsb_exists. split.
  - intros (p & Hp & E). apply in_map_iff in Hp. destruct Hp as (pr & <- & Hp). exists pr. split; [exact Hp |].
    rewrite rect_meets in E. apply Z.ltb_lt, E.
  - intros (pr & Hp & E). exists (rect_piece pr). split; [apply in_map, Hp |]. rewrite rect_meets. apply Z.ltb_lt, E.
Qed.

Lemma rect_energy_sum : forall s limit lo hi,
  qsum (map (clipped lo hi) (map rect_piece (steps_used s limit))) = rect_energy s limit lo hi.
Proof.
  intros s limit lo hi. unfold rect_energy. rewrite map_map. f_equal. apply map_ext. intros pr. apply rect_clipped.
Qed.

Lemma last_fst : forall (s : series) d, s <> [] -> fst (List.last s d) = final_time s.
Proof.
  intros s d H. unfold final_time, times. destruct (exists_last H) as (k & x & ->).
  rewrite last_last, map_app. cbn [map]. rewrite last_last. reflexivity.
Qed.

Lemma points_none : forall s, noinf (vals s) -> points s = [] -> available s = [].
Proof. intros s H E. rewrite available_points by exact H. rewrite E. reflexivity. Qed.

Lemma aggregate_none : forall s width limit pt, available s = [] -> aggregate s width limit pt = Raise IndexError.
Proof.
  intros s width limit pt H. unfold aggregate. destruct s as [| [t0 v0] rest]; [reflexivity |]. rewrite H. reflexivity.
Qed.

Lemma energy_long : forall freq power width max med, sorted_index power -> noinf (vals power) ->
  (2 <= length power)%nat -> is_median (gaps_between (times power)) med -> (0 < width)%Z -> med < qz width ->
  (points power = [] -> energy_from_power freq power (Some width) max RightLabeled = Raise IndexError) /\
  (points power <> [] -> exists out, energy_from_power freq power (Some width) max RightLabeled = Ok out /\
    StronglySorted Z.lt (times out) /\
    (forall t, In t (times out) <->
       exists k, (1 <= k)%Z /\ t = (first_time power + width * k)%Z /\ (t - width < final_time power)%Z) /\
    forall t v, In (t, v) out ->
      reported (in_long_step power (the_limit max med) t)
               (rect_covered power (the_limit max med) (t - width) t)
               (rect_energy power (the_limit max med) (t - width) t) v).
Proof.
  intros freq power width max med HS HI HL HM HW Hlt.
  assert (exists t0 v0 rest, power = (t0, v0) :: rest) as (t0 & v0 & rest & Hp).
  { destruct power as [| [t0 v0] rest]; [cbn in HL; lia | eauto]. }
  assert (energy_from_power freq power (Some width) max RightLabeled =
    bind (aggregate power width (qz (qfloor (the_limit max med))) RightLabeled) (fun energy =>
      Ok (map (fun r => (fst r, if fgt (lookup_bfill (t_step_nanoseconds power) (fst r)) (Fin (the_limit max med))
                                then NaN else snd r)) energy))) as E.
  { unfold energy_from_power. destruct power as [| r0 [| r1 l]]; cbn in HL; try lia.
    rewrite (median_step_spec (r0 :: r1 :: l) med ltac:(cbn; lia) HM).
    assert (qle (qz width) med = false) as -> by (apply qle_false, Hlt). reflexivity. }
  rewrite E. clear E. split; intros HP.
  - rewrite (aggregate_none _ _ _ _ (points_none power HI HP)). reflexivity.
  - rewrite (aggregate_right power width _ t0 v0 rest Hp HS HI HW HP). cbn [bind]. rewrite map_map. cbn [fst snd].
    eexists. split; [reflexivity |].
    rewrite (last_fst power) by (rewrite Hp; discriminate).
    assert (first_time power = t0) as -> by (rewrite Hp; reflexivity).
    assert (t0 <= final_time power)%Z as HLe.
    { rewrite <- (last_fst power (t0, NaN)) by (rewrite Hp; discriminate). apply (last_ge power t0 v0 rest Hp HS). }
    unfold times at 1 2. rewrite !map_map. cbn [fst]. rewrite !map_id.
    split; [apply labels_tl_sorted, HW |]. split; [intros t; apply labels_tl; assumption |].
    intros t v H. apply in_map_iff in H. destruct H as (b & E & _).
    assert (b = t) as -> by (exact (f_equal fst E)). assert (_ = v) as Ev by (exact (f_equal snd E)). cbn [snd] in Ev.
    subst v. rewrite steps_used_floor, rect_energy_sum. apply reported_if; [apply long_step_iff, HS | apply covered_iff].
Qed.

(** ** Target intervals not longer than the median step *)

Lemma qsum_single : forall A (f : A -> Qc) l x, NoDup l -> In x l -> (forall y, In y l -> y <> x -> f y = 0) ->
  qsum (map f l) = f x.
Proof.
  intros A f l x HN Hx H. induction HN as [| y l Hy HN IH]; [destruct Hx |]. cbn [map]. rewrite qsum_cons.
  destruct Hx as [-> | Hx].
  - rewrite (qsum_map_zero _ f l); [ring |]. intros z Hz. apply H; [right; exact Hz |]. intros ->. contradiction.
  - rewrite IH; [| exact Hx | intros z Hz; apply H; right; exact Hz].
    rewrite (H y); [ring | left; reflexivity |]. intros ->. contradiction.
Qed.

Lemma consec_NoDup : forall P, StronglySorted Z.lt (map fst P) -> NoDup (consec (A := Z * Qc) P).
Proof.
  induction P as [| x P IH]; intros HS; [constructor |]. destruct P as [| y P]; [constructor |].
  rewrite consec_cons. pose proof (psorted_inv _ _ HS) as [HS' F]. constructor; [| apply IH, HS'].
  intros K. destruct (consec_fst _ _ _ _ K) as [K' _]. specialize (F _ K'). lia.
Qed.

Section Short.
  Variable power : series.
  Variable width : Z.
  Variable limit : Qc.
  Variable t0 : Z.
  Variable v0 : fl.
  Variable rest : series.
  Hypothesis Hp : power = (t0, v0) :: rest.
  Hypothesis HS : sorted_index power.
  Hypothesis HI : noinf (vals power).
  Hypothesis HW : (0 < width)%Z.
  Hypothesis H0 : 0 <= limit.

  Let grid := date_range t0 (final_time power) width.
  Let p := interpolate_series power grid (Some (qz (qfloor limit))).

  Lemma grid_In : forall t, In t grid <-> exists k, (0 <= k)%Z /\ t = (t0 + width * k)%Z /\ (t <= final_time power)%Z.
  Proof.
    intros t. assert (t0 <= final_time power)%Z as HLe.
    { rewrite <- (last_fst power (t0, NaN)) by (rewrite Hp; discriminate). apply (last_ge power t0 v0 rest Hp HS). }
    apply (interpolate_freq_spec true true power t0 (final_time power) width None); auto.
    - rewrite Hp. discriminate.
    - rewrite Hp. reflexivity.
    - rewrite Hp. unfold final_time. cbn [times map fst]. destruct (map fst rest) as [| z k]; [reflexivity |].
      change (List.last (t0 :: z :: k) t0 = List.last (t0 :: z :: k) 0%Z). 
      destruct (exists_last (l := t0 :: z :: k) ltac:(discriminate)) as (a & b & ->). rewrite !last_last. reflexivity.
  Qed.

  Lemma grid_sorted' : StronglySorted Z.lt grid.
  Proof. apply grid_sorted, HW. Qed.

  Lemma p_times : times p = grid.
  Proof. unfold p, interpolate_series, times. rewrite map_map. apply map_id. Qed.

  Lemma p_interp : forall t v, In (t, v) p -> interp power limit t v.
  Proof.
    intros t v H. apply interp_floor.
    apply (interpolate_spec power grid (Some (qz (qfloor limit))) (qz (qfloor limit)) HS HI eq_refl); [| exact H].
    apply qz_nonneg, qfloor_nonneg, H0.
  Qed.

  Lemma p_sorted : sorted_index p.
  Proof. unfold sorted_index. rewrite p_times. apply grid_sorted'. Qed.

  Lemma p_noinf : noinf (vals p).
  Proof.
    intros x Hx. apply in_map_iff in Hx. destruct Hx as ([t v] & <- & H). apply p_interp in H. cbn [snd].
    inversion H; split; discriminate.
  Qed.

  Lemma p_value : forall t v, In t grid -> interp power limit t v -> In (t, v) p.
  Proof.
    intros t v Ht Hv. rewrite <- p_times in Ht. apply in_map_iff in Ht. destruct Ht as ([t' w] & <- & Ht). cbn [fst] in *.
    rewrite (interp_unique power limit t' v w HS Hv (p_interp _ _ Ht)). exact Ht.
  Qed.

  (** A missing grid point separates points by more than the limit. *)
  Lemma hole : forall a b c qa qb, (a < c < b)%Z -> interp power limit a (Fin qa) -> interp power limit b (Fin qb) ->
    interp power limit c NaN -> limit < qz (b - a).
  Proof.
    intros a b c qa qb Hc Ha Hb HN.
    inversion HN as [| | t1 v1 t2 v2 (B1 & B2 & B3 & B4) Hl | HB | HA].
    - apply Qclt_le_trans with (qz (t2 - t1)); [exact Hl |]. apply qz_le_i.
      assert (a <= t1)%Z.
      { destruct (Z_lt_le_dec t1 a) as [L | L]; [exfalso | exact L].
        assert (interp power limit a NaN) as K by (eapply interp_gap; [| exact Hl]; split; [exact B1 | split; [exact B2 | split; [lia | exact B4]]]).
        pose proof (interp_unique _ _ _ _ _ HS Ha K). discriminate. }
      assert (t2 <= b)%Z.
      { destruct (Z_lt_le_dec b t2) as [L | L]; [exfalso | exact L].
        assert (interp power limit b NaN) as K by (eapply interp_gap; [| exact Hl]; split; [exact B1 | split; [exact B2 | split; [lia | exact B4]]]).
        pose proof (interp_unique _ _ _ _ _ HS Hb K). discriminate. }
      lia.
    - exfalso. assert (interp power limit a NaN) as K by (apply interp_before; intros u w H; specialize (HB _ _ H); lia).
      pose proof (interp_unique _ _ _ _ _ HS Ha K). discriminate.
    - exfalso. assert (interp power limit b NaN) as K by (apply interp_after; intros u w H; specialize (HA _ _ H); lia).
      pose proof (interp_unique _ _ _ _ _ HS Hb K). discriminate.
  Qed.

  Lemma step_of_grid : forall a qa b qb, In ((a, qa), (b, qb)) (steps_used p limit) -> b = (a + width)%Z.
  Proof.
    intros a qa b qb H. apply filter_In in H. destruct H as [H C]. unfold close in C. cbn [fst snd] in C. qb.
    destruct (consec_fst _ _ _ _ H) as [Ha Hb].
    pose proof (sorted_consec _ _ _ (points_sorted p p_sorted) H) as [Hab HC]. cbn [fst snd] in *.
    apply points_In in Ha. apply points_In in Hb.
    assert (In a grid) as Ga by (rewrite <- p_times; apply in_map_iff; exists (a, Fin qa); auto).
    assert (In b grid) as Gb by (rewrite <- p_times; apply in_map_iff; exists (b, Fin qb); auto).
    pose proof Ga as Ga'. pose proof Gb as Gb'.
    apply grid_In in Ga. destruct Ga as (i & Hi & -> & _). apply grid_In in Gb. destruct Gb as (j & Hj & -> & Hle).
    assert (i < j)%Z by nia. destruct (Z.eq_dec j (i + 1)) as [-> | Hne]; [lia | exfalso].
    set (c := (t0 + width * (i + 1))%Z).
    assert (In c grid) as Gc by (apply grid_In; exists (i + 1)%Z; split; [lia |]; split; [reflexivity |]; unfold c; nia).
    assert (exists w, In (c, w) p) as [w Hw].
    { rewrite <- p_times in Gc. apply in_map_iff in Gc. destruct Gc as ([c' w] & E & Hw). cbn in E. subst c'. eauto. }
    pose proof (p_interp _ _ Hw) as Iw. destruct w as [| | qc |].
    - assert (t0 + width * i < c < t0 + width * j)%Z as Hc by (unfold c; nia).
      pose proof (hole _ _ c _ _ Hc (p_interp _ _ Ha) (p_interp _ _ Hb) Iw). qlra.
    - inversion Iw.
    - apply points_In in Hw. specialize (HC _ Hw). unfold c in HC. cbn [fst] in HC. nia.
    - inversion Iw.
  Qed.

  Lemma grid_covered : forall t, In t grid -> (t0 < t)%Z ->
    (rect_covered p limit (t - width) t <-> exists q, both_ends power width limit t q) /\
    forall q, both_ends power width limit t q -> rect_energy p limit (t - width) t = q * hours width.
  Proof.
    intros t Ht Hlt. pose proof Ht as Gt. apply grid_In in Gt. destruct Gt as (k & Hk & -> & Hle).
    assert (1 <= k)%Z as Hk1 by nia.
    assert (In (t0 + width * k - width)%Z grid) as Gp.
    { apply grid_In. exists (k - 1)%Z. split; [lia |]. split; lia. }
    set (t := (t0 + width * k)%Z) in *.
    assert (forall q q', both_ends power width limit t q -> interp power limit (t - width) (Fin q') ->
              In (((t - width)%Z, q'), (t, q)) (steps_used p limit)) as IN.
    { intros q q' (Hw & I1 & _) I2. apply filter_In. split; [| unfold close; cbn [fst snd]; apply qle_spec; replace (t - (t - width))%Z with width by lia; exact Hw].
      pose proof (p_value _ _ Ht I1) as K1. pose proof (p_value _ _ Gp I2) as K2.
      apply points_In in K1. apply points_In in K2.
      destruct (pair_at_ex (points p) t _ _ (points_sorted p p_sorted) K2 K1 ltac:(cbn [fst]; lia)) as [[x y] E].
      apply pair_at_Some in E. destruct E as [E1 E2]. cbn [fst snd] in E2.
      pose proof (sorted_consec _ _ _ (points_sorted p p_sorted) E1) as [_ C].
      destruct (consec_fst _ _ _ _ E1) as [Hx Hy].
      assert (fst x = (t - width)%Z) as Ex.
      { pose proof (C _ K2) as C2. cbn [fst] in C2. destruct C2 as [C2 | C2]; [| lia].
        destruct x as [tx qx]. cbn [fst] in *. apply points_In in Hx.
        assert (In tx grid) as Gx by (rewrite <- p_times; apply in_map_iff; exists (tx, Fin qx); auto).
        apply grid_In in Gx. destruct Gx as (i & Hi & -> & _). unfold t in *. assert (i < k)%Z by nia. assert (k - 1 <= i)%Z by nia.
        assert (i = k - 1)%Z by lia. subst i. lia. }
      assert (fst y = t) as Ey.
      { pose proof (C _ K1) as C1. cbn [fst] in C1. lia. }
      assert (x = ((t - width)%Z, q')) as <-.
      { destruct x as [tx qx]. cbn [fst] in Ex. subst tx. apply points_In in Hx. apply points_In in K2.
        pose proof (sorted_fun p _ _ _ p_sorted Hx K2) as E. congruence. }
      assert (y = (t, q)) as <-.
      { destruct y as [ty qy]. cbn [fst] in Ey. subst ty. apply points_In in Hy. apply points_In in K1.
        pose proof (sorted_fun p _ _ _ p_sorted Hy K1) as E. congruence. }
      exact E1. }
    split; [split |].
    - intros ([[a qa] [b qb]] & H & Ho). cbn [fst snd] in Ho. pose proof (step_of_grid _ _ _ _ H) as ->.
      apply filter_In in H. destruct H as [H C]. unfold close in C. cbn [fst snd] in C.
      replace (a + width - a)%Z with width in C by lia. qb.
      destruct (consec_fst _ _ _ _ H) as [Ha Hb]. apply points_In in Ha. apply points_In in Hb.
      assert (In a grid) as Ga by (rewrite <- p_times; apply in_map_iff; exists (a, Fin qa); auto).
      apply grid_In in Ga. destruct Ga as (i & Hi & -> & _). unfold overlap, t in Ho.
      assert (i = k - 1)%Z by nia. subst i.
      exists qb. split; [exact C |]. split.
      + replace t with (t0 + width * (k - 1) + width)%Z by (unfold t; lia). apply p_interp, Hb.
      + exists qa. replace (t - width)%Z with (t0 + width * (k - 1))%Z by (unfold t; lia). apply p_interp, Ha.
    - intros (q & Hq). pose proof Hq as (_ & _ & q' & I2). exists (((t - width)%Z, q'), (t, q)).
      split; [apply IN; assumption |]. cbn [fst snd]. unfold overlap. lia.
    - intros q Hq. pose proof Hq as (_ & _ & q' & I2). pose proof (IN _ _ Hq I2) as Hin. unfold rect_energy.
      rewrite (qsum_single _ _ _ (((t - width)%Z, q'), (t, q))).
      + unfold rect_part, overlap. cbn [fst snd]. do 2 f_equal. lia.
      + apply NoDup_filter, consec_NoDup, points_sorted, p_sorted.
      + exact Hin.
      + intros [[a qa] [b qb]] H Hne. pose proof (step_of_grid _ _ _ _ H) as ->. unfold rect_part. cbn [fst snd].
        assert (overlap a (a + width) (t - width) t = 0)%Z as ->; [| rewrite hours_0; ring].
        apply filter_In in H. destruct H as [H C]. destruct (consec_fst _ _ _ _ H) as [Ha Hb].
        apply points_In in Ha. apply points_In in Hb.
        assert (In a grid) as Ga by (rewrite <- p_times; apply in_map_iff; exists (a, Fin qa); auto).
        apply grid_In in Ga. destruct Ga as (i & Hi & -> & _). unfold overlap.
        destruct (Z.eq_dec i (k - 1)) as [-> | Hik].
        * exfalso. apply Hne. apply filter_In in Hin. destruct Hin as [Hin _]. destruct (consec_fst _ _ _ _ Hin) as [K1 K2].
          apply points_In in K1. apply points_In in K2.
          replace (t0 + width * (k - 1))%Z with (t - width)%Z in * by (unfold t; lia).
          replace (t - width + width)%Z with t in * by lia.
          pose proof (sorted_fun p _ _ _ p_sorted Ha K1) as E1. pose proof (sorted_fun p _ _ _ p_sorted Hb K2) as E2. congruence.
        * unfold t. destruct (Z_lt_le_dec i (k - 1)); nia.
  Qed.

  Lemma final_grid : fst (List.last p (t0, NaN)) = (t0 + width * ((final_time power - t0) / width))%Z.
  Proof.
    assert (t0 <= final_time power)%Z as HLe.
    { rewrite <- (last_fst power (t0, NaN)) by (rewrite Hp; discriminate). apply (last_ge power t0 v0 rest Hp HS). }
    assert (0 <= (final_time power - t0) / width)%Z by (apply Z.div_pos; lia).
    assert (p <> []) as Hne.
    { intros E. pose proof p_times as K. rewrite E in K. unfold grid, date_range in K.
      rewrite Z2Nat.inj_add, Nat.add_comm in K by lia. discriminate. }
    rewrite (last_fst p (t0, NaN) Hne). unfold final_time at 1. rewrite p_times. unfold grid, date_range.
    replace (Z.to_nat ((final_time power - t0) / width + 1)) with (S (Z.to_nat ((final_time power - t0) / width))) by lia.
    rewrite seq_S, map_app. cbn [map]. rewrite last_last. cbn. rewrite Z2Nat.id by lia. reflexivity.
  Qed.

  Lemma p_cons : exists w l, p = (t0, w) :: l.
  Proof.
    assert (t0 <= final_time power)%Z as HLe.
    { rewrite <- (last_fst power (t0, NaN)) by (rewrite Hp; discriminate). apply (last_ge power t0 v0 rest Hp HS). }
    assert (0 <= (final_time power - t0) / width)%Z by (apply Z.div_pos; lia).
    pose proof p_times as E. unfold grid, date_range in E.
    replace (Z.to_nat ((final_time power - t0) / width + 1)) with (S (Z.to_nat ((final_time power - t0) / width))) in E by lia.
    cbn [seq map] in E. destruct p as [| [t w] l]; [discriminate |]. exists w, l. cbn [times map fst] in E.
    pose proof (f_equal (hd 0%Z) E) as K. cbn in K. subst t. f_equal. f_equal. lia.
  Qed.

  Lemma aggregate_short :
    ((forall t q, In t grid -> ~ interp power limit t (Fin q)) ->
       aggregate p width (qz (qfloor limit)) RightLabeled = Raise IndexError) /\
    (forall t q, In t grid -> interp power limit t (Fin q) ->
      aggregate p width (qz (qfloor limit)) RightLabeled =
      Ok (map (fun b => (b, if existsb (meets (b - width) b) (map rect_piece (steps_used p limit))
                          then Fin (rect_energy p limit (b - width) b) else NaN)) (tl grid))).
  Proof.
    destruct p_cons as (w & l & Ep). split.
    - intros H. apply aggregate_none, points_none; [exact p_noinf |].
      destruct (points p) as [| [t q] k] eqn:E; [reflexivity | exfalso].
      assert (In (t, Fin q) p) as K by (apply points_In; rewrite E; left; reflexivity).
      apply (H t q); [rewrite <- p_times; apply in_map_iff; exists (t, Fin q); auto | apply p_interp, K].
    - intros t q Ht Hq. rewrite (aggregate_right p width _ t0 w l Ep p_sorted p_noinf HW).
      + rewrite final_grid. f_equal. rewrite steps_used_floor.
        assert (bin_labels t0 width (t0 + width * ((final_time power - t0) / width)) = grid) as ->.
        { unfold bin_labels, grid, date_range. f_equal. f_equal. unfold cdiv.
          replace (- (t0 + width * ((final_time power - t0) / width) - t0))%Z with ((- ((final_time power - t0) / width)) * width)%Z by lia.
          rewrite Z.div_mul by lia.
          assert (t0 <= final_time power)%Z.
          { rewrite <- (last_fst power (t0, NaN)) by (rewrite Hp; discriminate). apply (last_ge power t0 v0 rest Hp HS). }
          assert (0 <= (final_time power - t0) / width)%Z by (apply Z.div_pos; lia). lia. }
        apply map_ext. intros b. rewrite rect_energy_sum. reflexivity.
      + intros E. pose proof (p_value _ _ Ht Hq) as K. apply points_In in K. rewrite E in K. destruct K.
  Qed.
End Short.

Lemma energy_short : forall freq power target width max med limit, sorted_index power -> noinf (vals power) ->
  (2 <= length power)%nat -> is_median (gaps_between (times power)) med ->
  width = match target with Some w => w | None => qfloor med end -> limit = the_limit max med ->
  (0 < width)%Z -> qz width <= med -> 0 <= limit ->
  let on_grid t := exists k, (0 <= k)%Z /\ t = (first_time power + width * k)%Z /\ (t <= final_time power)%Z in
  ((forall t q, on_grid t -> ~ interp power limit t (Fin q)) ->
     energy_from_power freq power target max RightLabeled = Raise IndexError) /\
  (forall t0 q0, on_grid t0 -> interp power limit t0 (Fin q0) ->
    exists out, energy_from_power freq power target max RightLabeled = Ok out /\
    StronglySorted Z.lt (times out) /\
    (forall t, In t (times out) <-> on_grid t /\ t <> first_time power) /\
    forall t v, In (t, v) out ->
      (in_long_step power limit t -> v = NaN) /\
      ((forall q, ~ both_ends power width limit t q) -> v = NaN) /\
      (forall q, ~ in_long_step power limit t -> both_ends power width limit t q -> v = Fin (q * hours width))).
Proof.
  intros freq power target width max med limit HS HI HL HM EW EL HW Hle H0 on_grid.
  assert (exists t0 v0 rest, power = (t0, v0) :: rest) as (t0 & v0 & rest & Hp).
  { destruct power as [| [t0 v0] rest]; [cbn in HL; lia | eauto]. }
  set (grid := date_range t0 (final_time power) width).
  assert (forall t, In t grid <-> on_grid t) as HG.
  { intros t. unfold on_grid. replace (first_time power) with t0 by (rewrite Hp; reflexivity).
    apply (grid_In power width t0 v0 rest Hp HS HW). }
  assert (energy_from_power freq power target max RightLabeled =
    bind (aggregate (interpolate_series power grid (Some (qz (qfloor limit)))) width (qz (qfloor limit)) RightLabeled) (fun energy =>
      Ok (map (fun r => (fst r, if fgt (lookup_bfill (t_step_nanoseconds power) (fst r)) (Fin limit)
                                then NaN else snd r)) energy))) as E.
  { subst limit. unfold energy_from_power. destruct power as [| r0 [| r1 l]] eqn:Epw; cbn in HL; try lia. rewrite <- Epw in *.
    rewrite (median_step_spec power med ltac:(rewrite Epw; cbn; lia) HM). rewrite <- EW. fold (the_limit max med).
    assert (qle (qz width) med = true) as -> by (apply qle_spec, Hle).
    unfold interpolate, target_index. cbn [bind xorb]. 
    assert (times power = t0 :: times rest) as Et by (rewrite Hp; reflexivity).
    rewrite Et. cbn [bind]. rewrite <- Et.
    replace (List.last (times power) t0) with (final_time power); [unfold grid; rewrite <- Epw; reflexivity |].
    unfold final_time. rewrite Et. destruct (exists_last (l := t0 :: times rest) ltac:(discriminate)) as (a & b & ->).
    rewrite !last_last. reflexivity. }
  rewrite E. clear E.
  destruct (aggregate_short power width limit t0 v0 rest Hp HS HI HW H0) as [A1 A2]. fold grid in A1, A2. split.
  - intros H. rewrite A1; [reflexivity |]. intros t q Ht. apply H, HG, Ht.
  - intros t1 q1 Ht1 Hq1. rewrite (A2 t1 q1 (proj2 (HG t1) Ht1) Hq1). cbn [bind]. rewrite map_map. cbn [fst snd].
    eexists. split; [reflexivity |]. unfold times at 1 2. rewrite !map_map. cbn [fst]. rewrite !map_id.
    assert (StronglySorted Z.lt grid) as SG by (apply grid_sorted, HW).
    assert (exists k, grid = t0 :: k) as [k Ek].
    { assert (In t0 grid) as K.
      { apply HG. exists 0%Z. split; [lia |]. replace (first_time power) with t0 by (rewrite Hp; reflexivity). split; [lia |].
        rewrite <- (last_fst power (t0, NaN)) by (rewrite Hp; discriminate). apply (last_ge power t0 v0 rest Hp HS). }
      destruct grid as [| g k]; [destruct K |]. exists k. f_equal.
      assert (In g (g :: k)) as Hg by (left; reflexivity). apply HG in Hg. destruct Hg as (j & Hj & Eg & _).
      replace (first_time power) with t0 in Eg by (rewrite Hp; reflexivity).
      destruct K as [K | K]; [auto |]. apply StronglySorted_inv in SG. destruct SG as [_ F]. rewrite Forall_forall in F.
      specialize (F _ K). nia. }
    split; [rewrite Ek in SG |- *; apply StronglySorted_inv in SG; apply SG |]. split.
    + intros t. rewrite <- HG. replace (first_time power) with t0 by (rewrite Hp; reflexivity). rewrite Ek. cbn [tl In].
      rewrite Ek in SG. apply StronglySorted_inv in SG. destruct SG as [_ F]. rewrite Forall_forall in F. split.
      * intros K. split; [right; exact K |]. specialize (F _ K). lia.
      * intros [[K | K] N]; [congruence | exact K].
    + intros t v H. apply in_map_iff in H. destruct H as (b & E & Hb).
      assert (b = t) as -> by (exact (f_equal fst E)). assert (_ = v) as Ev by (exact (f_equal snd E)). cbn [snd] in Ev.
      assert (In t grid /\ (t0 < t)%Z) as [Ht Hlt].
      { rewrite Ek in Hb |- *. cbn [tl] in Hb. split; [right; exact Hb |]. rewrite Ek in SG. apply StronglySorted_inv in SG.
        destruct SG as [_ F]. rewrite Forall_forall in F. apply F, Hb. }
      destruct (grid_covered power width limit t0 v0 rest Hp HS HI HW H0 t Ht Hlt) as [C1 C2]. fold grid in C1, C2.
      subst v.
      match goal with |- context [if ?x then NaN else if ?y then Fin ?e else NaN] =>
        pose proof (reported_if (in_long_step power limit t) (rect_covered (interpolate_series power grid (Some (qz (qfloor limit)))) limit (t - width) t)
          e x y (long_step_iff power limit t HS) (covered_iff _ _ _ _)) as (R1 & R2 & R3) end.
      split; [exact R1 |]. split.
      * intros HN. apply R2. rewrite C1. intros [q Hq]. exact (HN q Hq).
      * intros q HNl Hq. rewrite (R3 HNl); [| apply C1; eauto]. f_equal. apply C2, Hq.
Qed.
