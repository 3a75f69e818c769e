(** Energy: conservation, exactness without gaps, scaling. *)

From Coq Require Import QArith Qcanon List ZArith Bool Permutation Sorted Lia Arith.
From Verif.Base Require Import QcExtra ISort Quantile Fl TimeSeries Segments.
From Verif.Spec Require Import Stats Interp Energy.
From Verif.Model Require Import Interpolation Energy.
From Verif.Proofs Require Import StatsP FlP YoYP YoYP2 InterpP EnergyP EnergyP2 EnergyP3 EnergyP4.
Import ListNotations.
Open Scope Qc_scope.

(** ** Series without gaps *)

Lemma all_points : forall s, noinf (vals s) -> (forall v, In v (vals s) -> v <> NaN) -> map fst (points s) = times s.
Proof.
  induction s as [| [t v] s IH]; intros HI HN; [reflexivity |].
  assert (In v (vals ((t, v) :: s))) as Hv by (left; reflexivity). pose proof (HN v Hv). destruct (HI v Hv).
  destruct v as [| | q |]; try congruence. cbn [points map times fst]. f_equal. apply IH.
  - intros x Hx. apply HI. right. exact Hx.
  - intros x Hx. apply HN. right. exact Hx.
Qed.

Lemma consec_gaps : forall P (a b : Z * Qc), In (a, b) (consec P) -> In (qz (fst b - fst a)) (gaps_between (map fst P)).
Proof.
  intros P a b H. apply consec_In in H. destruct H as (l1 & l2 & ->). induction l1 as [| x l1 IH].
  - left. reflexivity.
  - cbn [app map]. destruct (l1 ++ a :: b :: l2) as [| y l] eqn:E; [destruct l1; discriminate |]. cbn [map] in *.
    right. exact IH.
Qed.

Section NoGaps.
  Variable s : series.
  Variable limit : Qc.
  Variable t0 : Z.
  Variable v0 : fl.
  Variable rest : series.
  Hypothesis Hs : s = (t0, v0) :: rest.
  Hypothesis HS : sorted_index s.
  Hypothesis HI : noinf (vals s).
  Hypothesis HG : no_gaps s limit.

  Lemma ng_times : map fst (points s) = times s.
  Proof. apply all_points; [exact HI | apply HG]. Qed.

  Lemma ng_close : forall pr, In pr (consec (points s)) -> close limit pr = true.
  Proof.
    intros [a b] H. apply qle_spec. apply HG. rewrite <- ng_times. apply (consec_gaps _ _ _ H).
  Qed.

  Lemma ng_steps : steps_used s limit = consec (points s).
  Proof.
    unfold steps_used. pose proof ng_close as H. induction (consec (points s)) as [| x l IH]; [reflexivity |].
    cbn [filter]. rewrite (H x (or_introl eq_refl)). f_equal. apply IH. intros y Hy. apply H. right. exact Hy.
  Qed.

  Lemma ng_first : exists q0, v0 = Fin q0.
  Proof.
    assert (In v0 (vals s)) as Hv by (rewrite Hs; left; reflexivity). destruct HG as [HN _]. specialize (HN _ Hv). destruct (HI _ Hv).
    destruct v0; try congruence. eauto.
  Qed.

  Lemma ng_points : exists q0 l, points s = (t0, q0) :: l.
  Proof. destruct ng_first as [q0 E]. exists q0, (points rest). rewrite Hs, E. reflexivity. Qed.

  Lemma ng_ends : List.last (map fst (points s)) t0 = final_time s.
  Proof.
    rewrite ng_times. unfold final_time. rewrite Hs. cbn [times map fst].
    destruct (exists_last (l := t0 :: map fst rest) ltac:(discriminate)) as (k & x & ->). rewrite !last_last. reflexivity.
  Qed.

  Lemma ng_not_long : forall t, ~ in_long_step s limit t.
  Proof.
    intros t (a & b & H & Ht & Hl). rewrite <- ng_times in H.
    assert (exists x y, In ((a, x), (b, y)) (consec (points s))) as (x & y & K).
    { apply consec_In in H. destruct H as (l1 & l2 & E). apply map_eq_app in E. destruct E as (k1 & k2 & EQ & _ & E2).
      destruct k2 as [| [a' x] [| [b' y] k2]]; try discriminate. cbn in E2. injection E2 as -> -> _. exists x, y.
      apply consec_In. exists k1, k2. exact EQ. }
    apply ng_close in K. unfold close in K. cbn [fst snd] in K. qb. qlra.
  Qed.

  Lemma ng_covers : forall t, (t0 < t <= final_time s)%Z -> exists pr, pair_at (points s) t = Some pr.
  Proof.
    intros t Ht. destruct ng_points as (q0 & l & EP).
    assert (exists qn, In (final_time s, qn) (points s)) as [qn Hn].
    { pose proof ng_ends as E. rewrite EP in *. clear EP.
      assert (In (final_time s) (map fst ((t0, q0) :: l))) as K.
      { rewrite <- E. apply last_In. discriminate. }
      apply in_map_iff in K. destruct K as ([x y] & <- & K). exists y. exact K. }
    apply (pair_at_ex (points s) t (t0, q0) (final_time s, qn)); [apply points_sorted, HS | rewrite EP; left; reflexivity | exact Hn | exact Ht].
  Qed.

  Lemma ng_covered : forall lo hi, (t0 <= lo)%Z -> (lo < hi)%Z -> (lo < final_time s)%Z -> rect_covered s limit lo hi.
  Proof.
    intros lo hi H1 H2 H3. destruct (ng_covers (lo + 1)%Z ltac:(lia)) as [pr E]. apply pair_at_Some in E. destruct E as [E1 E2].
    exists pr. rewrite ng_steps. split; [exact E1 |]. unfold overlap. lia.
  Qed.

  (** ** Conservation *)

  Lemma ng_bounds : forall a b, In (a, b) (consec (points s)) -> (t0 <= fst a)%Z /\ (fst a < fst b <= final_time s)%Z.
  Proof.
    intros a b H. pose proof (sorted_consec _ _ _ (points_sorted s HS) H) as [L _]. destruct (consec_fst _ _ _ _ H) as [Ha Hb].
    destruct a as [a p], b as [b q]. cbn [fst] in *. apply points_In in Ha. apply points_In in Hb.
    pose proof (first_le s t0 v0 rest Hs HS _ _ Ha).
    assert (b <= final_time s)%Z; [| lia].
    rewrite <- (last_fst s (t0, NaN)) by (rewrite Hs; discriminate).
    apply (proj2 (last_row s t0 v0 rest Hs HS)). apply in_map_iff. exists (b, Fin q). auto.
  Qed.

  Lemma bins_total : forall width, (0 < width)%Z ->
    qsum (map (fun b => rect_energy s limit (b - width) b) (tl (bin_labels t0 width (final_time s)))) = total_energy s.
  Proof.
    intros width HW. unfold rect_energy. rewrite ng_steps, qsum_swap. unfold total_energy. apply qsum_map_ext.
    intros [[a p] [b q]] Hpr. destruct (ng_bounds _ _ Hpr) as [B1 B2]. cbn [fst snd] in *.
    unfold rect_part. cbn [fst snd]. rewrite qsum_map_scale. f_equal.
    unfold bin_labels. cbn [seq map tl]. rewrite map_map. rewrite overlap_bins by lia. f_equal.
    unfold overlap. pose proof (Z.div_mod (- (final_time s - t0)) width ltac:(lia)) as D.
    pose proof (Z.mod_pos_bound (- (final_time s - t0)) width HW) as M.
    unfold cdiv. set (d := (- (final_time s - t0) / width)%Z) in *. rewrite Z2Nat.id by nia.
    assert (final_time s <= t0 + width * - d)%Z by nia. lia.
  Qed.

  (** ** Trapezoids *)

  Lemma ng_trusted : forall a p, In (a, p) (points s) -> trusted s limit a = true.
  Proof.
    intros a p H. unfold trusted. destruct (Z.eq_dec t0 a) as [N | N].
    - destruct ng_first as [q0 E]. rewrite Hs, E, N, Z.eqb_refl. reflexivity.
    - apply orb_true_iff. right. apply existsb_exists. pose proof H as H'. apply points_In in H'.
      pose proof (first_le s t0 v0 rest Hs HS _ _ H').
      assert (a <= final_time s)%Z.
      { rewrite <- (last_fst s (t0, NaN)) by (rewrite Hs; discriminate). apply (proj2 (last_row s t0 v0 rest Hs HS)).
        apply in_map_iff. exists (a, Fin p). auto. }
      destruct (ng_covers a ltac:(lia)) as [[x y] E]. apply pair_at_Some in E. destruct E as [E1 E2]. cbn [fst snd] in E2.
      exists (x, y). rewrite ng_steps. split; [exact E1 |]. cbn [snd]. apply Z.eqb_eq.
      pose proof (sorted_consec _ _ _ (points_sorted s HS) E1) as [_ C]. specialize (C _ H). cbn [fst] in C. lia.
  Qed.

  Lemma ng_held : forall width, (0 < width)%Z ->
    let stop := end_of_bins t0 width (final_time s) in
    trap_used s limit stop = consec (held s stop) /\
    forall pr, In pr (consec (held s stop)) -> trap_from s limit t0 width pr = fst (fst pr).
  Proof.
    intros width HW stop.
    assert (points s <> []) as HP by (destruct ng_points as (q0 & l & ->); discriminate).
    destruct (points_snoc s HP) as (P' & tn & qn & EP).
    assert (stop = (t0 + width * cdiv (fst (List.last s (t0, NaN)) - t0) width)%Z) as E.
    { rewrite last_fst by (rewrite Hs; discriminate). reflexivity. }
    split.
    - unfold trap_used. rewrite E.
      assert (forall pr, In pr (consec (held s (t0 + width * cdiv (fst (List.last s (t0, NaN)) - t0) width))) ->
        close limit pr || (last_time s <=? fst (fst pr))%Z = true) as H.
      { intros pr Hpr. destruct (held_consec s width t0 HS P' tn qn EP pr Hpr) as [[K _] | [K _]].
        - rewrite (ng_close pr K). reflexivity.
        - rewrite (last_time_eq s P' tn qn EP). rewrite K. cbn [fst]. rewrite Z.leb_refl. apply orb_true_r. }
      induction (consec _) as [| x l IH]; [reflexivity |]. cbn [filter]. rewrite (H x (or_introl eq_refl)). f_equal.
      apply IH. intros y Hy. apply H. right. exact Hy.
    - intros [[a p] b] Hpr. rewrite E in Hpr. destruct (held_fst s width t0 v0 rest Hs HS HW P' tn qn EP _ _ Hpr) as [K _].
      unfold trap_from. cbn [fst]. rewrite (ng_trusted a p K). reflexivity.
  Qed.

  Lemma ng_trap_energy : forall width lo hi, (0 < width)%Z ->
    let stop := end_of_bins t0 width (final_time s) in
    trap_energy s limit t0 width stop lo hi =
    qsum (map (fun pr => trap_part (fst (fst pr)) lo hi pr) (consec (held s stop))).
  Proof.
    intros width lo hi HW stop. destruct (ng_held width HW) as [E1 E2]. fold stop in E1, E2.
    unfold trap_energy. rewrite E1. apply qsum_map_ext. intros pr Hpr. rewrite (E2 pr Hpr). reflexivity.
  Qed.

  Lemma ng_trap_covered : forall width lo hi, (0 < width)%Z -> (t0 <= lo < hi)%Z -> (lo < final_time s)%Z ->
    trap_covered s limit t0 width (end_of_bins t0 width (final_time s)) lo hi.
  Proof.
    intros width lo hi HW H1 H2. destruct (ng_held width HW) as [E1 E2].
    destruct (ng_covers (lo + 1)%Z ltac:(lia)) as [pr E]. apply pair_at_Some in E. destruct E as [K1 K2].
    assert (points s <> []) as HP by (destruct ng_points as (q0 & l & ->); discriminate).
    destruct (points_snoc s HP) as (P' & tn & qn & EP).
    assert (end_of_bins t0 width (final_time s) = (t0 + width * cdiv (fst (List.last s (t0, NaN)) - t0) width)%Z) as E.
    { rewrite last_fst by (rewrite Hs; discriminate). reflexivity. }
    assert (In pr (consec (held s (end_of_bins t0 width (final_time s))))) as K3.
    { rewrite E. apply (consec_held s width t0 P' tn qn EP), K1. }
    exists pr. rewrite E1. split; [exact K3 |]. rewrite (E2 pr K3). unfold overlap. lia.
  Qed.

  (** Linear power. *)
  Lemma ng_linear : forall width lo hi alpha beta, (0 < width)%Z -> (t0 <= lo < hi)%Z -> (hi <= final_time s)%Z ->
    (forall t q, In (t, Fin q) s -> q = alpha + beta * qz t) ->
    trap_energy s limit t0 width (end_of_bins t0 width (final_time s)) lo hi =
    (alpha + beta * qz lo + (alpha + beta * qz hi)) / qz 2 * hours (hi - lo).
  Proof.
    intros width lo hi alpha beta HW H1 H2 HL. rewrite (ng_trap_energy width lo hi HW).
    assert (points s <> []) as HP by (destruct ng_points as (q0 & l & ->); discriminate).
    destruct (points_snoc s HP) as (P' & tn & qn & EP).
    assert (end_of_bins t0 width (final_time s) = (t0 + width * cdiv (fst (List.last s (t0, NaN)) - t0) width)%Z) as E.
    { rewrite last_fst by (rewrite Hs; discriminate). reflexivity. }
    assert (tn = final_time s) as Etn.
    { pose proof ng_ends as K. rewrite EP, map_app in K. cbn [map] in K. rewrite last_last in K. exact K. }
    set (G := fun t => alpha * hours t + beta * (qz t * qz t) / (qz 2 * qz 3600000000000)).
    assert (forall x y, G y - G x = (alpha + beta * qz y + (alpha + beta * qz x)) / qz 2 * hours (y - x)) as HGd.
    { intros x y. unfold G, hours. rewrite qz_sub. assert (qz 2 = 1 + 1) as -> by (apply Qc_is_canon; reflexivity).
      field. split; discriminate. }
    assert (qsum (map (fun pr => trap_part (fst (fst pr)) lo hi pr) (consec (held s (end_of_bins t0 width (final_time s))))) =
            qsum (map (fun pr : (Z * Qc) * (Z * Qc) => let x := Z.max (fst (fst pr)) lo in let y := Z.min (fst (snd pr)) hi in
                       if (x <? y)%Z then G y - G x else 0) (consec (points s)))) as ->.
    { assert (forall pr, In pr (consec (points s)) -> trap_part (fst (fst pr)) lo hi pr =
        (let x := Z.max (fst (fst pr)) lo in let y := Z.min (fst (snd pr)) hi in if (x <? y)%Z then G y - G x else 0)) as HA.
      { intros [[a p] [b q]] Hpr. unfold trap_part. cbn [fst snd]. cbv zeta. destruct (Z.max a lo <? Z.min b hi)%Z; [| reflexivity].
        destruct (ng_bounds _ _ Hpr) as [_ L]. cbn [fst] in L. destruct (consec_fst _ _ _ _ Hpr) as [Ka Kb].
        apply points_In in Ka. apply points_In in Kb. rewrite (HL _ _ Ka), (HL _ _ Kb).
        assert (forall t, on_chord a (alpha + beta * qz a) b (alpha + beta * qz b) t = alpha + beta * qz t) as HC.
        { intros t. unfold on_chord. rewrite !qz_sub.
          assert (qz b - qz a <> 0) as N by (rewrite <- qz_sub; apply qz_neq0; lia). field. exact N. }
        rewrite !HC, HGd. reflexivity. }
      rewrite E, (held_eq s width t0 P' tn qn EP). destruct (tn <? _)%Z eqn:C.
      - rewrite EP, <- app_assoc. cbn [app]. rewrite consec_snoc, map_app, qsum_app. cbn [map]. rewrite qsum_cons, qsum_nil.
        rewrite <- EP. rewrite (qsum_map_ext _ _ _ _ HA).
        assert (forall z, trap_part tn lo hi ((tn, qn), z) = 0) as T0.
        { intros z. unfold trap_part. cbn [fst snd]. cbv zeta. rewrite Etn.
          assert (Z.max (final_time s) lo <? Z.min (fst z) hi = false)%Z as -> by lia. reflexivity. }
        cbn [fst snd]. rewrite T0. ring.
      - rewrite app_nil_r. apply qsum_map_ext, HA. }
    destruct ng_points as (q0 & l & EP2).
    rewrite (clamp_pieces G lo hi (points s) ltac:(lia) (points_sorted s HS) (t0, q0) (tn, qn) l EP2).
    2:{ rewrite EP, last_last. reflexivity. }
    cbn [fst]. assert (clamp lo hi tn = hi) as -> by (unfold clamp; lia). assert (clamp lo hi t0 = lo) as -> by (unfold clamp; lia).
    rewrite HGd. f_equal. f_equal. ring.
  Qed.

  (** Constant power, right labelled. *)
  Lemma ng_constant : forall lo hi c, (t0 <= lo < hi)%Z -> (hi <= final_time s)%Z ->
    (forall t q, In (t, Fin q) s -> q = c) -> rect_energy s limit lo hi = c * hours (hi - lo).
  Proof.
    intros lo hi c H1 H2 HC. unfold rect_energy. rewrite ng_steps.
    assert (points s <> []) as HP by (destruct ng_points as (q0 & l & ->); discriminate).
    destruct (points_snoc s HP) as (P' & tn & qn & EP).
    assert (tn = final_time s) as Etn.
    { pose proof ng_ends as K. rewrite EP, map_app in K. cbn [map] in K. rewrite last_last in K. exact K. }
    rewrite (qsum_map_ext _ _ (fun pr : (Z * Qc) * (Z * Qc) => let x := Z.max (fst (fst pr)) lo in let y := Z.min (fst (snd pr)) hi in
                       if (x <? y)%Z then c * hours y - c * hours x else 0)).
    2:{ intros [[a p] [b q]] Hpr. unfold rect_part, overlap. cbn [fst snd]. cbv zeta. destruct (consec_fst _ _ _ _ Hpr) as [_ Kb].
        apply points_In in Kb. rewrite (HC _ _ Kb). destruct (Z.max a lo <? Z.min b hi)%Z eqn:C.
        - rewrite (Z.max_r 0) by lia. rewrite hours_sub. ring.
        - rewrite (Z.max_l 0) by lia. rewrite hours_0. ring. }
    destruct ng_points as (q0 & l & EP2).
    rewrite (clamp_pieces (fun t => c * hours t) lo hi (points s) ltac:(lia) (points_sorted s HS) (t0, q0) (tn, qn) l EP2).
    2:{ rewrite EP, last_last. reflexivity. }
    cbn [fst]. assert (clamp lo hi tn = hi) as -> by (unfold clamp; lia). assert (clamp lo hi t0 = lo) as -> by (unfold clamp; lia).
    rewrite hours_sub. ring.
  Qed.
End NoGaps.
