(** Energy: whole function, conservation, scaling, exactness. *)

From Coq Require Import QArith Qcanon List ZArith Bool Permutation Sorted Lia Arith.
From Verif.Base Require Import QcExtra ISort Quantile Fl TimeSeries Segments.
From Verif.Spec Require Import Stats Interp Energy.
From Verif.Model Require Import Interpolation Energy.
From Verif.Proofs Require Import StatsP FlP YoYP YoYP2 InterpP EnergyP EnergyP2 EnergyP3.
Import ListNotations.
Open Scope Qc_scope.

(** ** The two branches *)

Lemma energy_unfold_long : forall freq power width max med pt, (2 <= length power)%nat ->
  is_median (gaps_between (times power)) med -> med < qz width ->
  energy_from_power freq power (Some width) max pt =
    bind (aggregate power width (qz (qfloor (the_limit max med))) pt) (fun energy =>
      Ok (map (fun r => (fst r, if fgt (lookup_bfill (t_step_nanoseconds power) (fst r)) (Fin (the_limit max med))
                                then NaN else snd r)) energy)).
Proof.
  intros freq power width max med pt HL HM Hlt.
  unfold energy_from_power. destruct power as [| r0 [| r1 l]]; cbn in HL; try lia.
  rewrite (median_step_spec (r0 :: r1 :: l) med ltac:(cbn; lia) HM).
  assert (qle (qz width) med = false) as -> by (apply qle_false, Hlt). reflexivity.
Qed.

Lemma energy_unfold_short : forall freq power target width max med pt, (2 <= length power)%nat ->
  is_median (gaps_between (times power)) med ->
  width = match target with Some w => w | None => qfloor med end -> qz width <= med ->
  energy_from_power freq power target max pt =
    bind (aggregate (interpolate_series power (date_range (first_time power) (final_time power) width)
                       (Some (qz (qfloor (the_limit max med))))) width (qz (qfloor (the_limit max med))) pt) (fun energy =>
      Ok (map (fun r => (fst r, if fgt (lookup_bfill (t_step_nanoseconds power) (fst r)) (Fin (the_limit max med))
                                then NaN else snd r)) energy)).
Proof.
  intros freq power target width max med pt HL HM EW Hle.
  unfold energy_from_power. destruct power as [| r0 [| r1 l]]; cbn in HL; try lia.
  rewrite (median_step_spec (r0 :: r1 :: l) med ltac:(cbn; lia) HM). rewrite <- EW. fold (the_limit max med).
  assert (qle (qz width) med = true) as -> by (apply qle_spec, Hle).
  unfold interpolate, target_index. cbn [bind xorb times map]. unfold first_time. cbn [times map hd].
  replace (List.last (fst r0 :: fst r1 :: map fst l) (fst r0)) with (final_time (r0 :: r1 :: l)); [reflexivity |].
  unfold final_time. cbn [times map]. destruct (exists_last (l := fst r0 :: fst r1 :: map fst l) ltac:(discriminate)) as (a & b & ->).
  rewrite !last_last. reflexivity.
Qed.

Lemma median_exists : forall s : series, (2 <= length s)%nat -> exists med, is_median (gaps_between (times s)) med.
Proof.
  intros s H. exists (qmedian (gaps_between (times s))). apply qmedian_spec.
  destruct s as [| r0 [| r1 l]]; cbn in H; try lia. discriminate.
Qed.

(** Whatever the branch, the last step masks values at the end of long steps. *)
Lemma energy_masked : forall freq power target max med pt out t v, sorted_index power -> (2 <= length power)%nat ->
  is_median (gaps_between (times power)) med ->
  energy_from_power freq power target max pt = Ok out -> In (t, v) out ->
  in_long_step power (the_limit max med) t -> v = NaN.
Proof.
  intros freq power target max med pt out t v HS HL HM E Hin Hlong.
  apply long_step_iff in Hlong; [| exact HS].
  assert (exists agg, out = map (fun r : Z * fl => (fst r, if fgt (lookup_bfill (t_step_nanoseconds power) (fst r)) (Fin (the_limit max med))
                                then NaN else snd r)) agg) as [agg ->].
  { set (width := match target with Some w => w | None => qfloor med end).
    destruct (qle (qz width) med) eqn:C; qb.
    - rewrite (energy_unfold_short freq power target width max med pt HL HM eq_refl C) in E.
      destruct (aggregate _ _ _ _) as [agg | e]; [| discriminate]. exists agg. cbn [bind] in E. congruence.
    - assert (target = Some width) as ET.
      { unfold width in *. destruct target; [reflexivity |]. exfalso. pose proof (qfloor_le med). qlra. }
      rewrite ET in E. rewrite (energy_unfold_long freq power width max med pt HL HM C) in E.
      destruct (aggregate _ _ _ _) as [agg | e]; [| discriminate]. exists agg. cbn [bind] in E. congruence. }
  apply in_map_iff in Hin. destruct Hin as (r & Er & _). assert (fst r = t) as Et by (exact (f_equal fst Er)).
  rewrite Et, Hlong in Er. symmetry. exact (f_equal snd Er).
Qed.

(** ** Instantaneous *)

Lemma trap_meets : forall s limit t0 width lo hi pr, meets lo hi (trap_piece s width limit t0 pr) =
  (0 <? overlap (trap_from s limit t0 width pr) (fst (snd pr)) lo hi)%Z.
Proof. intros. unfold meets, trap_piece, overlap. lia. Qed.

Lemma trap_clipped : forall s limit t0 width lo hi pr, (fst (fst pr) < fst (snd pr))%Z ->
  clipped lo hi (trap_piece s width limit t0 pr) = trap_part (trap_from s limit t0 width pr) lo hi pr.
Proof.
  intros s limit t0 width lo hi [[a p] [b q]] H. unfold clipped, trap_piece, trap_part. cbn [fst snd] in *.
  destruct (Z.max _ lo <? Z.min b hi)%Z; [| reflexivity]. apply trap_area_sub, H.
Qed.

Lemma trap_covered_iff : forall s limit t0 width stop lo hi,
  existsb (meets lo hi) (map (trap_piece s width limit t0) (trap_used s limit stop)) = true <->
  trap_covered s limit t0 width stop lo hi.
Proof.
  intros. rewrite existsb_exists. split.
  - intros (p & Hp & E). apply in_map_iff in Hp. destruct Hp as (pr & <- & Hp). exists pr. split; [exact Hp |].
    rewrite trap_meets in E. apply Z.ltb_lt, E.
  - intros (pr & Hp & E). exists (trap_piece s width limit t0 pr). split; [apply in_map, Hp |]. rewrite trap_meets. apply Z.ltb_lt, E.
Qed.

Lemma points_snoc : forall s, points s <> [] -> exists P' tn qn, points s = P' ++ [(tn, qn)].
Proof.
  intros s H. destruct (exists_last H) as (P' & [tn qn] & E). eauto.
Qed.

Lemma trap_sum : forall s limit t0 v0 rest width lo hi, s = (t0, v0) :: rest -> sorted_index s -> points s <> [] -> (0 < width)%Z ->
  qsum (map (clipped lo hi) (map (trap_piece s width limit t0) (trap_used s limit (end_of_bins t0 width (final_time s))))) =
  trap_energy s limit t0 width (end_of_bins t0 width (final_time s)) lo hi.
Proof.
  intros s limit t0 v0 rest width lo hi Hs HS HP HW. destruct (points_snoc s HP) as (P' & tn & qn & EP).
  unfold trap_energy. rewrite map_map. apply qsum_map_ext. intros [a b] Hpr. apply trap_clipped.
  apply filter_In in Hpr. destruct Hpr as [Hpr _].
  assert (end_of_bins t0 width (final_time s) = (t0 + width * cdiv (fst (List.last s (t0, NaN)) - t0) width)%Z) as E.
  { rewrite last_fst by (rewrite Hs; discriminate). reflexivity. }
  rewrite E in Hpr.
  pose proof (sorted_consec _ _ _ (held_sorted s width t0 HS P' tn qn EP) Hpr) as [L _]. exact L.
Qed.

(** What an interval carries, by type. *)
Definition spec_covered (pt : power_type) (s : series) (limit : Qc) (width lo hi : Z) : Prop :=
  match pt with
  | Instantaneous => trap_covered s limit (first_time s) width (end_of_bins (first_time s) width (final_time s)) lo hi
  | _ => rect_covered s limit lo hi
  end.
Definition spec_energy (pt : power_type) (s : series) (limit : Qc) (width lo hi : Z) : Qc :=
  match pt with
  | Instantaneous => trap_energy s limit (first_time s) width (end_of_bins (first_time s) width (final_time s)) lo hi
  | _ => rect_energy s limit lo hi
  end.

Lemma trap_used_floor : forall s limit stop, trap_used s (qz (qfloor limit)) stop = trap_used s limit stop.
Proof. intros. unfold trap_used. apply filter_ext. intros pr. unfold close. rewrite qle_floor. reflexivity. Qed.

Lemma trap_from_floor : forall s limit t0 width pr, trap_from s (qz (qfloor limit)) t0 width pr = trap_from s limit t0 width pr.
Proof. intros. unfold trap_from, trusted. rewrite steps_used_floor. reflexivity. Qed.

Lemma aggregate_spec : forall s width limit pt, sorted_index s -> noinf (vals s) -> (0 < width)%Z ->
  points s <> [] -> pt <> OtherType ->
  exists bs : list (Z * bool), aggregate s width (qz (qfloor limit)) pt =
    Ok (map (fun x : Z * bool => (fst x, if snd x then Fin (spec_energy pt s limit width (fst x - width) (fst x)) else NaN)) bs) /\
  map fst bs = tl (bin_labels (first_time s) width (final_time s)) /\
  forall b c, In (b, c) bs -> (c = true <-> spec_covered pt s limit width (b - width) b).
Proof.
  intros s width limit pt HS HI HW HP Hpt.
  destruct s as [| [t0 v0] rest] eqn:Hs; [contradiction HP; reflexivity |]. rewrite <- Hs in *.
  assert (first_time s = t0) as Ef by (rewrite Hs; reflexivity).
  assert (fst (List.last s (t0, NaN)) = final_time s) as Efin by (apply last_fst; rewrite Hs; discriminate).
  destruct pt; [| | congruence].
  - exists (map (fun b => (b, existsb (meets (b - width) b) (map rect_piece (steps_used s limit)))) (tl (bin_labels t0 width (final_time s)))).
    rewrite (aggregate_right s width _ t0 v0 rest Hs HS HI HW HP), Efin. split; [| split].
    + rewrite map_map. cbn [fst snd]. f_equal. rewrite steps_used_floor. apply map_ext. intros b. rewrite rect_energy_sum. reflexivity.
    + rewrite map_map, map_id, Ef. reflexivity.
    + intros b c H. apply in_map_iff in H. destruct H as (b' & E & _). injection E as -> <-. apply covered_iff.
  - destruct (points_snoc s HP) as (P' & tn & qn & EP).
    exists (map (fun b => (b, existsb (meets (b - width) b) (map (trap_piece s width limit t0)
       (trap_used s limit (end_of_bins t0 width (final_time s)))))) (tl (bin_labels t0 width (final_time s)))).
    rewrite (aggregate_inst s width _ t0 v0 rest Hs HS HI HW P' tn qn EP), Efin. split; [| split].
    + rewrite map_map. cbn [fst snd]. f_equal. rewrite trap_used_floor. change (t0 + width * cdiv (final_time s - t0) width)%Z with (end_of_bins t0 width (final_time s)).
      assert (map (trap_piece s width (qz (qfloor limit)) t0) (trap_used s limit (end_of_bins t0 width (final_time s))) =
              map (trap_piece s width limit t0) (trap_used s limit (end_of_bins t0 width (final_time s)))) as ->.
      { apply map_ext. intros pr. unfold trap_piece. rewrite trap_from_floor. reflexivity. }
      apply map_ext. intros b. rewrite (trap_sum s limit t0 v0 rest width _ _ Hs HS HP HW). cbn [spec_energy]. rewrite Ef. reflexivity.
    + rewrite map_map, map_id, Ef. reflexivity.
    + intros b c H. apply in_map_iff in H. destruct H as (b' & E & _). injection E as -> <-. cbn [spec_covered]. rewrite Ef. apply trap_covered_iff.
Qed.

Lemma energy_long_spec : forall freq power width max med pt, sorted_index power -> noinf (vals power) ->
  (2 <= length power)%nat -> is_median (gaps_between (times power)) med -> (0 < width)%Z -> med < qz width ->
  pt <> OtherType ->
  (points power = [] -> energy_from_power freq power (Some width) max pt = Raise IndexError) /\
  (points power <> [] -> exists out, energy_from_power freq power (Some width) max pt = Ok out /\
    StronglySorted Z.lt (times out) /\
    (forall t, In t (times out) <->
       exists k, (1 <= k)%Z /\ t = (first_time power + width * k)%Z /\ (t - width < final_time power)%Z) /\
    forall t v, In (t, v) out ->
      reported (in_long_step power (the_limit max med) t)
               (spec_covered pt power (the_limit max med) width (t - width) t)
               (spec_energy pt power (the_limit max med) width (t - width) t) v).
Proof.
  intros freq power width max med pt HS HI HL HM HW Hlt Hpt.
  rewrite (energy_unfold_long freq power width max med pt HL HM Hlt). split; intros HP.
  - rewrite (aggregate_none _ _ _ _ (points_none power HI HP)). reflexivity.
  - destruct (aggregate_spec power width (the_limit max med) pt HS HI HW HP Hpt) as (bs & -> & EB & HC).
    cbn [bind]. rewrite map_map. cbn [fst snd]. eexists. split; [reflexivity |].
    assert (first_time power <= final_time power)%Z as HLe.
    { destruct power as [| [t0 v0] rest] eqn:Hp; [cbn in HL; lia |]. rewrite <- Hp in *.
      rewrite <- (last_fst power (t0, NaN)) by (rewrite Hp; discriminate).
      replace (first_time power) with t0 by (rewrite Hp; reflexivity). apply (last_ge power t0 v0 rest Hp HS). }
    unfold times at 1 2. rewrite !map_map. cbn [fst]. change (fun x : Z * bool => fst x) with (@fst Z bool). rewrite EB.
    split; [apply labels_tl_sorted, HW |]. split; [intros t; apply labels_tl; assumption |].
    intros t v H. apply in_map_iff in H. destruct H as ([b c] & E & Hb). cbn [fst snd] in E.
    assert (b = t) as -> by (exact (f_equal fst E)). assert (_ = v) as Ev by (exact (f_equal snd E)). cbn [snd] in Ev.
    subst v. apply reported_if; [apply long_step_iff, HS | apply (HC _ _ Hb)].
Qed.

(** ** Telescoping by clamping *)

Definition clamp (lo hi t : Z) : Z := Z.min hi (Z.max lo t).

Lemma clamp_pieces : forall (G : Z -> Qc) lo hi P, (lo <= hi)%Z -> StronglySorted Z.lt (map fst P) ->
  forall p0 pn l, P = p0 :: l -> List.last P p0 = pn ->
  qsum (map (fun pr : (Z * Qc) * (Z * Qc) => let x := Z.max (fst (fst pr)) lo in let y := Z.min (fst (snd pr)) hi in
                       if (x <? y)%Z then G y - G x else 0) (consec P)) =
  G (clamp lo hi (fst pn)) - G (clamp lo hi (fst p0)).
Proof.
  intros G lo hi P Hlh. induction P as [| p P IH]; intros HS p0 pn l E EL; [discriminate |].
  injection E as -> <-. destruct P as [| p1 P].
  - cbn in EL. subst pn. cbn [consec map]. rewrite qsum_nil. ring.
  - pose proof (psorted_inv _ _ HS) as [HS' F]. assert (fst p0 < fst p1)%Z as H01 by (apply F; left; reflexivity).
    cbv zeta in IH |- *. rewrite consec_cons. cbn [map fst snd]. rewrite qsum_cons.
    rewrite (IH HS' p1 pn P eq_refl).
    2:{ rewrite <- EL. clear. change (List.last (p0 :: p1 :: P) p0) with (List.last (p1 :: P) p0).
        destruct (exists_last (l := p1 :: P) ltac:(discriminate)) as (k & x & ->). rewrite !last_last. reflexivity. }
    cbv zeta. destruct (Z.max (fst p0) lo <? Z.min (fst p1) hi)%Z eqn:C.
    + assert (Z.min (fst p1) hi = clamp lo hi (fst p1)) as -> by (unfold clamp; lia).
      assert (Z.max (fst p0) lo = clamp lo hi (fst p0)) as -> by (unfold clamp; lia). ring.
    + assert (clamp lo hi (fst p1) = clamp lo hi (fst p0)) as -> by (unfold clamp; lia). ring.
Qed.

(** Consecutive bins cut an interval into parts. *)
Lemma overlap_bins : forall a b width lo n, (0 < width)%Z -> (a <= b)%Z ->
  qsum (map (fun k => hours (overlap a b (lo + width * Z.of_nat k - width) (lo + width * Z.of_nat k))) (seq 1 n)) =
  hours (overlap a b lo (lo + width * Z.of_nat n)).
Proof.
  intros a b width lo n HW Hab. induction n as [| n IH].
  - cbn [seq map]. rewrite qsum_nil. replace (overlap a b lo (lo + width * Z.of_nat 0)) with 0%Z by (unfold overlap; lia).
    rewrite hours_0. reflexivity.
  - rewrite seq_S, map_app, qsum_app, IH. cbn [map]. rewrite qsum_cons, qsum_nil.
    replace (1 + n)%nat with (S n) by reflexivity.
    assert (overlap a b lo (lo + width * Z.of_nat (S n)) =
            overlap a b lo (lo + width * Z.of_nat n) + overlap a b (lo + width * Z.of_nat (S n) - width) (lo + width * Z.of_nat (S n)))%Z as ->.
    { rewrite Nat2Z.inj_succ. unfold overlap. nia. }
    unfold hours. rewrite qz_add. unfold Qcdiv. ring.
Qed.
