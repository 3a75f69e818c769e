(** What the Kalman filter starts from. *)

From Coq Require Import QArith Qcanon List ZArith Bool Arith Lia Permutation Sorted.
From Verif.Base Require Import QcExtra ISort Quantile Fl TimeSeries Calendar Rolling.
From Verif.Spec Require Import Stats Theil Filters Soiling Cods TrackingSetup.
From Verif.Model Require Import Soiling CodsTools CodsKalman.
From Verif.Proofs Require Import FlP FiltersP FiltersP2 SoilP SoilP13 CodsP CodsP3 KalP1 KalP2.
Import ListNotations.
Open Scope list_scope.
Open Scope Qc_scope.

Lemma median_of_rows : forall forward w zs i, noinf zs -> (1 <= w)%nat -> (i < List.length zs)%nat ->
  (exists q, at_row (centered_medians w (fill forward zs)) i = Fin q /\ median_at forward w zs i q) \/
  (at_row (centered_medians w (fill forward zs)) i = NaN /\ no_median_at forward w zs i).
Proof.
  intros forward w zs i N W H. pose proof (filled_rows_ok forward zs N) as F.
  destruct (medians_cases w (numbered (fill forward zs)) W i) as [(m & E & M)|[E M]]; [rewrite numbered_length, fill_length; exact H| |].
  - left. exists m. split; [exact E|]. exists (numbered (fill forward zs)). split; assumption.
  - right. split; [exact E|]. intros q (f & Ff & Mf). rewrite (filled_rows_unique _ _ _ _ Ff F) in Mf. exact (M q Mf).
Qed.
Lemma centered_length : forall w l, List.length (centered_medians w l) = List.length l.
Proof. intros w l. unfold centered_medians. fold (medians_of w (numbered l)). rewrite medians_length. apply numbered_length. Qed.
Lemma median_range : forall forward w zs i q, median_at forward w zs i q -> (i < List.length zs)%nat.
Proof. intros forward w zs i q (f & [L _] & (t & v & l & E & _)). rewrite <- L. apply nth_error_Some. congruence. Qed.

Lemma near_rows : forall forward w zs j0 q0, noinf zs -> (1 <= w)%nat -> median_at forward w zs j0 q0 ->
  exists med, fill_backward (fill_forward (centered_medians w (fill forward zs))) = map Fin med /\ List.length med = List.length zs /\
  forall i, (i < List.length zs)%nat -> near_median forward w zs i (nth i med 0).
Proof.
  intros forward w zs j0 q0 N W M0. set (c := centered_medians w (fill forward zs)). set (g := fill_forward c). set (h := fill_backward g).
  assert (LC : List.length c = List.length zs) by (unfold c; rewrite centered_length, fill_length; reflexivity).
  assert (LG : List.length g = List.length zs) by (rewrite <- LC; exact (fill_length true c)).
  assert (LH : List.length h = List.length zs) by (rewrite <- LG; exact (fill_length false g)).
  assert (C : forall i, (i < List.length zs)%nat -> (exists q, at_row c i = Fin q /\ median_at forward w zs i q) \/ (at_row c i = NaN /\ no_median_at forward w zs i)) by (intros i H; apply median_of_rows; assumption).
  assert (J0 := median_range _ _ _ _ _ M0).
  assert (R : forall i, (i < List.length zs)%nat -> exists q, at_row h i = Fin q /\ near_median forward w zs i q).
  { intros i H.
    assert (K : forall i, (i < List.length zs)%nat -> (exists q, at_row g i = Fin q /\ exists j, (j <= i)%nat /\ median_at forward w zs j q /\ forall m, (j < m <= i)%nat -> no_median_at forward w zs m) \/
       (at_row g i = NaN /\ forall m, (m <= i)%nat -> no_median_at forward w zs m)).
    { clear i H. intros i H. destruct (fill_forward_at c i ltac:(lia)) as [(j & J & V & Z & E)|[Z E]].
      - left. destruct (C j ltac:(lia)) as [(q & Eq & Mq)|[Eq _]]; [|contradiction]. exists q. split; [unfold g; rewrite E; exact Eq|]. exists j. split; [exact J|]. split; [exact Mq|].
        intros m Hm. destruct (C m ltac:(lia)) as [(q' & Eq' & _)|[_ X]]; [|exact X]. rewrite Z in Eq' by exact Hm. discriminate Eq'.
      - right. split; [exact E|]. intros m Hm. destruct (C m ltac:(lia)) as [(q' & Eq' & _)|[_ X]]; [|exact X]. rewrite Z in Eq' by exact Hm. discriminate Eq'. }
    destruct (fill_backward_at g i ltac:(lia)) as [(j & J & V & Z & E)|[Z E]].
    - destruct (K j ltac:(lia)) as [(q & Eq & jj & J1 & Mq & Nq)|[Eq _]]; [|contradiction]. exists q. split; [unfold h; rewrite E; exact Eq|].
      destruct (Nat.eq_dec i j) as [<-|NE]; [left; exists jj; auto|].
      assert (B : forall m, (m < j)%nat -> no_median_at forward w zs m).
      { intros m Hm. destruct (K (j - 1)%nat ltac:(lia)) as [(q' & Eq' & _)|[_ X]]; [rewrite Z in Eq' by lia; discriminate Eq'|]. apply X. lia. }
      right. exists jj. destruct (Nat.eq_dec jj j) as [->|NJ]; [|exfalso; exact (B jj ltac:(lia) q Mq)]. split; [lia|]. split; [exact Mq|exact B].
    - exfalso. destruct (K (List.length zs - 1)%nat ltac:(lia)) as [(q' & Eq' & _)|[_ X]]; [rewrite Z in Eq' by lia; discriminate Eq'|]. exact (X j0 ltac:(lia) q0 M0). }
  exists (map (fun x => match x with Fin q => q | _ => 0 end) h). split; [|split; [rewrite map_length; exact LH|]].
  - rewrite map_map. rewrite <- (map_id h) at 1. apply map_ext_in. intros x I. apply In_nth_error in I. destruct I as (i & E). assert (H : (i < List.length zs)%nat) by (rewrite <- LH; apply nth_error_Some; congruence).
    destruct (R i H) as (q & Eq & _). apply at_row_error in E. rewrite E in Eq. rewrite Eq. reflexivity.
  - intros i H. destruct (R i H) as (q & Eq & Nq). replace (nth i _ 0) with q; [exact Nq|]. symmetry.
    change 0 with ((fun x => match x with Fin q => q | _ => 0 end) NaN). rewrite map_nth. change (nth i h NaN) with (at_row h i). rewrite Eq. reflexivity.
Qed.

(** ** Sample variance *)
Lemma fvar_spec : forall l v, noinf l -> fvar l = Fin v -> sample_variance (finvals l) v.
Proof.
  intros l v N E. unfold fvar in E. rewrite (fcount_noinf l N) in E. destruct (Nat.ltb_spec (List.length (finvals l)) 2) as [L|L]; [discriminate E|].
  assert (NE : finvals l <> []) by (intros C; rewrite C in L; cbn in L; lia). rewrite (fmean_noinf l N NE) in E. unfold qlen in E. set (m := qsum (finvals l) / qz (Z.of_nat (List.length (finvals l)))) in *.
  split; [exact L|]. exists m. split; [reflexivity|].
  assert (M : finvals (map (fun x => fmul (fsub x (Fin m)) (fsub x (Fin m))) l) = map (fun x => (x - m) * (x - m)) (finvals l) /\ noinf (map (fun x => fmul (fsub x (Fin m)) (fsub x (Fin m))) l)).
  { clearbody m. clear - N. induction l as [|x l IH]; [split; [reflexivity|intros y []]|]. destruct (IH ltac:(intros y I; apply N; right; exact I)) as [I1 I2]. destruct (N x ltac:(left; reflexivity)) as [N1 N2].
    destruct x as [| |q|]; try contradiction; cbn [map].
    - split; [exact I1|]. intros y [<-|I]; [split; discriminate|exact (I2 y I)].
    - split; [cbn; rewrite <- I1; reflexivity|]. intros y [<-|I]; [split; discriminate|exact (I2 y I)]. }
  destruct M as [M1 M2]. rewrite (fsum_noinf _ M2), M1 in E. unfold fz, fdiv in E.
  destruct (qeq (qz (Z.of_nat (List.length (finvals l)) - 1)) 0) eqn:Q.
  - exfalso. apply qeq_spec in Q. assert (0 < qz (Z.of_nat (List.length (finvals l)) - 1)) as P by (apply qz_pos; lia). rewrite Q in P. discriminate P.
  - assert (G := f_equal (fun t => match t with Fin q => q | _ => 0 end) E). cbv beta iota in G. rewrite <- G. reflexivity.
Qed.
Lemma from_medians_fin : forall med zs, noinf zs -> finvals (map (fun p => fsub (fst p) (snd p)) (combine (map Fin med) zs)) =
  flat_map (fun p => match snd p with Fin z => [fst p - z] | _ => [] end) (combine med zs) /\ noinf (map (fun p => fsub (fst p) (snd p)) (combine (map Fin med) zs)).
Proof.
  intros med. induction med as [|m med IH]; intros [|z zs] N; try (split; [reflexivity|intros y []]). destruct (IH zs ltac:(intros y I; apply N; right; exact I)) as [I1 I2]. destruct (N z ltac:(left; reflexivity)) as [N1 N2].
  destruct z as [| |q|]; try contradiction; cbn [map combine flat_map fst snd].
  - split; [exact I1|]. intros y [<-|I]; [split; discriminate|exact (I2 y I)].
  - split; [cbn; rewrite <- I1; reflexivity|]. intros y [<-|I]; [split; discriminate|exact (I2 y I)].
Qed.

(** ** The line to begin with *)
Lemma combine_map_seq : forall (ys : list Qc) a m, (List.length ys <= m)%nat ->
  combine (map Z.of_nat (seq a m)) (map Fin ys) = map (fun p => (fst p, Fin (snd p))) (combine (map Z.of_nat (seq a (List.length ys))) ys).
Proof.
  intros ys. induction ys as [|y ys IH]; intros a m H; [destruct m; reflexivity|]. destruct m as [|m]; [cbn in H; lia|]. cbn [seq map combine List.length fst snd]. f_equal. apply IH. cbn in H. lia.
Qed.
Lemma starting_model : forall zs j, noinf zs -> (Nat.min 13 (List.length zs - 1) <= j)%nat -> (exists q, nth_error zs j = Some (Fin q)) -> (2 <= List.length zs)%nat ->
  exists slope intercept low high, theil_fit (fun _ => 0) (combine (map Z.of_nat (seq 0 14)) (firstn 14 (fill_backward zs))) = (Fin slope, Fin intercept, low, high) /\ starting_line zs intercept slope.
Proof.
  intros zs j N J (qj & Ej) L2. set (h := fill_backward zs). assert (LH : List.length h = List.length zs) by exact (fill_length false zs).
  assert (JL : (j < List.length zs)%nat) by (apply nth_error_Some; congruence).
  assert (R : forall i, (i < Nat.min 14 (List.length zs))%nat -> exists q, at_row h i = Fin q /\ filled false zs i q).
  { intros i H. destruct (fill_cases false zs i N ltac:(lia)) as [C|[_ C]]; [exact C|]. exfalso. destruct (fill_backward_at zs i ltac:(lia)) as [(m & M & V & Z & E)|[Z _]].
    - destruct (fin_of zs m N ltac:(lia) V) as (q & Eq & _). apply (C q). exists m. split; [exact Eq|]. split; [lia|]. intros x Hx. apply nan_of; [lia|]. apply Z. exact Hx.
    - specialize (Z j ltac:(lia)). apply at_row_error in Ej. congruence. }
  set (ys := map (fun x => match x with Fin q => q | _ => 0 end) (firstn 14 h)).
  assert (LY : List.length ys = Nat.min 14 (List.length zs)) by (unfold ys; rewrite map_length, firstn_length, LH; reflexivity).
  assert (NF : forall i, (i < 14)%nat -> at_row (firstn 14 h) i = at_row h i).
  { intros i H. unfold at_row. clearbody h. clear - H. revert i H. generalize 14%nat. intros k. revert h. induction k as [|k IH]; intros h i H; [lia|]. destruct h as [|x h]; [destruct i; reflexivity|]. destruct i; [reflexivity|]. cbn. apply IH. lia. }
  assert (EY : firstn 14 h = map Fin ys).
  { unfold ys. rewrite map_map. rewrite <- (map_id (firstn 14 h)) at 1. apply map_ext_in. intros x I. apply In_nth_error in I. destruct I as (i & E). assert (H : (i < List.length (firstn 14 h))%nat) by (apply nth_error_Some; congruence).
    rewrite firstn_length in H. destruct (R i ltac:(lia)) as (q & Eq & _). apply at_row_error in E. rewrite NF in E by lia. rewrite E in Eq. rewrite Eq. reflexivity. }
  rewrite EY, (combine_map_seq ys 0 14) by lia. rewrite theil_fit_finite. set (pts := combine (map Z.of_nat (seq 0 (List.length ys))) ys).
  assert (CB : forall (ks : list Z) (us : list Qc), List.length ks = List.length us -> map snd (combine ks us) = us /\ map fst (combine ks us) = ks).
  { clear. induction ks as [|k ks IH]; intros [|u us] H; try discriminate H; [split; reflexivity|]. destruct (IH us ltac:(cbn in H; lia)) as [I1 I2]. cbn. rewrite I1, I2. split; reflexivity. }
  destruct (CB (map Z.of_nat (seq 0 (List.length ys))) ys ltac:(rewrite map_length, seq_length; reflexivity)) as [C1 C2]. fold pts in C1, C2.
  assert (NC : chords pts <> []).
  { apply chords_exist. clearbody pts. rewrite LY in C2. destruct pts as [|p0 [|p1 pts]]; try (apply (f_equal (@List.length Z)) in C2; rewrite !map_length, seq_length in C2; cbn [List.length] in C2; lia).
    exists p0, p1. split; [left; reflexivity|]. split; [right; left; reflexivity|]. destruct (Nat.min 14 (List.length zs)) as [|[|m]]; try discriminate C2. cbn in C2. injection C2 as -> -> _. discriminate. }
  destruct (theil_spec (fun _ => 0) pts ltac:(apply Qcle_refl)) as [_ T]. destruct (T NC) as (slope & intercept & low & high & E & M & (my & mx & MY & MX & EI) & _).
  exists slope, intercept, (Fin low), (Fin high). split; [exact E|]. exists ys, my, mx. cbv zeta. fold pts. split; [exact LY|]. split.
  { intros i H. rewrite LY in H. destruct (R i H) as (q & Eq & Fq). replace (nth i ys 0) with q; [exact Fq|]. symmetry. unfold ys. change 0 with ((fun x => match x with Fin q => q | _ => 0 end) NaN). rewrite map_nth. change (nth i (firstn 14 h) NaN) with (at_row (firstn 14 h) i). rewrite NF by lia. rewrite Eq. reflexivity. }
  split; [exact M|]. split; [rewrite C1 in MY; exact MY|]. split; [|exact EI].
  replace (map (fun p => qz (fst p)) pts) with (map qz (map fst pts)) in MX by (rewrite map_map; reflexivity). rewrite C2, map_map in MX. exact MX.
Qed.

(** ** The settings *)
Lemma fill_nothing : forall b l, Forall (fun x => x = NaN) l -> Forall (fun x => x = NaN) (fill b l).
Proof.
  intros b l F. apply Forall_forall. intros x I. apply In_nth_error in I. destruct I as (i & E). assert (H : (i < List.length l)%nat) by (rewrite <- (fill_length b l); apply nth_error_Some; congruence).
  apply at_row_error in E. rewrite Forall_forall in F. assert (A : forall j, (j < List.length l)%nat -> at_row l j = NaN) by (intros j Hj; apply F; eapply nth_error_In; apply error_at_row; exact Hj).
  destruct b; unfold fill in E.
  - destruct (fill_forward_at l i H) as [(j & J & V & _)|[_ Z]]; [contradiction V; apply A; lia|congruence].
  - destruct (fill_backward_at l i H) as [(j & J & V & _)|[_ Z]]; [contradiction V; apply A; lia|congruence].
Qed.
Lemma some_median : forall ffill zs R, noinf zs ->
  fvar (map (fun p => fsub (fst p) (snd p)) (combine (fill_backward (fill_forward (centered_medians 13 (fill ffill zs)))) zs)) = Fin R -> exists j q, median_at ffill 13 zs j q.
Proof.
  intros ffill zs R N E. set (c := centered_medians 13 (fill ffill zs)) in *.
  assert (LC : List.length c = List.length zs) by (unfold c; rewrite centered_length, fill_length; reflexivity).
  destruct (existsb (fun x => negb (isnan x)) c) eqn:X.
  - apply existsb_exists in X. destruct X as (x & I & V). apply In_nth_error in I. destruct I as (j & Ej). assert (J : (j < List.length zs)%nat) by (rewrite <- LC; apply nth_error_Some; congruence).
    destruct (median_of_rows ffill 13 zs j N ltac:(lia) J) as [(q & _ & M)|[Z _]]; [exists j, q; exact M|]. apply at_row_error in Ej. fold c in Z. rewrite Z in Ej. subst x. discriminate V.
  - exfalso. assert (F : Forall (fun x => x = NaN) c).
    { apply Forall_forall. intros x I. destruct x; try reflexivity; exfalso; rewrite <- not_true_iff_false in X; apply X; apply existsb_exists; eexists; split; [exact I|reflexivity|exact I|reflexivity|exact I|reflexivity]. }
    apply (fill_nothing true) in F. apply (fill_nothing false) in F. unfold fill in F. set (h := fill_backward (fill_forward c)) in *. clearbody h. unfold fvar in E.
    assert (D : fcount (map (fun p => fsub (fst p) (snd p)) (combine h zs)) = 0%nat).
    { clear - F. revert zs. induction h as [|x h IH]; intros [|z zs]; try reflexivity. inversion F; subst. cbn [combine map]. unfold fcount in *. specialize (IH ltac:(assumption) zs). cbn. exact IH. }
    rewrite D in E. discriminate E.
Qed.
Theorem setup_model : forall zs ffill pn prune max_rate renorm perfect clip j7 q7 jn R, noinf zs -> let k := kalman_setup_of zs ffill (Fin pn) prune max_rate renorm perfect clip in
  f_R (ks_noise k) = Fin R -> median_at ffill 7 zs j7 q7 -> (Nat.min 13 (List.length zs - 1) <= jn)%nat -> (exists q, nth_error zs jn = Some (Fin q)) ->
  exists med slope level ds,
  ks_zs k = zs /\ ks_noise k = noise_of (pn * pn) R /\ from_medians ffill zs ds /\ sample_variance ds R /\
  ks_rm7 k = map Fin med /\ List.length med = List.length zs /\ (forall i, (i < List.length zs)%nat -> near_median ffill 7 zs i (nth i med 0)) /\
  ks_slope k = Fin slope /\ ks_intercept k = Fin level /\ starting_line zs level slope /\
  ks_soiling k = true_rows (soiling_detection ffill (fz 5) zs).
Proof.
  intros zs ffill pn prune max_rate renorm perfect clip j7 q7 jn R N k ER M7 JN QN.
  destruct (near_rows ffill 7 zs j7 q7 N ltac:(lia) M7) as (med & E7 & L7 & N7).
  assert (ER' : fvar (map (fun p => fsub (fst p) (snd p)) (combine (fill_backward (fill_forward (centered_medians 13 (fill ffill zs)))) zs)) = Fin R).
  { unfold k, kalman_setup_of in ER. destruct (theil_fit _ _) as [[[sl ic] lo] hi]. exact ER. }
  destruct (some_median ffill zs R N ER') as (j13 & q13 & M13). destruct (near_rows ffill 13 zs j13 q13 N ltac:(lia) M13) as (med13 & E13 & L13 & N13).
  rewrite E13 in ER'. destruct (from_medians_fin med13 zs N) as [F1 F2]. pose proof (fvar_spec _ _ F2 ER') as V. rewrite F1 in V.
  assert (L2 : (2 <= List.length zs)%nat).
  { destruct V as [V _]. destruct zs as [|z [|z' zs]]; [destruct med13; cbn in V; lia|destruct med13 as [|m [|]]; cbn in V; try lia; destruct z; cbn in V; lia|cbn; lia]. }
  destruct (starting_model zs jn N JN QN L2) as (slope & level & lo & hi & ET & SL).
  exists med, slope, level, (flat_map (fun p => match snd p with Fin z => [fst p - z] | _ => [] end) (combine med13 zs)).
  unfold k, kalman_setup_of. rewrite ET. cbn [ks_zs ks_noise ks_rm7 ks_slope ks_intercept ks_soiling].
  split; [reflexivity|]. split; [rewrite E13, ER'; reflexivity|]. split; [exists med13; auto|]. split; [exact V|]. split; [exact E7|]. split; [exact L7|]. split; [exact N7|]. repeat split; auto.
Qed.
