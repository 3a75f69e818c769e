(** Which intervals are valid, their slopes and recoveries. *)

From Coq Require Import QArith Qcanon List ZArith Bool Arith Lia Sorted String.
From Verif.Base Require Import QcExtra ISort Quantile Fl TimeSeries Calendar Rolling Segments.
From Verif.Spec Require Import Stats Filters Soiling.
From Verif.Model Require Import Soiling.
From Verif.Spec Require Import SoilingTable.
From Verif.Proofs Require Import StatsP FiltersP2 SoilP SoilP2 SoilP3 SoilP4.
Import ListNotations.
Open Scope list_scope.
Open Scope Qc_scope.

Lemma pymin_least : forall l, l <> [] -> exists m, pymin (map Fin l) = Fin m /\ least l m.
Proof.
  intros [| x l] NE; [contradiction |]. clear NE. cbn [map pymin]. revert x. induction l as [| y l IH]; intros x; cbn [map fold_left].
  - exists x. split; [reflexivity |]. split; [left; reflexivity |]. intros z [<- | []]. apply Qcle_refl.
  - cbn [flt]. destruct (qlt y x) eqn:E; qb.
    + destruct (IH y) as (m & Em & [Hin Hle]). exists m. split; [exact Em |]. split; [right; exact Hin |]. intros z [<- | Hz]; [| apply Hle; exact Hz].
      pose proof (Hle y (or_introl eq_refl)). qlra.
    + destruct (IH x) as (m & Em & [Hin Hle]). exists m. split; [exact Em |]. split; [destruct Hin as [<- | Hin]; [left; reflexivity | right; right; exact Hin] |].
      intros z [<- | [<- | Hz]]; [apply Hle; left; reflexivity | | apply Hle; right; exact Hz]. pose proof (Hle x (or_introl eq_refl)). qlra.
Qed.

Lemma shows_positive : forall rs pts, Forall2 shows rs pts -> Forall2 shows (filter (fun d => fgt (d_pi_norm d) (fz 0)) rs) (positive pts).
Proof.
  intros rs pts H. unfold positive. induction H as [| d p rs pts (E1 & E2 & E3) H IH]; [constructor |]. cbn [filter]. rewrite E2.
  change (fgt (Fin (p_pi p)) (fz 0)) with (qlt (qz 0) (p_pi p)). change (qz 0) with 0. destruct (qlt 0 (p_pi p)); [constructor; [split; auto | exact IH] | exact IH].
Qed.
Lemma shows_used : forall rs pts, Forall2 shows rs pts ->
  Forall2 shows (match filter (fun d => fgt (d_pi_norm d) (fz 0)) rs with [] => rs | _ => filter (fun d => fgt (d_pi_norm d) (fz 0)) rs end) (used pts).
Proof.
  intros rs pts H. pose proof (shows_positive rs pts H) as K. unfold used. destruct (filter _ rs) as [| d ds]; destruct (positive pts) as [| p ps]; [exact H | inversion K | inversion K | exact K].
Qed.
Lemma shows_pi : forall rs pts, Forall2 shows rs pts -> map d_pi_norm rs = map Fin (map p_pi pts).
Proof. intros rs pts H. induction H as [| d p rs pts (_ & E & _) H IH]; [reflexivity |]. cbn. rewrite E, IH. reflexivity. Qed.
Lemma shows_step : forall rs pts, Forall2 shows rs pts -> map d_delta rs = map Fin (map p_step pts).
Proof. intros rs pts H. induction H as [| d p rs pts (_ & _ & E) H IH]; [reflexivity |]. cbn. rewrite E, IH. reflexivity. Qed.
Lemma shows_points : forall rs pts, Forall2 shows rs pts -> map (fun d => (d_day d, d_pi_norm d)) rs = map (fun p => (p_day p, Fin (p_pi p))) pts.
Proof. intros rs pts H. induction H as [| d p rs pts (E1 & E2 & _) H IH]; [reflexivity |]. cbn. rewrite E1, E2, IH. reflexivity. Qed.
Lemma Forall2_len : forall A B (P : A -> B -> Prop) xs ys, Forall2 P xs ys -> List.length xs = List.length ys.
Proof. intros A B P xs ys H. induction H; cbn; congruence. Qed.
Lemma map_Fin_noinf : forall l, noinf (map Fin l).
Proof. intros l x Hx. apply in_map_iff in Hx. destruct Hx as (q & <- & _). split; discriminate. Qed.

Lemma sum_positive : forall l, 0 <= qsum (map p_pi (positive l)) /\ (positive l <> [] -> 0 < qsum (map p_pi (positive l))).
Proof.
  unfold positive. induction l as [| p l [IH1 IH2]]; cbn [filter]; [split; [discriminate | contradiction] |]. destruct (qlt 0 (p_pi p)) eqn:E; [| split; assumption]. qb.
  cbn [map]. rewrite qsum_cons. split; [qlra | intros _; qlra].
Qed.
Lemma sum_nonpositive : forall l, positive l = [] -> qsum (map p_pi l) <= 0.
Proof.
  unfold positive. induction l as [| p l IH]; cbn [filter]; intros H; [discriminate |]. destruct (qlt 0 (p_pi p)) eqn:E; [discriminate |]. qb. cbn [map]. rewrite qsum_cons. specialize (IH H). qlra.
Qed.

(** ** One interval *)

Lemma slope_test : forall limit slope low high,
  fge (fdiv (fsub (Fin high) (Fin low)) (fabs (Fin slope))) (fdiv (Fin limit) (fz 100)) = false <-> slope_certain limit slope low high.
Proof.
  intros limit slope low high. unfold slope_certain, fge, fz. cbn [fabs fsub fneg fadd]. cbn [fdiv]. replace (high + - low) with (high - low) by reflexivity.
  assert (qeq (qz 100) 0 = false) as -> by reflexivity. destruct (qeq (qabs slope) 0) eqn:E; qb.
  - assert (slope = 0) as -> by (revert E; unfold qabs; destruct (qle 0 slope) eqn:F; intros E; qb; qlra). unfold inf_sgn. replace (qabs 0) with 0 by (apply Qc_is_canon; reflexivity).
    destruct (qlt 0 (high - low)) eqn:E1; [| destruct (qlt (high - low) 0) eqn:E2]; qb; cbn [fle].
    + split; [discriminate |]. intros [H | [_ H]]; exfalso; [| qlra]. replace (limit * 0) with 0 in H by ring. qlra.
    + split; [intros _ | reflexivity]. right. split; [reflexivity | qlra].
    + split; [intros _ | reflexivity]. right. split; [reflexivity | qlra].
  - cbn [fle]. assert (0 < qabs slope) as HP.
    { unfold qabs in *. destruct (qle 0 slope) eqn:F; qb; [destruct (Qc_eq_dec slope 0) as [-> | N]; [contradiction |]; apply Qcle_lt_or_eq in F; destruct F as [F | F]; [exact F | congruence] | qlra]. }
    set (m := (high - low) / qabs slope). set (L := limit / qz 100).
    assert (high - low = m * qabs slope) as Em by (unfold m; field; apply Qc_pos_neq; exact HP). assert (limit = L * qz 100) as EL by (unfold L; field; discriminate).
    rewrite Em, EL, qle_false. clearbody m L. set (w := qabs slope) in *. assert (0 < qz 100 * w) as HW by (apply Qc_mul_pos; [reflexivity | exact HP]). split.
    + intros H. left. replace (qz 100 * (m * w)) with (m * (qz 100 * w)) by ring. replace (L * qz 100 * w) with (L * (qz 100 * w)) by ring. apply Qcmult_lt_compat_r; assumption.
    + intros [H | [C H]]; [| contradiction E; unfold w; rewrite C; apply Qc_is_canon; reflexivity]. replace (qz 100 * (m * w)) with (m * (qz 100 * w)) in H by ring. replace (L * qz 100 * w) with (L * (qz 100 * w)) in H by ring.
      apply Qcnot_le_lt. intros C. pose proof (Qcmult_le_compat_r _ _ _ C (Qclt_le_weak _ _ HW)). qlra.
Qed.

Lemma used_nonempty : forall pts, pts <> [] -> used pts <> [].
Proof. intros pts NE. unfold used. destruct (positive pts); [exact NE | discriminate]. Qed.

Lemma step_test : forall l m step, least l m -> (fle (Fin m) (fmul (fz (-1)) (Fin step)) = false <-> forall x, In x l -> - step < x).
Proof.
  intros l m step [Hin Hle]. unfold fz. cbn [fmul fle]. rewrite qle_false. replace (qz (-1) * step) with (- step) by (change (qz (-1)) with (- (1)); ring). split.
  - intros H x Hx. specialize (Hle x Hx). qlra.
  - intros H. apply H. exact Hin.
Qed.

Lemma fit_described : forall fit minimum limit step rs pts a b r i, Forall2 shows rs pts -> (exists x rest, rs = x :: rest /\ d_day x = Z.of_nat a /\ d_day (List.last rs x) = Z.of_nat b) ->
  fit_interval fit minimum rs r = Ok i -> described fit minimum limit step pts a b (flatten (rejected (Fin limit) (Fin step)) i).
Proof.
  intros fit minimum limit step rs pts a b r i HS (x & rest & Ers & Ea & Eb) HI. unfold fit_interval in HI. rewrite Ers in HI at 1. cbv zeta in HI.
  replace (List.last rs x) with (List.last rs x) in HI by reflexivity.
  pose proof (shows_positive rs pts HS) as HP. pose proof (shows_used rs pts HS) as HU. set (ps := filter (fun d => fgt (d_pi_norm d) (fz 0)) rs) in *.
  set (us := match ps with [] => rs | _ => ps end) in *.
  assert (pts <> []) as NE by (intros ->; inversion HS; subst; discriminate). pose proof (used_nonempty pts NE) as NU.
  rewrite (shows_pi us _ HU), (shows_step us _ HU), (shows_points us _ HU), (Forall2_len _ _ _ _ _ HU) in HI.
  destruct (pymin_least (map p_step (used pts))) as (m & Em & Hm); [destruct (used pts); [contradiction | discriminate] |]. rewrite Em in HI.
  rewrite fsum_noinf in HI by apply map_Fin_noinf. rewrite fmean_noinf in HI; [| apply map_Fin_noinf | rewrite finvals_map_Fin; destruct (used pts); [contradiction | discriminate]].
  rewrite finvals_map_Fin in HI. fold (qmean (map p_pi (used pts))) in HI. change (fgt (Fin (qsum (map p_pi (used pts)))) (fz 0)) with (qlt 0 (qsum (map p_pi (used pts)))) in HI.
  rewrite Ea, Eb in HI. unfold described. cbv zeta. set (enough := positive pts <> [] /\ _).
  destruct ((minimum <? Z.of_nat (List.length (used pts)))%Z && qlt 0 (qsum (map p_pi (used pts)))) eqn:EC.
  - apply andb_true_iff in EC. destruct EC as [C1 C2]. apply Z.ltb_lt in C1. qb. assert (used pts = positive pts /\ positive pts <> []) as [EU NP].
    { unfold used in *. destruct (positive pts) as [| p ps'] eqn:EP; [| split; [reflexivity | discriminate]]. exfalso. pose proof (sum_nonpositive pts EP). qlra. }
    assert enough as HE by (split; [exact NP | rewrite <- EU; exact C1]). rewrite <- EU.
    destruct (fit (map (fun p => (p_day p, Fin (p_pi p))) (used pts))) as [[[sl ic] lo] hi] eqn:EF. injection HI as <-. split; [| split; [| split]].
    + exists m. split; [unfold flatten; destruct (rejected _ _ _); reflexivity | exact Hm].
    + unfold flatten. destruct (rejected _ _ _); [intros _; repeat split; reflexivity | discriminate].
    + intros N. contradiction.
    + intros _ slope intercept low high EQ. injection EQ as -> -> -> ->.
      assert ((if flt (Fin high) (fz 0) then Fin high else fz 0) = Fin (qmin 0 high)) as EH.
      { unfold fz. cbn [flt]. change (qz 0) with 0. unfold qmin. destruct (qlt high 0) eqn:E1; destruct (qle 0 high) eqn:E2; qb; try reflexivity; exfalso; qlra. }
      rewrite EH. unfold flatten, rejected. cbn [i_slope i_slope_low i_slope_high i_max_neg_step].
      pose proof (slope_test limit slope low (qmin 0 high)) as T1. pose proof (step_test _ m step Hm) as T2.
      change (fgt (Fin slope) (fz 0)) with (qlt 0 slope).
      destruct (qlt 0 slope) eqn:B1; [| destruct (fge _ _) eqn:B2; [| destruct (fle (Fin m) _) eqn:B3]]; cbn [orb i_valid i_slope i_slope_low i_slope_high i_start_loss i_end_loss]; qb;
        (split; [| split; [try discriminate; auto | split; reflexivity]]); split; try discriminate.
      * intros (K1 & _). exfalso. qlra.
      * intros (_ & K2 & _). apply T1 in K2. discriminate.
      * intros (_ & _ & K3). apply T2 in K3. discriminate.
      * intros _. split; [qlra |]. split; [apply T1; reflexivity | apply T2; reflexivity].
      * reflexivity.
  - assert (~ enough) as HN.
    { intros [NP C]. assert (used pts = positive pts) as EU by (unfold used; destruct (positive pts); [contradiction | reflexivity]). rewrite EU in EC.
      apply andb_false_iff in EC. destruct EC as [EC | EC]; [apply Z.ltb_ge in EC; lia |]. qb. destruct (sum_positive pts) as [_ K]. specialize (K NP). qlra. }
    injection HI as <-. split; [| split; [| split]].
    + exists m. split; [unfold flatten; destruct (rejected _ _ _); reflexivity | exact Hm].
    + unfold flatten. destruct (rejected _ _ _); intros _; repeat split; reflexivity.
    + intros _. unfold flatten. destruct (rejected _ _ _); (split; [reflexivity |]); eexists; repeat split; reflexivity.
    + intros K. contradiction.
Qed.

(** ** Recoveries *)

Lemma clip01_unit : forall x, x <> NaN -> exists q, clip01 x = Fin q /\ 0 <= q /\ q <= 1.
Proof.
  intros x H. unfold clip01, fz. destruct x; try contradiction; cbn [isnan flt].
  - exists 0. (split; [reflexivity |]; split; discriminate).
  - change (qz 0) with 0. change (qz 1) with 1. unfold fgt, flt. destruct (qlt q 0) eqn:E1; [exists 0; (split; [reflexivity |]; split; discriminate) |].
    destruct (qlt 1 q) eqn:E2; [exists 1; (split; [reflexivity |]; split; discriminate) |]. qb. exists q. auto.
  - exists 1. (split; [reflexivity |]; split; discriminate).
Qed.
Lemma clip01_Fin : forall q, clip01 (Fin q) = Fin (clip_unit q).
Proof.
  intros q. unfold clip01, clip_unit, qmax, qmin, fgt, fz. cbn [isnan flt]. change (qz 0) with 0. change (qz 1) with 1.
  destruct (qlt q 0) eqn:E1; destruct (qle 1 q) eqn:E2; destruct (qlt 1 q) eqn:E3; qb; try (exfalso; qlra); try (destruct (qle 0 _) eqn:E4; qb; try reflexivity; f_equal; qlra).
Qed.

Lemma recoveries_nth : forall table k i, nth_error table k = Some i ->
  (i_valid i = false /\ nth_error (recoveries table) k = Some NaN) \/
  (i_valid i = true /\ (forall j, ~ next_true (map i_valid table) k j) /\ nth_error (recoveries table) k = Some NaN) \/
  (i_valid i = true /\ exists j i', next_true (map i_valid table) k j /\ nth_error table j = Some i' /\
     nth_error (recoveries table) k = Some (clip01 (fsub (clip01 (i_start_loss i')) (i_end_loss i)))).
Proof.
  induction table as [| h t IH]; intros k i H; [destruct k; discriminate |]. destruct k as [| k].
  - injection H as ->. cbn [recoveries nth_error]. destruct (i_valid i) eqn:V; [right | left; split; reflexivity]. clear IH.
    assert ((filter i_valid t = [] /\ forall j, ~ next_true (map i_valid (i :: t)) 0 j) \/
            exists j i' rest, filter i_valid t = i' :: rest /\ next_true (map i_valid (i :: t)) 0 (S j) /\ nth_error t j = Some i') as K.
    { clear V. induction t as [| h t IH].
      - left. split; [reflexivity |]. intros j (L & E & _). destruct j as [| [| j]]; [lia | discriminate | discriminate].
      - cbn [filter]. destruct (i_valid h) eqn:V.
        + right. exists 0%nat, h, (filter i_valid t). split; [reflexivity |]. split; [| reflexivity]. split; [lia |]. split; [cbn; rewrite V; reflexivity | intros m Hm; lia].
        + destruct IH as [[E N] | (j & i' & rest & E & (L1 & L2 & L3) & G)].
          * left. split; [exact E |]. intros j (L & E' & M). destruct j as [| [| j]]; [lia | cbn in E'; congruence |].
            apply (N (S j)). split; [lia |]. split; [exact E' |]. intros m Hm. destruct m as [| m]; [lia |]. specialize (M (S (S m)) ltac:(lia)). exact M.
          * right. exists (S j), i', rest. split; [exact E |]. split; [| exact G]. split; [lia |]. split; [exact L2 |]. intros m Hm.
            destruct m as [| [| m]]; [lia | cbn; rewrite V; reflexivity |]. apply (L3 (S m)). lia. }
    destruct K as [[-> N] | (j & i' & rest & -> & N & G)].
    + left. split; [reflexivity |]. split; [exact N | reflexivity].
    + right. split; [reflexivity |]. exists (S j), i'. split; [exact N |]. split; [exact G | reflexivity].
  - cbn [nth_error recoveries] in *. assert (forall j, next_true (map i_valid t) k j <-> next_true (map i_valid (h :: t)) (S k) (S j)) as S1.
    { intros j. unfold next_true. cbn [map nth_error]. split; intros (L & E & M); (split; [lia |]); (split; [exact E |]); intros m Hm.
      - destruct m as [| m]; [lia |]. apply M. lia.
      - apply (M (S m)). lia. }
    destruct (IH k i H) as [C | [(V & N & E) | (V & j & i' & N & G & E)]]; [left; exact C | right; left | right; right].
    + split; [exact V |]. split; [| exact E]. intros j C. destruct j as [| j]; [destruct C; lia |]. apply S1 in C. exact (N j C).
    + split; [exact V |]. exists (S j), i'. split; [apply S1; exact N |]. split; [exact G | exact E].
Qed.

Lemma recoveries_range : forall table x, In x (recoveries table) -> x = NaN \/ exists q, x = Fin q /\ 0 <= q /\ q <= 1.
Proof.
  induction table as [| i t IH]; intros x H; [destruct H |]. cbn [recoveries] in H. destruct H as [<- | H]; [| apply IH; exact H].
  destruct (i_valid i); [| left; reflexivity]. destruct (filter i_valid t) as [| j l]; [left; reflexivity |]. set (y := fsub _ _). destruct (isnan y) eqn:E.
  - left. unfold clip01. rewrite E. reflexivity.
  - right. apply clip01_unit. intros C. rewrite C in E. discriminate.
Qed.

(** ** The table *)

Lemma Forall2_block : forall A B (P : A -> B -> Prop) xs ys ab, Forall2 P xs ys -> Forall2 P (block xs ab) (block ys ab).
Proof.
  intros A B P xs ys [a b] H. unfold block. cbn [fst snd]. assert (Forall2 P (skipn a xs) (skipn a ys)) as K.
  { revert xs ys H. induction a as [| a IH]; intros xs ys H; [exact H |]. inversion H; subst; [constructor | apply IH; assumption]. }
  revert K. generalize (skipn a xs) as u, (skipn a ys) as v, (S b - a)%nat as m. clear. intros u v m. revert u v. induction m as [| m IH]; intros u v H; [constructor |].
  inversion H; subst; [constructor |]. cbn. constructor; [assumption | apply IH; assumption].
Qed.

Theorem table_spec : forall pm insolation precip day_scale thr recenter c pthr factor r rows pts,
  calc_daily_df pm insolation precip day_scale thr recenter c pthr factor = Ok (r, rows) -> Forall2 shows rows pts ->
  exists l, tiles (fun i => exists d, nth_error rows i = Some d /\ d_event d = true) (List.length rows) 0 l /\
  forall fit trim limit step minimum, exists table,
    Forall2 (fun ab i => described fit minimum limit step (block pts ab) (fst ab) (snd ab) i) (kept_blocks trim l) table /\
    ((forall i, In i table -> i_valid i = false) -> calc_result_df fit rows trim (Fin limit) (Fin step) minimum = Raise NoValidIntervalError) /\
    ((exists i, In i table /\ i_valid i = true) -> exists out, calc_result_df fit rows trim (Fin limit) (Fin step) minimum = Ok out /\
       map fst (s_table out) = table /\
       (forall ir, In ir (s_table out) -> snd ir = NaN \/ exists q, snd ir = Fin q /\ 0 <= q /\ q <= 1) /\
       forall k i rec, nth_error (s_table out) k = Some (i, rec) ->
         (i_valid i = false -> rec = NaN) /\
         (i_valid i = true -> (forall j, ~ next_true (map i_valid table) k j) -> rec = NaN) /\
         (i_valid i = true -> forall j i' ending start, next_true (map i_valid table) k j -> nth_error table j = Some i' ->
            i_end_loss i = Fin ending -> i_start_loss i' = Fin start -> rec = Fin (clip_unit (clip_unit start - ending)))).
Proof.
  intros pm insolation precip day_scale thr recenter c pthr factor r rows pts H HS. destruct (daily_numbered _ _ _ _ _ _ _ _ _ _ _ H) as [NE NUM]. clear H.
  destruct (tiles_exists (event_row rows) (List.length rows) (event_dec rows) 0) as [l Hl]; [destruct rows; [contradiction | cbn; lia] |].
  exists l. split; [exact Hl |]. intros fit trim limit step minimum.
  destruct (result_blocks rows NUM fit trim (Fin limit) (Fin step) minimum l Hl) as (fits & F & E). cbv zeta in E. exists (map (flatten (rejected (Fin limit) (Fin step))) fits).
  set (table := map _ fits) in *. split; [| split].
  - unfold table. clear E table. assert (forall ab, In ab (kept_blocks trim l) -> In ab l) as IK by (intros ab; apply In_kept). revert IK F. generalize (kept_blocks trim l) as k. intros k IK F. revert IK.
    induction F as [| ab i k m Ei F IH]; intros IK; [constructor |]. cbn [map]. constructor; [| apply IH; intros ab' H'; apply IK; right; exact H'].
    destruct (block_ends rows NUM l ab Hl (IK ab (or_introl eq_refl))) as (x & y & SP & (rest & Eb) & EL & ER & E1 & E2).
    apply (fit_described fit minimum limit step (block rows ab) (block pts ab) (fst ab) (snd ab) (run_at rows ab) i); [apply Forall2_block; exact HS | | exact Ei].
    exists x, rest. split; [exact Eb |]. split; [exact E1 |]. rewrite EL. exact E2.
  - intros N. rewrite E. assert (existsb i_valid table = false) as ->; [| reflexivity]. apply not_true_iff_false. intros C. apply existsb_exists in C. destruct C as (i & Hi & V). rewrite (N i Hi) in V. discriminate.
  - intros (i & Hi & V). assert (existsb i_valid table = true) as EX by (apply existsb_exists; eauto). rewrite EX in E. eexists. split; [exact E |]. cbn [s_table].
    pose proof (recoveries_length table) as L. split; [| split].
    + revert L. generalize (recoveries table) as rc. generalize table as t. clear. induction t as [| i t IH]; intros rc L; [reflexivity |]. destruct rc; [discriminate |]. cbn. rewrite IH; [reflexivity | cbn in L; lia].
    + intros [i' rec] Hr. apply in_combine_r in Hr. apply (recoveries_range table). exact Hr.
    + intros k i' rec Hk. rewrite nth_error_combine in Hk. destruct (nth_error table k) as [i0 |] eqn:Ek; [| discriminate]. destruct (nth_error (recoveries table) k) as [rec0 |] eqn:Er; [| discriminate].
      injection Hk as -> ->. destruct (recoveries_nth table k i' Ek) as [[V' ER] | [(V' & N & ER) | (V' & j & i2 & N & G & ER)]]; rewrite Er in ER; injection ER as ->.
      * split; [reflexivity |]. split; intros C; congruence.
      * split; [congruence |]. split; [reflexivity |]. intros _ j i2 ending start C. contradiction (N j C).
      * split; [congruence |]. split; [intros _ C; contradiction (C j N) |]. intros _ j' i3 ending start N' G' E1 E2.
        assert (j' = j) as ->.
        { destruct N as (A1 & A2 & A3), N' as (B1 & B2 & B3). destruct (Nat.lt_trichotomy j j') as [C | [C | C]]; [| symmetry; exact C |].
          - rewrite (B3 j ltac:(lia)) in A2. discriminate.
          - rewrite (A3 j' ltac:(lia)) in B2. discriminate. }
        rewrite G in G'. injection G' as <-. rewrite E1, E2, clip01_Fin. cbn [fsub fneg fadd]. rewrite clip01_Fin. reflexivity.
Qed.
