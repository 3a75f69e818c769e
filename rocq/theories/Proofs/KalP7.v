(** The whole Kalman fit: its runs and the events between them. *)

From Coq Require Import QArith Qcanon List ZArith Bool Arith Lia Permutation Sorted String.
From Verif.Base Require Import QcExtra ISort Quantile Fl TimeSeries Calendar Rolling.
From Verif.Spec Require Import Stats Theil Filters Soiling Cods TrackingSetup Tracking TrackingFit.
From Verif.Model Require Import Soiling CodsTools CodsKalman.
From Verif.Proofs Require Import FlP StatsP FiltersP FiltersP2 SoilP SoilP2 SoilP13 CodsP CodsP2 CodsP3 CodsP7 CodsP10 KalP1 KalP2 KalP3 KalP4 KalP5 KalP6.
Import ListNotations.
Open Scope list_scope.
Open Scope Qc_scope.

(** ** Marked rows *)
Lemma count_filter : forall b, count_true b = List.length (filter (fun x => x) b).
Proof. unfold count_true. induction b as [|[] b IH]; cbn; [reflexivity| |exact IH]. destruct (bool_dec true true); [|congruence]. rewrite IH. reflexivity. Qed.
Lemma count_rows : forall b, count_true b = List.length (true_rows b).
Proof.
  intros b. unfold true_rows, count_true. assert (G : forall l, List.length (filter (fun i => nth i b false) l) = count_occ bool_dec (map (fun i => nth i b false) l) true).
  { induction l as [|i l IH]; [reflexivity|]. cbn [filter map count_occ]. destruct (nth i b false); cbn [List.length]; rewrite IH; destruct (bool_dec _ _); congruence. }
  rewrite G. f_equal. assert (S : forall a k, map (fun i => nth i a false) (seq 0 k) = firstn k (a ++ repeat false k)).
  { clear. induction a as [|x a IH]; intros k.
    - cbn [app]. rewrite firstn_all2 by (rewrite repeat_length; lia). transitivity (map (fun _ : nat => false) (seq 0 k)); [apply map_ext; intros []; reflexivity|]. generalize 0%nat. induction k as [|k IH]; intros s; [reflexivity|]. cbn. rewrite IH. reflexivity.
    - destruct k as [|k]; [reflexivity|]. cbn [seq map nth]. rewrite <- seq_shift, map_map. cbn [app firstn]. f_equal. transitivity (firstn k (a ++ repeat false k)); [apply IH|].
      rewrite !firstn_app. f_equal. cbn [repeat]. destruct (k - List.length a)%nat as [|d] eqn:D; [reflexivity|]. clear IH. assert (H : (S d <= k)%nat) by lia. clear D. revert d H. induction k as [|k IH]; intros d H; [lia|]. cbn. f_equal. destruct d as [|d]; [reflexivity|]. apply IH. lia. }
  rewrite S, firstn_app, firstn_all, Nat.sub_diag. cbn. rewrite app_nil_r. reflexivity.
Qed.
Lemma rows_marked : forall b, marked b (true_rows b).
Proof. intros b. split; [apply sorted_rows|]. intros i. apply true_rows_In. Qed.

Theorem first_model : forall zs p, noinf zs ->
  (forall first, first_events zs p = Ok first -> first_found zs p first) /\
  (match p with Some b => (4 < count_true b)%nat -> List.length b = List.length zs | None => True end -> (11 <= List.length zs)%nat -> exists first, first_events zs p = Ok first) /\
  (forall b, p = Some b -> (4 < count_true b)%nat -> List.length b <> List.length zs -> first_events zs p = Raise ValueError) /\
  ((forall b, p = Some b -> (count_true b <= 4)%nat) -> (List.length zs < 11)%nat -> first_events zs p = Raise ValueError).
Proof.
  intros zs p N. destruct (option_map (fun b => Nat.ltb 4 (count_true b)) p) as [[]|] eqn:E.
  - destruct p as [b|]; [|discriminate E]. cbn [option_map] in E. injection E as E. apply Nat.ltb_lt in E. pose proof E as E'. rewrite count_rows in E'. destruct (first_given zs b E') as [G1 G2].
    destruct (Nat.eq_dec (List.length b) (List.length zs)) as [L|L].
    + destruct (G1 L) as (ce & C1 & C2 & C3). rewrite C1. split; [|split; [|split]].
      * intros first F. injection F as <-. left. exists b. repeat split; auto; apply C3.
      * intros _ _. exists ce. reflexivity.
      * intros b' B _ X. injection B as <-. contradiction.
      * intros X. specialize (X b eq_refl). lia.
    + rewrite (G2 L). split; [intros first F; discriminate F|]. split; [intros X; specialize (X E); contradiction|]. split; [reflexivity|reflexivity].
  - assert (P : match p with Some b => (List.length (true_rows b) <= 4)%nat | None => True end) by (destruct p as [b|]; [|exact I]; cbn [option_map] in E; injection E as E; apply Nat.ltb_ge in E; rewrite <- count_rows; exact E).
    destruct (first_detected zs p N P) as [F1 F2]. destruct (Nat.lt_ge_cases (List.length zs) 11) as [L|L].
    + rewrite (F1 L). split; [intros first F; discriminate F|]. split; [intros _ X; lia|]. split; [|intros _ _; reflexivity]. reflexivity.
    + destruct (F2 L) as (ev & m & out & ce & H1 & H2 & H3 & H4 & H5 & H6). rewrite H4. split; [|split; [|split]].
      * intros first F. injection F as <-. right. split; [intros b ->; rewrite count_rows; exact P|]. split; [exact L|]. exists ev, m, out. split; [exact H1|]. split; [exact H2|]. split; [exact H3|]. split; assumption.
      * intros _ _. exists ce. reflexivity.
      * intros b -> B. rewrite count_rows in B. lia.
      * intros _ X. lia.
  - destruct p as [b|]; [discriminate E|]. destruct (first_detected zs None N I) as [F1 F2]. destruct (Nat.lt_ge_cases (List.length zs) 11) as [L|L].
    + rewrite (F1 L). split; [intros first F; discriminate F|]. split; [intros _ X; lia|]. split; reflexivity.
    + destruct (F2 L) as (ev & m & out & ce & H1 & H2 & H3 & H4 & H5 & H6). rewrite H4. split; [|split; [|split]].
      * intros first F. injection F as <-. right. split; [intros b B; discriminate B|]. split; [exact L|]. exists ev, m, out. split; [exact H1|]. split; [exact H2|]. split; [exact H3|]. split; assumption.
      * intros _ _. exists ce. reflexivity.
      * intros b B. discriminate B.
      * intros _ X. lia.
Qed.

Theorem kept_spec : forall k r levels rates prune limit, level r = map Fin levels -> rate r = map Fin rates -> ks_prune k = Fin prune -> ks_max_rate k = Fin limit ->
  (forall next, keep_events k r = Ok next -> kept_events prune limit levels rates (kr_events r) next) /\ ((9 <= List.length rates)%nat -> exists next, keep_events k r = Ok next).
Proof.
  intros k r levels rates prune limit EL ER EP EM. destruct (keep_model k r levels rates prune limit EL ER EP EM) as (kept & fast & KP & TF & K1 & K2 & K3). rewrite <- count_filter in K1, K2, K3.
  destruct (Nat.le_gt_cases (count_true fast) 1) as [C|C].
  - split; [|intros _; exists kept; apply K1; lia]. intros next E. rewrite K1 in E by lia. injection E as <-. exists kept, fast. split; [exact KP|]. split; [exact TF|]. split; [reflexivity|]. intros X. lia.
  - destruct (Nat.lt_ge_cases (List.length rates) 9) as [L|L].
    + split; [|intros X; lia]. intros next E. rewrite (K3 C L) in E. discriminate E.
    + destruct (K2 C L) as (more & out & M1 & M2 & M3 & M4). split; [|intros _; exists out; exact M2]. intros next E. rewrite M2 in E. injection E as <-. exists kept, fast. split; [exact KP|]. split; [exact TF|]. split; [intros X; lia|].
      intros _. exists more, (true_rows more). split; [exact M1|]. split; [apply rows_marked|]. split; [exact M3|exact M4].
Qed.

(** ** The variance in front of the filter *)
Lemma median_at_unique : forall forward w zs i q q', (1 <= w)%nat -> median_at forward w zs i q -> median_at forward w zs i q' -> q = q'.
Proof.
  intros forward w zs i q q' W (f & F & M) (f' & F' & M'). rewrite (filled_rows_unique _ _ _ _ F' F) in M'. exact (window_median_unique _ _ (in_center_rows w) w f _ q q' W M M').
Qed.
Lemma near_median_unique : forall forward w zs i q q', (1 <= w)%nat -> near_median forward w zs i q -> near_median forward w zs i q' -> q = q'.
Proof.
  intros forward w zs i q q' W [(j & J1 & J2 & J3)|(j & J1 & J2 & J3)] [(k & K1 & K2 & K3)|(k & K1 & K2 & K3)].
  - destruct (Nat.lt_trichotomy j k) as [H|[->|H]]; [exfalso; exact (J3 k ltac:(lia) q' K2)|exact (median_at_unique _ _ _ _ _ _ W J2 K2)|exfalso; exact (K3 j ltac:(lia) q J2)].
  - exfalso. exact (K3 j ltac:(lia) q J2).
  - exfalso. exact (J3 k ltac:(lia) q' K2).
  - destruct (Nat.lt_trichotomy j k) as [H|[->|H]]; [exfalso; exact (K3 j ltac:(lia) q J2)|exact (median_at_unique _ _ _ _ _ _ W J2 K2)|exfalso; exact (J3 k ltac:(lia) q' K2)].
Qed.
Lemma from_medians_unique : forall ffill zs ds ds', from_medians ffill zs ds -> from_medians ffill zs ds' -> ds = ds'.
Proof.
  intros ffill zs ds ds' (m & L & M & ->) (m' & L' & M' & ->). replace m' with m; [reflexivity|]. apply (nth_ext _ _ 0 0); [congruence|]. intros i H. rewrite L in H. exact (near_median_unique ffill 13 zs i _ _ ltac:(lia) (M i H) (M' i H)).
Qed.
Lemma fvar_value : forall l v, noinf l -> sample_variance (finvals l) v -> fvar l = Fin v.
Proof.
  intros l v N [L (mean & EM & EV)]. destruct (fvar l) as [| |v'|] eqn:E; cycle 2.
  { destruct (fvar_spec l v' N E) as [_ (mean' & EM' & EV')]. f_equal. rewrite EV, EV', EM, EM'. reflexivity. }
  all: exfalso; unfold fvar in E; rewrite (fcount_noinf l N) in E; destruct (Nat.ltb_spec (List.length (finvals l)) 2) as [L'|_]; [lia|];
    assert (NE : finvals l <> []) by (intros C; rewrite C in L; cbn in L; lia); rewrite (fmean_noinf l N NE) in E; unfold qlen in E; set (m := qsum (finvals l) / qz (Z.of_nat (List.length (finvals l)))) in *;
    assert (M2 : noinf (map (fun x => fmul (fsub x (Fin m)) (fsub x (Fin m))) l)) by (intros y I; apply in_map_iff in I; destruct I as (x & <- & I); destruct (N x I); destruct x; try contradiction; split; discriminate);
    rewrite (fsum_noinf _ M2) in E; unfold fz, fdiv in E; destruct (qeq (qz (Z.of_nat (List.length (finvals l)) - 1)) 0) eqn:Q; try discriminate E;
    apply qeq_spec in Q; assert (0 < qz (Z.of_nat (List.length (finvals l)) - 1)) as P by (apply qz_pos; lia); rewrite Q in P; discriminate P.
Qed.
Lemma selected_length : forall P k s l, selected P k s l -> (List.length l <= List.length s)%nat.
Proof. intros P k s l H. induction H; cbn; lia. Qed.
Lemma noise_model : forall zs ffill pn prune max_rate renorm perfect clip ds R, noinf zs -> from_medians ffill zs ds -> sample_variance ds R ->
  f_R (ks_noise (kalman_setup_of zs ffill pn prune max_rate renorm perfect clip)) = Fin R /\ (13 <= List.length zs)%nat.
Proof.
  intros zs ffill pn prune max_rate renorm perfect clip ds R N F V. pose proof F as (med & L & M & ED). assert (Z0 : zs <> []).
  { intros ->. destruct med; [|discriminate L]. cbn in ED. subst ds. destruct V as [V _]. cbn in V. lia. }
  assert (X : exists j q, median_at ffill 13 zs j q) by (destruct (M 0%nat ltac:(destruct zs; [congruence|cbn; lia])) as [(j & _ & J & _)|(j & _ & J & _)]; eauto).
  destruct X as (j & q & X). destruct (near_rows ffill 13 zs j q N ltac:(lia) X) as (med13 & E13 & L13 & N13). destruct (from_medians_fin med13 zs N) as [F1 F2].
  assert (D : flat_map (fun p => match snd p with Fin z => [fst p - z] | _ => [] end) (combine med13 zs) = ds) by (eapply from_medians_unique; [|exact F]; exists med13; auto).
  split.
  - unfold kalman_setup_of. destruct (theil_fit _ _) as [[[sl ic] lo] hi]. cbn [ks_noise initial_noise f_R]. rewrite E13. apply fvar_value; [exact F2|]. rewrite F1, D. exact V.
  - destruct X as (f & [LF _] & (t & v & l & _ & S & LL & _)). apply selected_length in S. lia.
Qed.

(** ** All runs *)
Definition shows (r : kalman_run) (o : outcome) : Prop :=
  kr_events r = o_events o /\ level r = map Fin (o_levels o) /\ rate r = map Fin (o_rates o) /\
  kr_zs_std r = Fin (fst (fst (o_cov o))) /\ kr_rate_std r = Fin (snd (o_cov o)) /\ 0 < fst (fst (o_cov o)) /\ 0 < snd (o_cov o).

Theorem fit_chain : forall fuel zs pn b a limit iterations prune renorm perfect p clip ffill ds R j7 q7 jn,
  pn <> 0 -> a <> 0 -> b <> 0 -> from_medians ffill (map fl_of zs) ds -> sample_variance ds R -> 0 < R ->
  median_at ffill 7 (map fl_of zs) j7 q7 -> (Nat.min 13 (List.length zs - 1) <= jn)%nat -> (exists q, nth_error zs jn = Some (Some q)) ->
  let run := kalman_filter_for_SR fuel (map fl_of zs) (Fin pn) (Fin b) (Fin a) (Fin limit) iterations (Fin prune) renorm perfect p clip ffill in
  (forall fr, run = Some (Ok fr) -> exists med level rate soiling first runs final,
     List.length med = List.length zs /\ (forall i, (i < List.length zs)%nat -> near_median ffill 7 (map fl_of zs) i (nth i med 0)) /\
     starting_line (map fl_of zs) level rate /\ (forall i, In i soiling <-> downward_shift ffill (qz 5) (map fl_of zs) i) /\ first_found (map fl_of zs) p first /\
     fitted (pn * pn) R med soiling (level, rate) zs prune limit b a first (runs ++ [final]) /\ (List.length runs <= iterations)%nat /\
     ((List.length runs < iterations)%nat -> kept_events prune limit (o_levels final) (o_rates final) (o_events final) (o_events final)) /\
     k_level fr = map Fin (o_levels final) /\ k_rate fr = map Fin (o_rates final) /\ forall i, (i < List.length zs)%nat -> (nth_error (k_events fr) i = Some true <-> In i (o_events final))) /\
  (match p with Some b => (4 < count_true b)%nat -> List.length b = List.length zs | None => True end -> (iterations <= 100)%nat -> (iterations <= fuel)%nat -> exists fr, run = Some (Ok fr)).
Proof.
  intros fuel zs pn b a limit iterations prune renorm perfect p clip ffill ds R j7 q7 jn Hpn Ha Hb FM SV HR M7 JN (qn & QN) run.
  set (k := kalman_setup_of (map fl_of zs) ffill (Fin pn) (Fin prune) (Fin limit) renorm perfect clip) in *.
  destruct (noise_model (map fl_of zs) ffill (Fin pn) (Fin prune) (Fin limit) renorm perfect clip ds R (fl_of_noinf zs) FM SV) as [ER L13]. rewrite map_length in L13.
  destruct (setup_model (map fl_of zs) ffill pn (Fin prune) (Fin limit) renorm perfect clip j7 q7 jn R (fl_of_noinf zs) ER M7) as (med & s & l & ds' & K1 & K2 & _ & _ & K3 & LM & NM & K4 & K5 & SL & K6).
  { rewrite map_length. exact JN. }
  { exists qn. rewrite (map_nth_error fl_of jn zs QN). reflexivity. }
  fold k in K1, K2, K3, K4, K5, K6. rewrite map_length in LM, NM.
  assert (KP : ks_prune k = Fin prune /\ ks_max_rate k = Fin limit) by (unfold k, kalman_setup_of; destruct (theil_fit _ _) as [[[sl ic] lo] hi]; split; reflexivity). destruct KP as [KP KM].
  assert (NE : zs <> []) by (intros C; rewrite C in L13; cbn in L13; lia).
  assert (Hv : 0 < pn * pn). { destruct (Qclt_le_dec 0 (pn * pn)) as [C|C]; [exact C|]. exfalso. assert (0 <= pn * pn) by qnra. assert (pn * pn = 0) as Z by (apply Qcle_antisym; assumption). apply Qcmult_integral in Z. tauto. }
  assert (FS : Forall (fun j => (j < List.length zs)%nat) (ks_soiling k)) by (rewrite K6; pose proof (true_rows_range (soiling_detection ffill (fz 5) (map fl_of zs))) as T; rewrite soiling_rows, map_length in T; exact T).
  assert (STEP : forall a b ce, a <> 0 -> b <> 0 -> good (List.length (ks_zs k)) ce -> exists r o, run_filter k (Fin a) (Fin b) ce = Ok r /\ run_good k r /\ shows r o /\
    tracked (pn * pn) R med (ks_soiling k) ((l, s), (b * b, 0, a * a)) zs ce (o_events o) (o_levels o) (o_rates o) (o_cov o)).
  { intros a0 b0 ce0 A0 B0 G0. destruct (run_tracked k zs med (ks_soiling k) l s (pn * pn) R a0 b0 ce0 K1 K2 K3 eq_refl K5 K4 Hv HR A0 B0 NE LM) as (r & levels & rates & final & R1 & R2 & R3 & R4 & R5).
    { apply Forall_app. split; [|exact FS]. destruct G0 as [_ G0]. rewrite K1, map_length in G0. exact G0. }
    exists r, (Outcome (kr_events r) levels rates final). split; [exact R1|]. split; [exact (run_filter_good _ _ _ _ _ R1 G0)|]. split; [split; [reflexivity|]; split; [exact R2|]; split; [exact R3|]; exact R5|exact R4]. }
  assert (KEEP : forall r o, shows r o -> run_good k r -> exists next, keep_events k r = Ok next /\ kept_events prune limit (o_levels o) (o_rates o) (o_events o) next).
  { intros r o (S1 & S2 & S3 & _) G. destruct (kept_spec k r _ _ _ _ S2 S3 KP KM) as [C1 C2]. assert (LR : List.length (o_rates o) = List.length zs).
    { apply (f_equal (@List.length fl)) in S3. unfold CodsKalman.rate in S3. rewrite !map_length in S3. destruct G as [G _]. rewrite K1, map_length in G. lia. }
    destruct (C2 ltac:(lia)) as (next & E). exists next. split; [exact E|]. rewrite <- S1. apply C1. exact E. }
  assert (CHAIN : forall rs r o a b ce, shows r o -> run_good k r -> reruns k r rs -> tracked (pn * pn) R med (ks_soiling k) ((l, s), (b * b, 0, a * a)) zs ce (o_events o) (o_levels o) (o_rates o) (o_cov o) ->
    exists os final, List.length os = List.length rs /\ shows (List.last rs r) final /\ run_good k (List.last rs r) /\ fitted (pn * pn) R med (ks_soiling k) (l, s) zs prune limit b a ce (os ++ [final])).
  { induction rs as [|r' rs IH]; intros r o a0 b0 ce S G RR T.
    - exists [], o. split; [reflexivity|]. split; [exact S|]. split; [exact G|]. cbn [app fitted]. split; [exact T|left; reflexivity].
    - destruct RR as (next & C1 & C2 & C3 & C4). destruct (KEEP r o S G) as (next' & N1 & N2). rewrite N1 in C1. injection C1 as ->. pose proof S as (S1 & _ & _ & S4 & S5 & S6 & S7). rewrite S4, S5 in C3.
      pose proof (keep_good _ _ _ N1 G) as GC. destruct (STEP _ _ _ (positive_nonzero _ S7) (positive_nonzero _ S6) GC) as (r1 & o1 & E1 & G1 & SH1 & T1). assert (r1 = r') as -> by congruence.
      destruct (IH r' o1 _ _ _ SH1 G1 C4 T1) as (os & final & O1 & O2 & O3 & O4). exists (o :: os), final. split; [cbn; rewrite O1; reflexivity|].
      assert (EQ : List.last (r' :: rs) r = List.last rs r') by (clear; destruct rs as [|x rs]; [reflexivity|]; change (List.last (x :: rs) r = List.last (x :: rs) r'); revert x; induction rs as [|y rs IH]; intros; [reflexivity|apply IH]).
      rewrite EQ. split; [exact O2|]. split; [exact O3|]. cbn [app fitted]. split; [exact T|]. right. exists next. split; [exact N2|]. split; [rewrite <- S1; exact C2|exact O4]. }
  destruct (first_model (map fl_of zs) p (fl_of_noinf zs)) as (FF1 & FF2 & _). rewrite map_length in FF2.
  split.
  - intros fr E. unfold run in E. destruct (fit_runs _ _ _ _ _ _ _ _ _ _ _ _ _ _ E) as (ce & r & rs & EF & ERUN & RR & LR & EL & ERT & EV & FX). fold k in ERUN, RR, FX.
    pose proof (first_good _ _ _ EF) as GF. assert (GK : good (List.length (ks_zs k)) ce) by (rewrite K1; exact GF).
    destruct (STEP _ _ _ Ha Hb GK) as (r1 & o & E1 & G1 & S1 & T1). assert (r1 = r) as -> by congruence. destruct (CHAIN rs r o _ _ _ S1 G1 RR T1) as (os & final & O1 & O2 & O3 & O4).
    exists med, l, s, (ks_soiling k), ce, os, final. split; [exact LM|]. split; [exact NM|]. split; [exact SL|]. split; [intros i; rewrite K6, true_rows_In; apply (soiling_detection_spec ffill (qz 5)); apply fl_of_noinf|].
    split; [apply FF1; exact EF|]. split; [exact O4|]. split; [lia|]. pose proof O2 as (P1 & P2 & P3 & _). split.
    + intros X. destruct (KEEP _ _ O2 O3) as (next & N1 & N2). rewrite FX in N1 by lia. injection N1 as <-. rewrite P1 in N2. exact N2.
    + split; [rewrite EL; exact P2|]. split; [rewrite ERT; exact P3|]. intros i Hi. rewrite <- P1. apply EV. rewrite map_length. exact Hi.
  - intros HP I100 IF. destruct (kalman_stops fuel (map fl_of zs) (Fin pn) (Fin b) (Fin a) (Fin limit) iterations (Fin prune) renorm perfect p clip ffill I100 IF) as (x & X & _). unfold run.
    destruct x as [fr|e]; [exists fr; exact X|]. exfalso. unfold kalman_filter_for_SR in X. destruct (FF2 HP ltac:(lia)) as (first & EF). rewrite EF in X. cbv zeta in X. fold k in X.
    pose proof (first_good _ _ _ EF) as GF. assert (GK : good (List.length (ks_zs k)) first) by (rewrite K1; exact GF). destruct (STEP _ _ _ Ha Hb GK) as (r & o & E1 & G1 & S1 & T1). rewrite E1 in X.
    assert (NR : forall fuel counter r o ratio rates e, shows r o -> run_good k r -> prune_loop fuel k iterations counter r ratio rates <> Some (Raise e)).
    { clear - STEP KEEP. induction fuel as [|fuel IH]; intros counter r o ratio rates e S G; cbn [prune_loop]; destruct (counter <? iterations)%nat; try discriminate.
      destruct (KEEP r o S G) as (next & N1 & N2). rewrite N1. destruct (same_events (kr_events r) next).
      - destruct (ratio_and_rates k r rates) as [ra rt]. exact (IH 100%nat r o ra rt e S G).
      - pose proof S as (S1 & _ & _ & S4 & S5 & S6 & S7). rewrite S4, S5. destruct (STEP _ _ next (positive_nonzero _ S7) (positive_nonzero _ S6) (keep_good _ _ _ N1 G)) as (r1 & o1 & E1 & G1 & SH1 & _). rewrite E1.
        destruct (ratio_and_rates k r1 rates) as [ra rt]. exact (IH (Datatypes.S counter) r1 o1 ra rt e SH1 G1). }
    destruct (prune_loop fuel k iterations 0 r (map (fun _ => NaN) (map fl_of zs)) None) as [[[[r' ra] rt]|e']|] eqn:EP; try discriminate X. exact (NR _ _ _ _ _ _ _ S1 G1 EP).
Qed.
