(** The whole fit, the events kept between the runs and the events to begin with. *)

From Coq Require Import QArith Qcanon List ZArith Bool Arith Lia Permutation Sorted String.
From Verif.Base Require Import QcExtra ISort Quantile Fl TimeSeries Calendar Rolling.
From Verif.Spec Require Import Stats Theil Filters Soiling Cods TrackingSetup Tracking.
From Verif.Model Require Import Soiling CodsTools CodsKalman.
From Verif.Proofs Require Import FlP StatsP FiltersP FiltersP2 SoilP SoilP13 CodsP CodsP2 CodsP3 CodsP7 KalP1 KalP2 KalP3 KalP4.
Import ListNotations.
Open Scope list_scope.
Open Scope Qc_scope.

Lemma fl_of_noinf : forall zs, noinf (map fl_of zs).
Proof. intros zs x I. apply in_map_iff in I. destruct I as ([q|] & <- & _); split; discriminate. Qed.

(** The runs of one fit. *)
Fixpoint reruns (k : kalman_setup) (r : kalman_run) (rs : list kalman_run) : Prop :=
  match rs with
  | [] => True
  | r' :: rs' => exists ce, keep_events k r = Ok ce /\ ce <> kr_events r /\ run_filter k (kr_rate_std r) (kr_zs_std r) ce = Ok r' /\ reruns k r' rs'
  end.
Lemma prune_runs : forall fuel k iterations counter r ratio rates r' ratio' rates',
  prune_loop fuel k iterations counter r ratio rates = Some (Ok (r', ratio', rates')) ->
  exists rs, reruns k r rs /\ r' = List.last rs r /\ (counter <= iterations -> List.length rs + counter <= iterations)%nat /\
  ((List.length rs + counter < iterations)%nat -> keep_events k r' = Ok (kr_events r')).
Proof.
  induction fuel as [|fuel IH]; intros k iterations counter r ratio rates r' ratio' rates' E; cbn [prune_loop] in E;
    destruct (Nat.ltb_spec counter iterations) as [L|L]; try discriminate E;
    try (injection E as <- _ _; exists []; repeat split; cbn; intros; lia).
  destruct (keep_events k r) as [ce|e] eqn:EK; [|discriminate E]. unfold same_events in E. destruct (list_eq_dec Nat.eq_dec (kr_events r) ce) as [S|S].
  - destruct (ratio_and_rates k r rates) as [ra rt].
    assert (G : forall fuel ra rt, prune_loop fuel k iterations 100 r ra rt = Some (Ok (r', ratio', rates')) -> r' = r).
    { clear - EK S. induction fuel as [|fuel IH]; intros ra rt E; cbn [prune_loop] in E; destruct (Nat.ltb_spec 100 iterations) as [L|L]; try discriminate E; try (injection E as <- _ _; reflexivity).
      rewrite EK in E. unfold same_events in E. destruct (list_eq_dec Nat.eq_dec (kr_events r) ce) as [_|C]; [|contradiction]. destruct (ratio_and_rates k r rt) as [ra' rt']. exact (IH _ _ E). }
    exists []. split; [exact I|]. rewrite (G _ _ _ E). split; [reflexivity|]. split; [cbn; lia|]. intros _. rewrite EK, S. reflexivity.
  - destruct (run_filter _ _ _ _) as [r1|e] eqn:EF; [|discriminate E]. destruct (ratio_and_rates k r1 rates) as [ra rt]. destruct (IH _ _ _ _ _ _ _ _ _ E) as (rs & R1 & R2 & R3 & R4).
    exists (r1 :: rs). split; [exists ce; repeat split; try assumption; congruence|]. split.
    + rewrite R2. destruct rs as [|x rs]; [reflexivity|]. cbn [List.last]. clear. revert x. induction rs as [|y rs IH]; intros; [reflexivity|apply IH].
    + cbn [List.length]. split; [intros _; specialize (R3 ltac:(lia)); lia|]. intros H. apply R4. lia.
Qed.
Theorem fit_runs : forall fuel zs pn zstd rstd mr iterations prune renorm perfect p clip ffill fr,
  kalman_filter_for_SR fuel zs pn zstd rstd mr iterations prune renorm perfect p clip ffill = Some (Ok fr) ->
  let k := kalman_setup_of zs ffill pn prune mr renorm perfect clip in
  exists ce r rs, first_events zs p = Ok ce /\ run_filter k rstd zstd ce = Ok r /\ reruns k r rs /\ (List.length rs <= iterations)%nat /\
  let final := List.last rs r in
  k_level fr = level final /\ k_rate fr = rate final /\ (forall i, (i < List.length zs)%nat -> (nth_error (k_events fr) i = Some true <-> In i (kr_events final))) /\
  ((List.length rs < iterations)%nat -> keep_events k final = Ok (kr_events final)).
Proof.
  intros fuel zs pn zstd rstd mr iterations prune renorm perfect p clip ffill fr E k. unfold kalman_filter_for_SR in E. destruct (first_events zs p) as [ce|e] eqn:EE; [|discriminate E]. fold k in E. cbv zeta in E.
  destruct (run_filter k rstd zstd ce) as [r|e] eqn:ER; [|discriminate E]. destruct (prune_loop fuel k iterations 0 r _ None) as [[[[r' ratio] rates]|e]|] eqn:EP; try discriminate E.
  destruct (prune_runs _ _ _ _ _ _ _ _ _ _ EP) as (rs & R1 & R2 & R3 & R4). exists ce, r, rs. split; [reflexivity|]. split; [exact ER|]. split; [exact R1|]. split; [specialize (R3 ltac:(lia)); lia|].
  cbv zeta. rewrite <- R2. injection E as <-. cbn [k_level k_rate k_events]. split; [reflexivity|]. split; [reflexivity|]. split; [|intros H; apply R4; lia].
  intros i H. rewrite (map_nth_error (fun i => member i (kr_events r')) i (seq 0 (List.length zs)) (d := i)).
  - split; [intros C; injection C as C; apply member_In; exact C|intros C; f_equal; apply member_In; exact C].
  - rewrite (nth_error_nth' (seq 0 (List.length zs)) 0%nat) by (rewrite seq_length; exact H). rewrite seq_nth by exact H. reflexivity.
Qed.

(** ** Every run *)
Lemma true_rows_range : forall b, Forall (fun j => (j < List.length b)%nat) (true_rows b).
Proof. intros b. apply Forall_forall. intros x H. apply filter_In in H. destruct H as [H _]. apply in_seq in H. lia. Qed.
Lemma soiling_rows : forall ffill tuner zs, List.length (soiling_detection ffill tuner zs) = List.length zs.
Proof. intros. unfold soiling_detection. rewrite map_length, diffs_length, centered_length, fill_length. reflexivity. Qed.
Lemma true_rows_In : forall b i, In i (true_rows b) <-> nth_error b i = Some true.
Proof.
  intros b i. unfold true_rows. rewrite filter_In, in_seq. split.
  - intros [H E]. rewrite (nth_error_nth' b false) by lia. congruence.
  - intros E. split; [split; [lia|]; apply nth_error_Some; congruence|]. apply nth_error_nth. exact E.
Qed.

Definition number (x : fl) : Qc := match x with Fin q => q | _ => 0 end.
Lemma unzip : forall (xs : list motion), combine (map fst xs) (map snd xs) = xs.
Proof. induction xs as [|[a b] xs IH]; [reflexivity|]. cbn. rewrite IH. reflexivity. Qed.
(** All rows lie between two neighbouring borders, or are the last one. *)
Lemma covered : forall bs n i, In 0%nat bs -> In (n - 1)%nat bs -> (i < n - 1)%nat -> exists a e, next_to bs a e /\ (a <= i < e)%nat.
Proof.
  intros bs n i I0 IN H.
  assert (LO : exists a, In a bs /\ (a <= i)%nat /\ forall b, In b bs -> (b <= a \/ i < b)%nat).
  { clear IN. induction i as [|i IH]; [exists 0%nat; repeat split; auto; intros; lia|]. destruct (in_dec Nat.eq_dec (S i) bs) as [J|J]; [exists (S i); repeat split; auto; intros; lia|].
    destruct (IH ltac:(lia)) as (a & A1 & A2 & A3). exists a. repeat split; auto. intros b B. destruct (A3 b B); [left; assumption|]. destruct (Nat.eq_dec b (S i)); [congruence|lia]. }
  destruct LO as (a & A1 & A2 & A3).
  assert (HI : forall d, exists e, (In e bs /\ (i < e <= i + S d)%nat /\ forall b, In b bs -> (b <= i \/ e <= b)%nat) \/ (e = O /\ forall b, In b bs -> (b <= i \/ i + S d < b)%nat)).
  { induction d as [|d (e & [IH|[_ IH]])].
    - destruct (in_dec Nat.eq_dec (S i) bs) as [J|J]; [exists (S i); left; repeat split; auto; try lia; intros; lia|]. exists O. right. split; [reflexivity|]. intros b B. destruct (Nat.eq_dec b (S i)); [congruence|lia].
    - exists e. left. destruct IH as (E1 & E2 & E3). repeat split; auto; lia.
    - destruct (in_dec Nat.eq_dec (i + S (S d))%nat bs) as [J|J]; [exists (i + S (S d))%nat; left; repeat split; auto; try lia; intros b B; destruct (IH b B); lia|]. exists O. right. split; [reflexivity|]. intros b B. destruct (IH b B); [lia|]. destruct (Nat.eq_dec b (i + S (S d))); [congruence|lia]. }
  destruct (HI (n - 2 - i)%nat) as (e & [(E1 & E2 & E3)|[_ E]]); [|exfalso; specialize (E (n - 1)%nat IN); lia].
  exists a, e. split; [|lia]. split; [exact A1|]. split; [exact E1|]. split; [lia|]. intros b B. destruct (A3 b B); [left; assumption|]. destruct (E3 b B); lia.
Qed.
Lemma rows_finite : forall {A} (l : list fl) a e (f : A -> Qc) xs i, rows a e l = map (fun x => Fin (f x)) xs -> (a <= i < e)%nat -> (e <= List.length l)%nat -> exists q, nth i l NaN = Fin q.
Proof.
  intros A l a e f xs i E H L. assert (LX : List.length xs = (e - a)%nat) by (rewrite <- (rows_length a e l L), E, map_length; reflexivity).
  assert (G := rows_nth a e l (i - a)%nat NaN ltac:(lia)). rewrite E in G. replace (a + (i - a))%nat with i in G by lia. rewrite <- G.
  destruct xs as [|x xs]; [cbn in LX; lia|]. exists (f (nth (i - a) (x :: xs) x)). rewrite (nth_indep _ NaN (Fin (f x))) by (rewrite map_length; lia). apply (map_nth (fun x => Fin (f x))).
Qed.
Lemma definite_parts : forall C, definite C -> 0 < fst (fst C) /\ 0 < snd C.
Proof.
  intros [[p c] q] D. pose proof (form_pos (p, c, q) 0 1 D ltac:(right; discriminate)) as FP. cbv beta iota in FP. destruct D as [D1 _]. split; [exact D1|].
  replace (p * 0 * 0 + qz 2 * c * 0 * 1 + q * 1 * 1) with q in FP by ring. exact FP.
Qed.
Theorem run_tracked : forall k zs med soiling l s v R a b ce,
  ks_zs k = map fl_of zs -> ks_noise k = noise_of v R -> ks_rm7 k = map Fin med -> ks_soiling k = soiling -> ks_intercept k = Fin l -> ks_slope k = Fin s ->
  0 < v -> 0 < R -> a <> 0 -> b <> 0 -> zs <> [] -> List.length med = List.length zs -> Forall (fun j => (j < List.length zs)%nat) (ce ++ soiling) ->
  exists r levels rates final, run_filter k (Fin a) (Fin b) ce = Ok r /\ level r = map Fin levels /\ rate r = map Fin rates /\
  tracked v R med soiling ((l, s), (b * b, 0, a * a)) zs ce (kr_events r) levels rates final /\
  kr_zs_std r = Fin (fst (fst final)) /\ kr_rate_std r = Fin (snd final) /\ 0 < fst (fst final) /\ 0 < snd final.
Proof.
  intros k zs med soiling l s v R a b ce K1 K2 K3 K4 K5 K6 Hv HR Ha Hb NE LM F.
  destruct (run_model k zs med soiling l s v R a b ce K1 K2 K3 K4 K5 K6 Hv HR Ha Hb NE LM F) as (nows & us & events & r & H). cbv zeta in H. destruct H as (PS & H0 & ER & EL & EZ & ERT & BP & LL & LR).
  set (n := List.length zs) in *. set (start := ((l, s), (b * b, 0, a * a)) : motion * cov) in *. assert (NN : (0 < n)%nat) by (unfold n; destruct zs; [congruence|cbn; lia]).
  assert (LS : List.length (kr_states r) = n).
  { pose proof ER as E. unfold run_filter in E. destruct (forward_pass _ _ _ _ _ _) as [[states ce']|] eqn:EF; [|discriminate E]. cbn [bind] in E. destruct (smooth_results _ _ _ _) as [sm|] eqn:ES; [|discriminate E]. cbn [bind] in E.
    destruct (rev states); [discriminate E|]. injection E as <-. cbn [kr_states]. rewrite (smooth_from_length _ _ _ _ _ ES). unfold forward_pass in EF. rewrite K1, K2, K3, K4, K5, K6 in EF.
    clear - EF. unfold n. rewrite <- (map_length fl_of zs). revert EF. generalize (List.length (map fl_of zs)) at 1. generalize (map fl_of zs). intros l0 m. generalize (initial_state (Fin s) (Fin l) (Fin a) (Fin b)) ce 0%nat. revert states ce'.
    induction l0 as [|z l0 IH]; intros states ce' st ce0 i EF; cbn [forward_from] in EF; [injection EF as <- _; reflexivity|].
    match type of EF with (let '(_, _) := ?X in _) = _ => destruct X as [s1 ce1] end. match type of EF with bind ?X _ = _ => destruct X as [s2|] end; [|discriminate EF]. cbn [bind] in EF.
    match type of EF with bind ?X _ = _ => destruct X as [[ss cc]|] eqn:EE end; [|discriminate EF]. cbn [bind fst snd] in EF. injection EF as <- _. cbn. rewrite (IH _ _ _ _ _ EE). reflexivity. }
  assert (L1 : List.length (level r) = n) by (unfold level; rewrite map_length; exact LS). assert (L2 : List.length (rate r) = n) by (unfold rate; rewrite map_length; exact LS).
  set (bs := kr_events r ++ [0%nat; (n - 1)%nat] ++ soiling) in *.
  assert (FB : forall j, In j bs -> (j < n)%nat).
  { intros j J. apply in_app_or in J. destruct J as [J|[<-|[<-|J]]]; try lia.
    - assert (FE : Forall (fun j => (j < n)%nat) (List.last events [])) by (apply (events_rows _ _ _ _ _ _ _ _ _ PS); rewrite H0; apply Forall_app in F; apply F). rewrite <- EL in FE. rewrite Forall_forall in FE. exact (FE j J).
    - apply Forall_app in F. destruct F as [_ F]. rewrite Forall_forall in F. exact (F j J). }
  assert (I0 : In 0%nat bs) by (unfold bs; apply in_or_app; right; left; reflexivity). assert (IN : In (n - 1)%nat bs) by (unfold bs; apply in_or_app; right; right; left; reflexivity).
  assert (FIN : forall i, (i < n)%nat -> (exists q, nth i (level r) NaN = Fin q) /\ (exists q, nth i (rate r) NaN = Fin q)).
  { intros i Hi. destruct (Nat.eq_dec i (n - 1)) as [->|N1].
    - split; eexists.
      + assert (G := rows_nth (n - 1) n (level r) 0 NaN ltac:(lia)). rewrite LL, Nat.add_0_r in G. symmetry. exact G.
      + assert (G := rows_nth (n - 1) n (rate r) 0 NaN ltac:(lia)). rewrite LR, Nat.add_0_r in G. symmetry. exact G.
    - destruct (covered bs n i I0 IN ltac:(lia)) as (p & e & NT & PE). destruct (BP p e NT) as (xs & _ & X1 & X2). assert (EN : (e < n)%nat) by (apply FB; apply NT).
      split; eapply rows_finite; eauto; lia. }
  assert (NUM : forall l0, List.length l0 = n -> (forall i, (i < n)%nat -> exists q, nth i l0 NaN = Fin q) -> l0 = map Fin (map number l0)).
  { intros l0 L0 H. rewrite map_map. rewrite <- (map_id l0) at 1. apply map_ext_in. intros x J. apply In_nth_error in J. destruct J as (i & E). destruct (H i ltac:(rewrite <- L0; apply nth_error_Some; congruence)) as (q & Q). rewrite (nth_error_nth l0 i NaN E) in Q. rewrite Q. reflexivity. }
  exists r, (map number (level r)), (map number (rate r)), (snd (nth (n - 1) nows start)). split; [exact ER|]. split; [apply NUM; [exact L1|intros i Hi; apply (FIN i Hi)]|]. split; [apply NUM; [exact L2|intros i Hi; apply (FIN i Hi)]|].
  assert (PO : 0 < fst (fst (snd (nth (n - 1) nows start))) /\ 0 < snd (snd (nth (n - 1) nows start))).
  { destruct PS as (_ & _ & _ & PS). fold n in PS. destruct (PS (n - 1)%nat ltac:(lia)) as [(D & _) _]. apply definite_parts. exact D. }
  split; [|split; [exact EZ|]; split; [exact ERT|exact PO]].
  exists nows, us, events. cbv zeta. fold n. split; [exact PS|]. split; [exact H0|]. pose proof PS as (_ & _ & L3 & _). fold n in L3. split; [rewrite EL; transitivity (List.last (firstn (S n) events) []); [symmetry; apply last_firstn; lia|f_equal; rewrite <- L3; apply firstn_all]|]. split; [reflexivity|].
  split; [rewrite map_length; exact L1|]. split; [rewrite map_length; exact L2|]. split.
  - intros i e NT. destruct (BP i e NT) as (xs & B & X1 & X2). rewrite !rows_map, X1, X2, !map_map. replace (combine _ _) with xs by (symmetry; exact (unzip xs)). exact B.
  - split.
    + assert (G := rows_nth (n - 1) n (level r) 0 NaN ltac:(lia)). rewrite LL, Nat.add_0_r in G. change 0 with (number NaN). rewrite map_nth, <- G. reflexivity.
    + assert (G := rows_nth (n - 1) n (rate r) 0 NaN ltac:(lia)). rewrite LR, Nat.add_0_r in G. change 0 with (number NaN). rewrite map_nth, <- G. reflexivity.
Qed.

(** ** The whole fit *)
Definition tracking (k : kalman_setup) (zs : list (option Qc)) (med : list Qc) (l s v R : Qc) (r : kalman_run) : Prop :=
  exists a b ce levels rates final, a <> 0 /\ b <> 0 /\ run_filter k (Fin a) (Fin b) ce = Ok r /\ level r = map Fin levels /\ rate r = map Fin rates /\
  tracked v R med (ks_soiling k) ((l, s), (b * b, 0, a * a)) zs ce (kr_events r) levels rates final /\
  kr_zs_std r = Fin (fst (fst final)) /\ kr_rate_std r = Fin (snd final) /\ 0 < fst (fst final) /\ 0 < snd final.
Lemma positive_nonzero : forall q : Qc, 0 < q -> q <> 0.
Proof. intros q H C. rewrite C in H. discriminate H. Qed.
Theorem fit_model : forall fuel zs pn b a mr iterations prune renorm perfect p clip ffill fr R j7 q7 jn,
  kalman_filter_for_SR fuel (map fl_of zs) (Fin pn) (Fin b) (Fin a) mr iterations prune renorm perfect p clip ffill = Some (Ok fr) ->
  pn <> 0 -> a <> 0 -> b <> 0 ->
  f_R (ks_noise (kalman_setup_of (map fl_of zs) ffill (Fin pn) prune mr renorm perfect clip)) = Fin R -> 0 < R ->
  median_at ffill 7 (map fl_of zs) j7 q7 -> (Nat.min 13 (List.length zs - 1) <= jn)%nat -> (exists q, nth_error zs jn = Some (Some q)) ->
  exists ds med l s soiling a' b' first last levels rates final,
  from_medians ffill (map fl_of zs) ds /\ sample_variance ds R /\
  List.length med = List.length zs /\ (forall i, (i < List.length zs)%nat -> near_median ffill 7 (map fl_of zs) i (nth i med 0)) /\
  starting_line (map fl_of zs) l s /\ (forall i, In i soiling <-> downward_shift ffill (qz 5) (map fl_of zs) i) /\ a' <> 0 /\ b' <> 0 /\
  tracked (pn * pn) R med soiling ((l, s), (b' * b', 0, a' * a')) zs first last levels rates final /\
  k_level fr = map Fin levels /\ k_rate fr = map Fin rates /\ forall i, (i < List.length zs)%nat -> (nth_error (k_events fr) i = Some true <-> In i last).
Proof.
  intros fuel zs pn b a mr iterations prune renorm perfect p clip ffill fr R j7 q7 jn E Hpn Ha Hb ER HR M7 JN (qn & QN).
  destruct (fit_runs _ _ _ _ _ _ _ _ _ _ _ _ _ _ E) as (ce & r & rs & EF & ERUN & RR & _ & EL & ERT & EV & _).
  set (k := kalman_setup_of (map fl_of zs) ffill (Fin pn) prune mr renorm perfect clip) in *.
  destruct (setup_model (map fl_of zs) ffill pn prune mr renorm perfect clip j7 q7 jn R (fl_of_noinf zs) ER M7) as (med & s & l & ds & K1 & K2 & FM & SV & K3 & LM & NM & K4 & K5 & SL & K6).
  { rewrite map_length. exact JN. }
  { exists qn. rewrite (map_nth_error fl_of jn zs QN). reflexivity. }
  fold k in K1, K2, K3, K4, K5, K6. rewrite map_length in LM, NM.
  assert (NE : zs <> []) by (intros C; rewrite C in QN; destruct jn; discriminate QN).
  assert (Hv : 0 < pn * pn). { destruct (Qclt_le_dec 0 (pn * pn)) as [C|C]; [exact C|]. exfalso. assert (0 <= pn * pn) by qnra. assert (pn * pn = 0) as Z by (apply Qcle_antisym; assumption). apply Qcmult_integral in Z. tauto. }
  assert (FS : Forall (fun j => (j < List.length zs)%nat) (ks_soiling k)) by (rewrite K6; pose proof (true_rows_range (soiling_detection ffill (fz 5) (map fl_of zs))) as T; rewrite soiling_rows, map_length in T; exact T).
  assert (STEP : forall a b ce r, a <> 0 -> b <> 0 -> good (List.length (ks_zs k)) ce -> run_filter k (Fin a) (Fin b) ce = Ok r -> tracking k zs med l s (pn * pn) R r).
  { intros a0 b0 ce0 r0 A0 B0 G0 E0. destruct (run_tracked k zs med (ks_soiling k) l s (pn * pn) R a0 b0 ce0 K1 K2 K3 eq_refl K5 K4 Hv HR A0 B0 NE LM) as (r1 & levels & rates & final & R1 & R2).
    { apply Forall_app. split; [|exact FS]. destruct G0 as [_ G0]. rewrite K1, map_length in G0. exact G0. }
    assert (r1 = r0) as -> by congruence. exists a0, b0, ce0, levels, rates, final. split; [exact A0|]. split; [exact B0|]. split; [exact R1|]. exact R2. }
  assert (ALL : forall rs r, tracking k zs med l s (pn * pn) R r -> run_good k r -> reruns k r rs -> tracking k zs med l s (pn * pn) R (List.last rs r)).
  { clear - STEP. induction rs as [|r' rs IH]; intros r T G RR; [exact T|]. destruct RR as (ce & C1 & _ & C2 & C3).
    destruct T as (a0 & b0 & ce0 & levels & rates & final & _ & _ & _ & _ & _ & _ & Z1 & Z2 & P1 & P2). rewrite Z1, Z2 in C2. pose proof (keep_good _ _ _ C1 G) as GC.
    specialize (STEP _ _ _ _ (positive_nonzero _ P2) (positive_nonzero _ P1) GC C2). specialize (IH r' STEP (run_filter_good _ _ _ _ _ C2 GC) C3).
    destruct rs as [|x rs]; [exact IH|]. replace (List.last (r' :: x :: rs) r) with (List.last (x :: rs) r'); [exact IH|]. clear. change (List.last (x :: rs) r' = List.last (x :: rs) r). revert x. induction rs as [|y rs IH]; intros; [reflexivity|apply IH]. }
  pose proof (first_good _ _ _ EF) as GF. assert (GK : good (List.length (ks_zs k)) ce) by (rewrite K1; exact GF).
  destruct (ALL rs r (STEP _ _ _ _ Ha Hb GK ERUN) (run_filter_good _ _ _ _ _ ERUN GK) RR) as (a' & b' & first & levels & rates & final & A' & B' & _ & TL & TR & TT & _).
  exists ds, med, l, s, (ks_soiling k), a', b', first, (kr_events (List.last rs r)), levels, rates, final.
  split; [exact FM|]. split; [exact SV|]. split; [exact LM|]. split; [exact NM|]. split; [exact SL|]. split; [intros i; rewrite K6, true_rows_In; apply (soiling_detection_spec ffill (qz 5)); apply fl_of_noinf|].
  split; [exact A'|]. split; [exact B'|]. split; [exact TT|]. split; [rewrite EL; exact TL|]. split; [rewrite ERT; exact TR|]. intros i Hi. apply EV. rewrite map_length. exact Hi.
Qed.
