(** Events kept between the runs, events to begin with, and the events of one pass. *)

From Coq Require Import QArith Qcanon List ZArith Bool Arith Lia Permutation Sorted String.
From Verif.Base Require Import QcExtra ISort Quantile Fl TimeSeries Calendar Rolling.
From Verif.Spec Require Import Stats Theil Filters Soiling Cods TrackingSetup Tracking.
From Verif.Model Require Import Soiling CodsTools CodsKalman.
From Verif.Proofs Require Import FlP StatsP FiltersP FiltersP2 SoilP SoilP13 CodsP CodsP2 CodsP3 CodsP7 KalP1 KalP2 KalP3 KalP4 KalP5.
Import ListNotations.
Open Scope list_scope.
Open Scope Qc_scope.

(** ** The week after an event *)
Lemma week_known : forall levels i, (i + 7 <= List.length levels)%nat -> exists m, week_after (map Fin levels) i = Fin m /\ week_from levels i m.
Proof.
  intros levels i H. set (w := firstn 7 (skipn i levels)). assert (LW : List.length w = 7%nat) by (unfold w; rewrite firstn_length, skipn_length; lia).
  assert (EW : map (fun d => noninf (at_row (map Fin levels) (i + d))) (seq 0 7) = map Fin w).
  { apply nth_ext with (d := NaN) (d' := Fin 0); [rewrite !map_length, seq_length; lia|]. intros d Hd. rewrite map_length, seq_length in Hd. rewrite map_nth.
    rewrite (nth_indep _ NaN (noninf (at_row (map Fin levels) (i + 0)))) by (rewrite map_length, seq_length; exact Hd). rewrite (map_nth (fun d => noninf (at_row (map Fin levels) (i + d))) (seq 0 7) 0%nat d), seq_nth by exact Hd.
    rewrite at_row_fin by lia. cbn [noninf]. f_equal. symmetry. unfold w. change (firstn 7 (skipn i levels)) with (firstn 7 (skipn i levels)). pose proof (rows_nth i (i + 7) levels d 0 ltac:(lia)) as G. unfold rows in G. replace (i + 7 - i)%nat with 7%nat in G by lia. exact G. }
  unfold week_after. rewrite EW. assert (existsb isnan (map Fin w) = false) as -> by (clear; induction w; [reflexivity|cbn; assumption]).
  exists (qmedian w). split; [|split; [exact H|]; fold w; apply qmedian_spec; intros C; rewrite C in LW; discriminate LW].
  assert (FV : finvals (map Fin w) = w) by (clear; induction w as [|x w IH]; [reflexivity|]; cbn; f_equal; exact IH).
  rewrite fmedian_noinf; [rewrite FV; reflexivity|intros x I; apply in_map_iff in I; destruct I as (y & <- & _); split; discriminate|rewrite FV; intros C; rewrite C in LW; discriminate LW].
Qed.
Lemma week_missing : forall levels i, (List.length levels < i + 7)%nat -> week_after (map Fin levels) i = NaN.
Proof.
  intros levels i H. unfold week_after. set (w := map _ (seq 0 7)). assert (existsb isnan w = true) as ->; [|reflexivity].
  apply existsb_exists. exists NaN. split; [|reflexivity]. unfold w. apply in_map_iff. exists 6%nat. split; [|apply in_seq; lia].
  unfold at_row. rewrite nth_overflow by (rewrite map_length; lia). reflexivity.
Qed.
Lemma kept_model : forall prune levels ce, ce <> [] ->
  exists kept, plausible prune levels ce kept /\
  bind (find_numeric_outliers (Fin prune) "lower" (map (week_after (map Fin levels)) ce)) (fun o =>
     match o with Lower low => Ok (map fst (filter (fun p => negb (snd p)) (combine ce low))) | _ => Ok ce end) = Ok kept.
Proof.
  intros prune levels ce NE. destruct (forallb (fun i => (i + 7 <=? List.length levels)%nat) ce) eqn:A.
  - assert (W : exists ms, Forall2 (week_from levels) ce ms /\ map (week_after (map Fin levels)) ce = map Fin ms).
    { clear NE. induction ce as [|i ce IH]; [exists []; split; [constructor|reflexivity]|]. cbn in A. apply andb_prop in A. destruct A as [A1 A2]. apply Nat.leb_le in A1. destruct (IH A2) as (ms & F & E).
      destruct (week_known levels i A1) as (m & Em & Wm). exists (m :: ms). split; [constructor; assumption|]. cbn [map]. rewrite Em, E. reflexivity. }
    destruct W as (ms & F & E). assert (NM : ms <> []) by (intros C; subst ms; inversion F; congruence). destruct (outliers_spec prune "lower" ms NM) as (up & low & _ & HL & EO). rewrite E, EO. cbn [String.eqb Ascii.eqb Bool.eqb bind].
    eexists. split; [|reflexivity]. left. exists ms. split; [exact F|]. exists (fun m => negb (low m)). split; [intros m; rewrite <- HL; destruct (low m); cbn; split; intros; congruence|].
    clear - F. induction F as [|i m ce ms _ F IH]; [reflexivity|]. cbn [combine map filter snd]. destruct (low m); cbn [negb map fst]; [exact IH|f_equal; exact IH].
  - assert (X : exists i, In i ce /\ (List.length levels < i + 7)%nat).
    { clear NE. induction ce as [|i ce IH]; [discriminate A|]. cbn in A. apply andb_false_iff in A. destruct A as [A|A]; [apply Nat.leb_gt in A; exists i; split; [left; reflexivity|lia]|]. destruct (IH A) as (j & J1 & J2). exists j. split; [right; exact J1|exact J2]. }
    destruct X as (i & I1 & I2). rewrite outliers_missing by (apply in_map_iff; exists i; split; [apply week_missing; exact I2|exact I1]). cbn [bind]. exists ce. split; [right; split; [exists i; auto|reflexivity]|].
    f_equal. clear. rewrite map_map. induction ce as [|x ce IH]; [reflexivity|]. cbn. f_equal. exact IH.
Qed.
Theorem keep_model : forall k r levels rates prune limit, level r = map Fin levels -> rate r = map Fin rates -> ks_prune k = Fin prune -> ks_max_rate k = Fin limit ->
  exists kept fast, (kr_events r = [] /\ kept = [] \/ kr_events r <> [] /\ plausible prune levels (kr_events r) kept) /\ too_fast limit rates fast /\
  let many := (2 <= List.length (filter (fun b => b) fast))%nat in
  (~ many -> keep_events k r = Ok kept) /\
  (many -> (9 <= List.length rates)%nat -> exists more out, collapsed 4 fast (map Fin rates) more /\ keep_events k r = Ok out /\ StronglySorted le out /\
     Permutation out (kept ++ filter (fun i => nth i more false) (seq 0 (List.length more)))) /\
  (many -> (List.length rates < 9)%nat -> keep_events k r = Raise ValueError).
Proof.
  intros k r levels rates prune limit EL ER EP EM. set (fast := map (fun x => qlt limit x) rates).
  assert (HF : map (fun x => fgt x (ks_max_rate k)) (rate r) = fast) by (rewrite ER, EM, map_map; apply map_ext; intros; reflexivity).
  assert (K : exists kept, (kr_events r = [] /\ kept = [] \/ kr_events r <> [] /\ plausible prune levels (kr_events r) kept) /\
    match kr_events r with [] => Ok (kr_events r) | _ :: _ => bind (find_numeric_outliers (ks_prune k) "lower" (map (week_after (level r)) (kr_events r))) (fun o =>
     match o with Lower low => Ok (map fst (filter (fun p => negb (snd p)) (combine (kr_events r) low))) | _ => Ok (kr_events r) end) end = Ok kept).
  { destruct (kr_events r) as [|c cs] eqn:EC; [exists []; split; [left; auto|reflexivity]|]. rewrite <- EC. destruct (kept_model prune levels (kr_events r) ltac:(rewrite EC; discriminate)) as (kept & P & E). exists kept.
    split; [right; split; [rewrite EC; discriminate|exact P]|]. rewrite EL, EP. exact E. }
  destruct K as (kept & KP & KE). exists kept, fast. split; [exact KP|]. split.
  { split; [unfold fast; apply map_length|]. intros i. unfold detected, fast. rewrite nth_error_map_some. destruct (nth_error rates i) as [q|]; [|split; [discriminate|intros (q & C & _); discriminate C]].
    split; [intros C; injection C as C; exists q; split; [reflexivity|apply qlt_spec; exact C]|intros (q' & C & L); injection C as <-; f_equal; apply qlt_spec; exact L]. }
  cbv zeta. assert (KK : keep_events k r = if (1 <? List.length (filter (fun b => b) fast))%nat then bind (collapse_cleaning_events 4 fast (rate r)) (fun more => Ok (isort Nat.leb (kept ++ filter (fun i => nth i more false) (seq 0 (List.length more))))) else Ok kept).
  { unfold keep_events. rewrite KE. cbn [bind]. rewrite HF. reflexivity. }
  assert (LF : List.length fast = List.length rates) by (unfold fast; apply map_length). rewrite KK. split; [|split].
  - intros N. destruct (Nat.ltb_spec 1 (List.length (filter (fun b => b) fast))); [lia|reflexivity].
  - intros M L. destruct (Nat.ltb_spec 1 (List.length (filter (fun b => b) fast))); [|lia]. rewrite ER.
    destruct (collapse_cleaning_events 4 fast (map Fin rates)) as [more|e] eqn:EC.
    + apply collapse_ok in EC; [|rewrite map_length; lia|lia|lia]. exists more. eexists. split; [exact EC|]. split; [reflexivity|]. split.
      * assert (G : StronglySorted (fun x y => Nat.leb x y = true) (isort Nat.leb (kept ++ filter (fun i => nth i more false) (seq 0 (List.length more))))) by (apply isort_sorted; [intros x y; destruct (Nat.leb_spec x y); [left; reflexivity|right; apply Nat.leb_le; lia]|intros x y z; rewrite !Nat.leb_le; lia]).
        clear - G. induction G as [|x l G IH FA]; constructor; [exact IH|]. eapply Forall_impl; [|exact FA]. intros y H. apply Nat.leb_le. exact H.
      * apply Permutation_sym, isort_perm.
    + exfalso. apply collapse_raises in EC; [|rewrite map_length; lia|lia|lia]. destruct EC as (_ & isl & se & I1 & I2 & AM). destruct (islands_In _ _ _ _ _ I1 se I2) as (S1 & S2). unfold all_missing in AM.
      destruct (nth_error (map Fin rates) (fst se)) as [x|] eqn:EX.
      * specialize (AM (fst se) x ltac:(lia) EX). subst x. rewrite nth_error_map_some in EX. destruct (nth_error rates (fst se)); discriminate EX.
      * apply nth_error_None in EX. rewrite map_length in EX. lia.
  - intros M L. destruct (Nat.ltb_spec 1 (List.length (filter (fun b => b) fast))); [|lia]. rewrite (collapse_short 4 fast (rate r)) by lia. reflexivity.
Qed.

(** ** Events to begin with *)
Lemma sorted_rows : forall b, StronglySorted lt (true_rows b).
Proof.
  intros b. unfold true_rows. apply sorted_filter. generalize 0%nat. generalize (List.length b). induction n as [|n IH]; intros k; cbn [seq]; constructor; [apply IH|]. apply Forall_forall. intros x H. apply in_seq in H. lia.
Qed.
Theorem first_given : forall zs b, (4 < List.length (true_rows b))%nat ->
  (List.length b = List.length zs -> exists ce, first_events zs (Some b) = Ok ce /\ StronglySorted lt ce /\ forall i, In i ce <-> detected b i) /\
  (List.length b <> List.length zs -> first_events zs (Some b) = Raise ValueError).
Proof.
  intros zs b H. unfold first_events. destruct (Nat.ltb_spec 4 (List.length (true_rows b))); [|lia]. split; intros L.
  - rewrite L, Nat.eqb_refl. exists (true_rows b). split; [reflexivity|]. split; [apply sorted_rows|]. intros i. apply true_rows_In.
  - destruct (Nat.eqb_spec (List.length b) (List.length zs)); [contradiction|reflexivity].
Qed.
Theorem first_detected : forall zs p, noinf zs -> match p with Some b => (List.length (true_rows b) <= 4)%nat | None => True end ->
  ((List.length zs < 11)%nat -> first_events zs p = Raise ValueError) /\
  ((11 <= List.length zs)%nat -> exists ev m out ce, (List.length ev = List.length zs /\ forall i, detected ev i <-> upward_shift true 9 (qf 1 2) zs i) /\ median_steps zs m /\
     collapsed 5 ev m out /\ first_events zs p = Ok ce /\ StronglySorted lt ce /\ forall i, In i ce <-> detected out i).
Proof.
  intros zs p N HP.
  assert (E : first_events zs p = let '(ce, rm9) := ce_detection true 9 (ff 1 2) zs in bind (collapse_cleaning_events 5 ce (diffs rm9)) (fun b => Ok (true_rows b))).
  { unfold first_events. destruct p as [b|]; [|reflexivity]. destruct (Nat.ltb_spec 4 (List.length (true_rows b))); [lia|reflexivity]. }
  rewrite E. clear E HP. pose proof (fun i => ce_detection_spec true 9 (qf 1 2) zs i N ltac:(lia)) as CE. change (ff 1 2) with (Fin (qf 1 2)).
  destruct (ce_detection true 9 (Fin (qf 1 2)) zs) as [ev rm] eqn:ED. cbn [fst] in CE.
  assert (ERM : rm = medians_of 9 (numbered (fill true zs))) by (unfold ce_detection in ED; injection ED as _ <-; reflexivity).
  assert (LM : List.length (diffs rm) = List.length zs) by (rewrite diffs_length, ERM, medians_length, numbered_length, fill_length; reflexivity).
  assert (LE : List.length ev = List.length zs) by (unfold ce_detection in ED; injection ED as <- _; rewrite map_length, diffs_length; unfold centered_medians; rewrite ?centered_length, ?fill_length; rewrite <- LM; rewrite diffs_length, ERM; reflexivity).
  assert (MS : median_steps zs (diffs rm)).
  { split; [exact LM|]. exists (numbered (fill true zs)). split; [apply filled_rows_ok; exact N|]. intros i x Ex. apply at_row_error in Ex. rewrite ERM in Ex. fold (deltas 9 (numbered (fill true zs))) in Ex.
    destruct (Nat.lt_ge_cases i (List.length (numbered (fill true zs)))) as [H|H].
    - destruct (deltas_row 9 (numbered (fill true zs)) ltac:(lia) i H) as [(d & Ed & Sd)|[Ed Sd]]; [left; exists d; split; [congruence|exact Sd]|right; split; [congruence|exact Sd]].
    - right. split; [unfold at_row in Ex; rewrite nth_overflow in Ex by (rewrite deltas_length; exact H); congruence|]. intros d Sd. apply step_at_range in Sd. lia. }
  split.
  - intros L. rewrite collapse_short by lia. reflexivity.
  - intros L. destruct (collapse_cleaning_events 5 ev (diffs rm)) as [out|e] eqn:EC.
    + apply collapse_ok in EC; [|lia|lia|lia]. exists ev, (diffs rm), out, (true_rows out). split; [split; assumption|]. split; [exact MS|]. split; [exact EC|]. split; [reflexivity|]. split; [apply sorted_rows|]. intros i. apply true_rows_In.
    + exfalso. apply collapse_raises in EC; [|lia|lia|lia]. destruct EC as (_ & isl & se & I1 & I2 & AM). destruct (islands_In _ _ _ _ _ I1 se I2) as (S1 & S2 & S3 & _).
      pose proof (S3 (fst se) ltac:(lia)) as D. apply CE in D. destruct D as (f & ds & q25 & q75 & d & Ff & _ & _ & _ & Sd & _). destruct MS as (_ & f' & Ff' & MS). rewrite (filled_rows_unique _ _ _ _ Ff Ff') in Sd.
      destruct (nth_error (diffs rm) (fst se)) as [x|] eqn:EX; [|apply nth_error_None in EX; lia]. pose proof (AM (fst se) x ltac:(lia) EX) as ->.
      destruct (MS _ _ EX) as [(d' & C & _)|[_ C]]; [discriminate C|exact (C d Sd)].
Qed.

(** ** The events of one pass *)
Lemma taken_length : forall i before after, taken_out i before after -> (List.length after <= List.length before)%nat /\ (In i before -> S (List.length after) = List.length before).
Proof.
  intros i before after T. destruct (in_dec Nat.eq_dec i before) as [I|I].
  - assert (P : Permutation before (i :: after)).
    { apply (Permutation_count_occ Nat.eq_dec). intros r. specialize (T r). unfold times in T. cbn [count_occ]. apply (count_occ_In Nat.eq_dec) in I. destruct (Nat.eq_dec i r) as [->|N].
      - destruct (Nat.eq_dec r r); [lia|congruence].
      - destruct (Nat.eq_dec r i); [congruence|lia]. }
    apply Permutation_length in P. cbn in P. split; [lia|intros _; lia].
  - assert (P : Permutation before after).
    { apply (Permutation_count_occ Nat.eq_dec). intros r. specialize (T r). unfold times in T. destruct (Nat.eq_dec r i) as [->|N]; [|lia]. apply (count_occ_not_In Nat.eq_dec) in I. lia. }
    apply Permutation_length in P. split; [lia|contradiction].
Qed.
Lemma put_length : forall j before after, put_in j before after -> List.length after = S (List.length before).
Proof.
  intros j before after T. assert (P : Permutation after (j :: before)).
  { apply (Permutation_count_occ Nat.eq_dec). intros r. specialize (T r). unfold times in T. cbn [count_occ]. destruct (Nat.eq_dec j r), (Nat.eq_dec r j); try congruence; lia. }
  apply Permutation_length in P. exact P.
Qed.
Lemma row_summary : forall n med R soiling i x before u after, row_events n med R soiling i x before u after ->
  (List.length after <= List.length before)%nat /\
  (forall j, In j after -> In j before \/ ((7 < i /\ i + 7 < n)%nat /\ j <> i /\ biggest_step med i j /\ 0 < step_into med j)) /\
  (forall j, In j before -> (j <= 7 \/ n <= j + 7)%nat -> In j after).
Proof.
  intros n med R soiling i x before u after RE. assert (KP : forall j, In j before -> (j <= 7 \/ n <= j + 7)%nat -> In j after).
  { intros j J B. destruct (Nat.eq_dec j i) as [->|N]; [|exact (row_keeps _ _ _ _ _ _ _ _ _ _ RE N J)]. destruct RE as [R1 _]. rewrite (proj2 (R1 ltac:(lia))). exact J. }
  destruct RE as [R1 R2].
  assert (TK : forall a, taken_out i before a -> (List.length a <= List.length before)%nat /\ forall j, In j a -> In j before).
  { intros a T. split; [apply (taken_length _ _ _ T)|]. intros j J. specialize (T j). apply (count_occ_In Nat.eq_dec). apply (count_occ_In Nat.eq_dec) in J. unfold times in T. destruct (Nat.eq_dec j i); lia. }
  assert (G : (List.length after <= List.length before)%nat /\ (forall j, In j after -> In j before \/ ((7 < i /\ i + 7 < n)%nat /\ j <> i /\ biggest_step med i j /\ 0 < step_into med j))); [|tauto].
  assert (SAME : after = before -> (List.length after <= List.length before)%nat /\ (forall j, In j after -> In j before \/ ((7 < i /\ i + 7 < n)%nat /\ j <> i /\ biggest_step med i j /\ 0 < step_into med j))) by (intros ->; split; [lia|intros; left; assumption]).
  assert (TAKE : taken_out i before after -> (List.length after <= List.length before)%nat /\ (forall j, In j after -> In j before \/ ((7 < i /\ i + 7 < n)%nat /\ j <> i /\ biggest_step med i j /\ 0 < step_into med j))) by (intros T; split; [apply TK, T|intros j J; left; apply (TK after T), J]).
  destruct (Nat.ltb_spec 7 i) as [A1|A1]; [|apply SAME, R1; lia]. destruct (Nat.ltb_spec (i + 7) n) as [A2|A2]; [|apply SAME, R1; lia].
  destruct (in_dec Nat.eq_dec i before) as [I1|I1]; [|destruct (in_dec Nat.eq_dec i soiling) as [I2|I2]; [|apply SAME, R1; tauto]].
  - destruct (R2 ltac:(tauto)) as (r & B & C1 & C2). destruct (Nat.eq_dec r i) as [E|E].
    + destruct (C1 (or_intror E)) as [D1 D2]. destruct (Qclt_le_dec R (qz 4 * ((nth (i + 3) med 0 - x) * (nth (i + 3) med 0 - x)))) as [Q|Q]; [apply SAME, D1, Q|apply TAKE, D2, Q].
    + destruct (C2 I1 E) as [_ C3]. destruct (Qclt_le_dec 0 (step_into med r)) as [P|P]; [|apply TAKE, C3]. destruct (in_dec Nat.eq_dec r before) as [J|J]; [apply TAKE, C3|].
      destruct C3 as (less & T & PI). pose proof (put_length _ _ _ PI). pose proof (proj2 (taken_length _ _ _ T) I1). split; [lia|]. intros j JA. destruct (Nat.eq_dec j r) as [->|NR]; [right; repeat split; auto; try lia; apply B; assumption|].
      left. apply (TK less T). specialize (PI j). apply (count_occ_In Nat.eq_dec). apply (count_occ_In Nat.eq_dec) in JA. unfold times in PI. destruct (Nat.eq_dec j r); [contradiction|lia].
  - destruct (R2 ltac:(tauto)) as (r & _ & C1 & _). destruct (C1 (or_introl I1)) as [D1 D2]. destruct (Qclt_le_dec R (qz 4 * ((nth (i + 3) med 0 - x) * (nth (i + 3) med 0 - x)))) as [Q|Q]; [apply SAME, D1, Q|apply TAKE, D2, Q].
Qed.
Theorem pass_events : forall v R med soiling start zs nows us events, pass v R med soiling start zs nows us events ->
  let n := List.length zs in let first := nth 0 events [] in let last := nth n events [] in
  (List.length last <= List.length first)%nat /\
  (forall j, In j last -> In j first \/ exists i, (7 < i /\ i + 7 < n)%nat /\ j <> i /\ biggest_step med i j /\ 0 < step_into med j) /\
  (forall j, In j first -> (j <= 7 \/ n <= j + 7)%nat -> In j last) /\
  (forall k, nth k us 0 <> 0 -> (7 < k /\ k + 7 < n)%nat /\ (In k last \/ In k soiling) /\
     exists before, nth k us 0 = nth (k + 3) med 0 - level_ahead (fst before) /\ In before nows /\ R < qz 4 * (nth k us 0 * nth k us 0)).
Proof.
  intros v R med soiling start zs nows us events PS. pose proof PS as (L1 & L2 & L3 & H). cbv zeta. set (n := List.length zs) in *.
  assert (G : forall k, (k <= n)%nat -> (List.length (nth k events []) <= List.length (nth 0 events []))%nat /\
    (forall j, In j (nth k events []) -> In j (nth 0 events []) \/ exists i, (7 < i /\ i + 7 < n)%nat /\ j <> i /\ biggest_step med i j /\ 0 < step_into med j) /\
    (forall j, In j (nth 0 events []) -> (j <= 7 \/ n <= j + 7)%nat -> In j (nth k events []))).
  { induction k as [|k IH]; intros K; [repeat split; auto|]. destruct (IH ltac:(lia)) as (I1 & I2 & I3). destruct (H k ltac:(lia)) as [_ RE]. destruct (row_summary _ _ _ _ _ _ _ _ _ RE) as (S1 & S2 & S3).
    split; [lia|]. split; [intros j J; destruct (S2 j J) as [J'|J']; [apply I2, J'|right; exists k; exact J']|]. intros j J B. apply S3; [apply I3; assumption|exact B]. }
  destruct (G n ltac:(lia)) as (G1 & G2 & G3). split; [exact G1|]. split; [exact G2|]. split; [exact G3|].
  intros k NZ. destruct (known_at_border _ _ _ _ _ _ _ _ _ PS k NZ) as [B1 B2]. fold n in B1. split; [exact B1|]. split.
  { replace (List.last events []) with (nth n events []) in B2; [exact B2|]. symmetry. transitivity (List.last (firstn (S n) events) []); [f_equal; rewrite <- L3; symmetry; apply firstn_all|apply last_firstn; lia]. }
  destruct (H k ltac:(lia)) as [_ [R1 R2]]. destruct k as [|k]; [lia|]. exists (nth k nows start).
  destruct (in_dec Nat.eq_dec (S k) (nth (S k) events [])) as [I1|I1].
  - destruct (R2 ltac:(tauto)) as (r & _ & C1 & C2). destruct (Nat.eq_dec r (S k)) as [E|E]; [|exfalso; apply NZ; exact (proj1 (C2 I1 E))]. destruct (C1 (or_intror E)) as [D1 D2].
    destruct (Qclt_le_dec R (qz 4 * ((nth (S k + 3) med 0 - level_ahead (fst (nth k nows start))) * (nth (S k + 3) med 0 - level_ahead (fst (nth k nows start)))))) as [Q|Q]; [|exfalso; apply NZ; exact (proj1 (D2 Q))].
    split; [exact (proj1 (D1 Q))|]. split; [apply nth_In; lia|]. rewrite (proj1 (D1 Q)). exact Q.
  - destruct (in_dec Nat.eq_dec (S k) soiling) as [I2|I2]; [|exfalso; apply NZ; apply R1; tauto]. destruct (R2 ltac:(tauto)) as (r & _ & C1 & _). destruct (C1 (or_introl I1)) as [D1 D2].
    destruct (Qclt_le_dec R (qz 4 * ((nth (S k + 3) med 0 - level_ahead (fst (nth k nows start))) * (nth (S k + 3) med 0 - level_ahead (fst (nth k nows start)))))) as [Q|Q]; [|exfalso; apply NZ; exact (proj1 (D2 Q))].
    split; [exact (proj1 (D1 Q))|]. split; [apply nth_In; lia|]. rewrite (proj1 (D1 Q)). exact Q.
Qed.
