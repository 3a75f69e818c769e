(** The forward pass and the smoother. *)

From Coq Require Import QArith Qcanon List ZArith Bool Arith Lia Permutation Sorted.
From Verif.Base Require Import QcExtra ISort Quantile Fl TimeSeries Calendar Rolling.
From Verif.Spec Require Import Stats Tracking.
From Verif.Model Require Import Soiling CodsTools CodsKalman.
From Verif.Proofs Require Import KalP1.
Import ListNotations.
Open Scope list_scope.
Open Scope Qc_scope.

Definition fl_of (x : option Qc) : fl := match x with Some q => Fin q | None => NaN end.
Definition noise_of (v R : Qc) : filter_noise := FN (white_noise (Fin v)) (Fin R).

(** ** Membership and removal *)
Lemma member_spec : forall k l, member k l = true <-> In k l.
Proof. intros k l. unfold member. rewrite existsb_exists. split; [intros (x & I & E); apply Nat.eqb_eq in E; congruence|intros I; exists k; split; [exact I|apply Nat.eqb_refl]]. Qed.
Lemma member_false : forall k l, member k l = false <-> ~ In k l.
Proof. intros k l. rewrite <- member_spec. destruct (member k l); split; intros; congruence. Qed.
Lemma remove_taken : forall i l, taken_out i l (remove_first i l).
Proof.
  intros i l r. unfold times. induction l as [|x l IH]; [destruct (Nat.eq_dec r i); reflexivity|]. cbn [remove_first]. destruct (Nat.eqb_spec x i) as [->|N].
  - cbn [count_occ]. destruct (Nat.eq_dec i r) as [->|N]; [destruct (Nat.eq_dec r r); [lia|congruence]|]. destruct (Nat.eq_dec r i); [congruence|reflexivity].
  - cbn [count_occ]. rewrite IH. destruct (Nat.eq_dec x r) as [->|N2]; destruct (Nat.eq_dec r i); try congruence; reflexivity.
Qed.
Lemma insort_put : forall j l, put_in j l (insort j l).
Proof.
  intros j l r. unfold times. induction l as [|x l IH]; cbn [insort].
  - cbn [count_occ]. destruct (Nat.eq_dec j r), (Nat.eq_dec r j); congruence.
  - destruct (j <? x)%nat; cbn [count_occ]; [destruct (Nat.eq_dec j r), (Nat.eq_dec r j); congruence|]. rewrite IH. destruct (Nat.eq_dec x r), (Nat.eq_dec r j); reflexivity.
Qed.
Lemma remove_not_in : forall i l, ~ In i l -> taken_out i l l.
Proof. intros i l N r. destruct (Nat.eq_dec r i) as [->|]; [|reflexivity]. unfold times. rewrite (proj1 (count_occ_not_In Nat.eq_dec l i) N). reflexivity. Qed.

(** ** The first largest value *)
Lemma argmax_from_spec : forall l best b i d, (b < i)%nat -> 
  exists m, argmax_from (Fin best) b i (map Fin l) = m /\
   ((m = b /\ forall k x, nth_error l k = Some x -> x <= best) \/
    ((i <= m < i + List.length l)%nat /\ best < nth (m - i) l d /\ forall k x, nth_error l k = Some x -> x <= nth (m - i) l d /\ ((i + k < m)%nat -> x < nth (m - i) l d))).
Proof.
  intros l. induction l as [|x l IH]; intros best b i d Hb; cbn [map argmax_from isnan].
  - exists b. split; [reflexivity|]. left. split; [reflexivity|]. intros [|k] x H; discriminate H.
  - cbn [orb]. change (flt (Fin best) (Fin x)) with (qlt best x). destruct (qlt best x) eqn:E.
    + qb. destruct (IH x i (S i) d ltac:(lia)) as (m & Em & [[-> H]|(H1 & H2 & H3)]).
      * exists i. split; [exact Em|]. right. rewrite Nat.sub_diag. cbn [nth List.length]. split; [lia|]. split; [exact E|]. intros [|k] y Hy; [injection Hy as <-; split; [apply Qcle_refl|lia]|].
        split; [exact (H k y Hy)|lia].
      * exists m. split; [exact Em|]. right. cbn [List.length]. split; [lia|]. replace (m - i)%nat with (S (m - S i)) by lia. cbn [nth]. split; [eapply Qclt_trans; eassumption|].
        intros [|k] y Hy; [injection Hy as <-; split; [apply Qclt_le_weak; exact H2|intros _; exact H2]|]. destruct (H3 k y Hy) as [A B]. split; [exact A|intros C; apply B; lia].
    + qb. destruct (IH best b (S i) d ltac:(lia)) as (m & Em & [[-> H]|(H1 & H2 & H3)]).
      * exists b. split; [exact Em|]. left. split; [reflexivity|]. intros [|k] y Hy; [injection Hy as <-; exact E|exact (H k y Hy)].
      * exists m. split; [exact Em|]. right. cbn [List.length]. split; [lia|]. replace (m - i)%nat with (S (m - S i)) by lia. cbn [nth]. split; [exact H2|].
        intros [|k] y Hy; [injection Hy as <-; split; [apply Qclt_le_weak|intros _]; eapply Qcle_lt_trans; eassumption|]. destruct (H3 k y Hy) as [A B]. split; [exact A|intros C; apply B; lia].
Qed.
Lemma argmax_spec : forall l, l <> [] -> (argmax (map Fin l) < List.length l)%nat /\
  forall k, (k < List.length l)%nat -> nth k l 0 <= nth (argmax (map Fin l)) l 0 /\ ((k < argmax (map Fin l))%nat -> nth k l 0 < nth (argmax (map Fin l)) l 0).
Proof.
  intros [|x l] N; [congruence|]. clear N. change (argmax (map Fin (x :: l))) with (argmax_from (Fin x) 0 1 (map Fin l)).
  destruct (argmax_from_spec l x 0 1 0 ltac:(lia)) as (m & -> & [[-> H]|(H1 & H2 & H3)]); cbn [List.length].
  - split; [lia|]. intros [|k] Hk; cbn [nth]; [split; [apply Qcle_refl|lia]|]. split; [|lia]. apply (H k). apply nth_error_nth'. lia.
  - split; [lia|]. intros k Hk. replace (nth m (x :: l) 0) with (nth (m - 1) l 0) by (destruct m; [lia|]; cbn [nth]; rewrite Nat.sub_succ, Nat.sub_0_r; reflexivity).
    destruct k as [|k]; cbn [nth]; [split; [apply Qclt_le_weak; exact H2|intros _; exact H2]|].
    destruct (H3 k (nth k l 0) ltac:(apply nth_error_nth'; lia)) as [A B]. split; [exact A|intros C; apply B; lia].
Qed.

(** ** One row *)
Lemma at_row_fin : forall med j, (j < List.length med)%nat -> at_row (map Fin med) j = Fin (nth j med 0).
Proof. intros med j H. unfold at_row. rewrite (nth_indep _ NaN (Fin 0)) by (rewrite map_length; exact H). apply map_nth. Qed.
Lemma steps_fin : forall med i, (7 < i)%nat -> (i + 7 < List.length med)%nat ->
  local_steps (local_medians (map Fin med) i) = map Fin (map (fun d => step_into med (i + d - 4)) (seq 0 10)).
Proof.
  intros med i H1 H2. unfold local_steps. rewrite map_map. apply map_ext_in. intros d Hd. apply in_seq in Hd.
  assert (A : forall e, (e < 11)%nat -> at_row (local_medians (map Fin med) i) e = Fin (nth (i + e - 5) med 0)).
  { intros e He. unfold local_medians, at_row at 1. rewrite (nth_indep _ NaN (at_row (map Fin med) (i + 0 - 5))) by (rewrite map_length, seq_length; exact He).
    rewrite (map_nth (fun d => at_row (map Fin med) (i + d - 5)) (seq 0 11) 0%nat e), seq_nth by exact He. apply at_row_fin. lia. }
  rewrite !A by lia. unfold step_into. replace (i + d - 4 - 1)%nat with (i + d - 5)%nat by lia. replace (i + S d - 5)%nat with (i + d - 4)%nat by lia. reflexivity.
Qed.

Lemma row_model : forall v R n med soiling i s ce, 0 <= R -> List.length med = n -> exists u ce1,
  (if (7 <? i)%nat && (i + 7 <? n)%nat && (member i ce || member i soiling)
   then let '(u, ce1) := control_input (noise_of v R) (state_of s) (local_medians (map Fin med) i) i ce in (kf_predict (noise_of v R) (Some u) (state_of s), ce1)
   else (kf_predict (noise_of v R) None (state_of s), ce)) = (state_of (advance u 0 (fst s), moved_cov v (snd s)), ce1) /\
  row_events n med R soiling i (level_ahead (fst s)) ce u ce1.
Proof.
  intros v R n med soiling i s ce HR L.
  destruct ((7 <? i)%nat && (i + 7 <? n)%nat && (member i ce || member i soiling)) eqn:A.
  - apply andb_prop in A. destruct A as [A A3]. apply andb_prop in A. destruct A as [A1 A2]. apply Nat.ltb_lt in A1, A2.
    assert (ACT : ((7 < i)%nat /\ (i + 7 < n)%nat) /\ (In i ce \/ In i soiling)) by (split; [lia|]; apply orb_prop in A3; rewrite !member_spec in A3; exact A3).
    unfold control_input. rewrite steps_fin by lia. set (stp := map (fun d => step_into med (i + d - 4)) (seq 0 10)).
    assert (LS : List.length stp = 10%nat) by (unfold stp; rewrite map_length, seq_length; reflexivity).
    assert (NS : forall d, (d < 10)%nat -> nth d stp 0 = step_into med (i + d - 4)).
    { intros d Hd. unfold stp. rewrite (nth_indep _ 0 (step_into med (i + 0 - 4))) by (rewrite map_length, seq_length; exact Hd). rewrite (map_nth (fun d => step_into med (i + d - 4)) (seq 0 10) 0%nat d), seq_nth by exact Hd. reflexivity. }
    destruct (argmax_spec stp ltac:(intros C; rewrite C in LS; discriminate LS)) as [M1 M2]. set (m := argmax (map Fin stp)) in *. rewrite LS in M1, M2. clearbody m.
    assert (BIG : biggest_step med i (i + m - 4)).
    { split; [lia|]. intros k Hk. specialize (M2 (k + 4 - i)%nat ltac:(lia)). rewrite !NS in M2 by lia. replace (i + (k + 4 - i) - 4)%nat with k in M2 by lia. destruct M2 as [B1 B2]. split; [exact B1|]. intros C. apply B2. lia. }
    assert (A8 : at_row (local_medians (map Fin med) i) 8 = Fin (nth (i + 3) med 0)).
    { unfold local_medians, at_row at 1. cbn [seq map nth]. replace (i + 8 - 5)%nat with (i + 3)%nat by lia. apply at_row_fin. lia. }
    assert (EXP : v0 (mvec trans_F (f_x (state_of s))) = Fin (level_ahead (fst s))).
    { unfold level_ahead, mvec, trans_F, state_of, vec_of, fz. cbn [f_x v0 v1 m00 m01 fadd fmul]. f_equal. rewrite qz1. ring. }
    rewrite A8, EXP. set (jump := nth (i + 3) med 0 - level_ahead (fst s)).
    change (fsub (Fin (nth (i + 3) med 0)) (Fin (level_ahead (fst s)))) with (Fin jump). cbn [f_R noise_of].
    change (fgt (fmul (fz 4) (fmul (Fin jump) (Fin jump))) (Fin R)) with (qlt R (qz 4 * (jump * jump))).
    assert (R0 : fle (fz 0) (Fin R) = true) by (change (qle (qz 0) R = true); rewrite qz0; apply qle_spec; exact HR). rewrite R0. cbn [andb].
    destruct ((m =? 4)%nat || negb (member i ce)) eqn:C.
    + assert (CASE : ~ In i ce \/ (i + m - 4)%nat = i).
      { apply orb_prop in C. destruct C as [C|C]; [right; apply Nat.eqb_eq in C; lia|left; apply negb_true_iff in C; apply member_false; exact C]. }
      destruct (qlt R (qz 4 * (jump * jump))) eqn:Q; qb.
      * exists jump, ce. split; [unfold noise_of; rewrite predict_model by reflexivity; reflexivity|]. unfold row_events. split; [intros N; contradiction|]. intros _. exists (i + m - 4)%nat. split; [exact BIG|].
        split; [intros _; split; [intros _; split; reflexivity|fold jump; intros D; exfalso; qlra]|]. intros I N. exfalso. destruct CASE as [CASE|CASE]; contradiction.
      * exists 0, (if member i ce then remove_first i ce else ce). split; [unfold noise_of; rewrite predict_model by reflexivity; cbn [known fz]; rewrite qz0; reflexivity|]. unfold row_events. split; [intros N; contradiction|]. intros _. exists (i + m - 4)%nat. split; [exact BIG|].
        split; [intros _; split; [fold jump; intros D; exfalso; qlra|]|intros I N; exfalso; destruct CASE as [CASE|CASE]; contradiction].
        intros _. split; [reflexivity|]. destruct (member i ce) eqn:MI; [apply remove_taken|apply remove_not_in, member_false; exact MI].
    + apply orb_false_iff in C. destruct C as [C1 C2]. apply Nat.eqb_neq in C1. apply negb_false_iff in C2. apply member_spec in C2.
      assert (ST : at_row (map Fin stp) m = Fin (step_into med (i + m - 4))) by (rewrite at_row_fin by lia; rewrite NS by lia; reflexivity). rewrite ST.
      change (fgt (Fin (step_into med (i + m - 4))) (fz 0)) with (qlt (qz 0) (step_into med (i + m - 4))). rewrite qz0. cbv zeta.
      exists 0. eexists. split; [unfold noise_of; rewrite predict_model by reflexivity; cbn [known fz]; rewrite qz0; reflexivity|]. unfold row_events. split; [intros N; contradiction|]. intros _. exists (i + m - 4)%nat. split; [exact BIG|].
      split; [intros [N|N]; [contradiction|exfalso; lia]|]. intros _ _. split; [reflexivity|].
      assert (INJ : member (i + m - 4) (remove_first i ce) = member (i + m - 4) ce).
      { pose proof (remove_taken i ce (i + m - 4)%nat) as T. destruct (Nat.eq_dec (i + m - 4) i); [lia|]. unfold times in T.
        destruct (member (i + m - 4) ce) eqn:X; [apply member_spec in X; apply member_spec; apply (count_occ_In Nat.eq_dec) in X; apply (count_occ_In Nat.eq_dec); lia|].
        apply member_false in X. apply member_false. apply (count_occ_not_In Nat.eq_dec) in X. apply (count_occ_not_In Nat.eq_dec). lia. }
      rewrite INJ. destruct (Qclt_le_dec 0 (step_into med (i + m - 4))) as [P|P].
      * replace (qlt 0 (step_into med (i + m - 4))) with true by (symmetry; qb; exact P). cbn [andb]. destruct (in_dec Nat.eq_dec (i + m - 4)%nat ce) as [I|I].
        -- replace (member (i + m - 4) ce) with true by (symmetry; apply member_spec; exact I). apply remove_taken.
        -- replace (member (i + m - 4) ce) with false by (symmetry; apply member_false; exact I). exists (remove_first i ce). split; [apply remove_taken|apply insort_put].
      * replace (qlt 0 (step_into med (i + m - 4))) with false by (symmetry; qb; exact P). apply remove_taken.
  - exists 0, ce. split; [unfold noise_of; rewrite predict_model by exact I; reflexivity|]. unfold row_events. split; [intros _; split; reflexivity|]. intros [[A1 A2] A3]. exfalso.
    apply Nat.ltb_lt in A1, A2. rewrite A1, A2 in A. cbn [andb] in A. apply orb_false_iff in A. destruct A as [B1 B2]. apply member_false in B1, B2. tauto.
Qed.

(** ** The pass *)
Lemma track_model : forall v R z m P, 0 < v -> 0 < R -> forall u s, definite (snd s) -> m = advance u 0 (fst s) -> P = moved_cov v (snd s) ->
  (if isnan (fl_of z) then Ok (state_of (m, P)) else kf_update (noise_of v R) (fl_of z) (state_of (m, P))) = Ok (state_of (track v R u z s)).
Proof.
  intros v R z m P Hv HR u s D -> ->. destruct z as [z|]; cbn [fl_of isnan track]; [|reflexivity]. unfold noise_of. apply update_model; [exact HR|]. apply moved_definite; assumption.
Qed.
Lemma tracks_length : forall v R us zs s, List.length us = List.length zs -> List.length (tracks v R us zs s) = List.length zs.
Proof. intros v R us. induction us as [|u us IH]; intros [|z zs] s L; try discriminate L; [reflexivity|]. cbn. rewrite IH; [reflexivity|]. cbn in L. lia. Qed.
Lemma forward_model : forall v R n med soiling, 0 < v -> 0 < R -> List.length med = n -> forall zs i s ce, definite (snd s) ->
  exists us events, List.length us = List.length zs /\ List.length events = S (List.length zs) /\ nth 0 events [] = ce /\
  forward_from (noise_of v R) n (map Fin med) soiling i (map fl_of zs) (state_of s) ce = Ok (map state_of (tracks v R us zs s), List.last events []) /\
  forall k, (k < List.length zs)%nat ->
    row_events n med R soiling (i + k) (level_ahead (fst (nth k (s :: tracks v R us zs s) s))) (nth k events []) (nth k us 0) (nth (S k) events []).
Proof.
  intros v R n med soiling Hv HR L zs. induction zs as [|z zs IH]; intros i s ce D.
  - exists [], [ce]. do 4 (split; [reflexivity|]). intros k H. inversion H.
  - destruct (row_model v R n med soiling i s ce ltac:(apply Qclt_le_weak; exact HR) L) as (u & ce1 & E & RE).
    destruct (IH (S i) (track v R u z s) ce1 (track_definite v R u z s Hv HR D)) as (us & events & L1 & L2 & H0 & EF & ROWS).
    exists (u :: us), (ce :: events). split; [cbn; lia|]. split; [cbn; lia|]. split; [reflexivity|]. split.
    + cbn [map forward_from]. rewrite E. rewrite (track_model v R z _ _ Hv HR u s D eq_refl eq_refl). cbn [bind]. rewrite EF. cbn [bind fst snd tracks map].
      destruct events as [|e events]; [discriminate L2|]. reflexivity.
    + intros [|k] Hk.
      * rewrite Nat.add_0_r. cbn [nth]. rewrite H0. exact RE.
      * replace (i + S k)%nat with (S i + k)%nat by lia. cbn [tracks]. cbn [List.length] in Hk.
        specialize (ROWS k ltac:(lia)).
        change (nth (S k) (s :: track v R u z s :: tracks v R us zs (track v R u z s)) s) with (nth k (track v R u z s :: tracks v R us zs (track v R u z s)) s).
        rewrite (nth_indep (track v R u z s :: tracks v R us zs (track v R u z s)) s (track v R u z s)) by (cbn; rewrite tracks_length by exact L1; lia). exact ROWS.
Qed.
Lemma tracks_firstn : forall v R us zs s k, firstn k (tracks v R us zs s) = tracks v R (firstn k us) (firstn k zs) s.
Proof. intros v R us. induction us as [|u us IH]; intros [|z zs] s [|k]; cbn; try reflexivity. rewrite IH. reflexivity. Qed.
Lemma last_firstn : forall {A} (l : list A) k d d', (k < List.length l)%nat -> List.last (firstn (S k) l) d = nth k l d'.
Proof.
  intros A l. induction l as [|x l IH]; intros [|k] d d' H; cbn in H; try lia; [reflexivity|]. cbn [nth]. rewrite <- (IH k d d') by lia.
  destruct l as [|y l]; [cbn in H; lia|]. reflexivity.
Qed.
Lemma forward_pass_model : forall v R med soiling zs s ce, 0 < v -> 0 < R -> List.length med = List.length zs -> definite (snd s) ->
  exists us events, let nows := tracks v R us zs s in
  pass v R med soiling s zs nows us events /\ nth 0 events [] = ce /\
  forward_pass (noise_of v R) (map Fin med) soiling (map fl_of zs) (state_of s) ce = Ok (map state_of nows, List.last events []).
Proof.
  intros v R med soiling zs s ce Hv HR L D. destruct (forward_model v R (List.length zs) med soiling Hv HR L zs 0 s ce D) as (us & events & L1 & L2 & H0 & E & ROWS).
  exists us, events. cbv zeta. split; [|split; [exact H0|unfold forward_pass; rewrite map_length; exact E]].
  split; [apply tracks_length; exact L1|]. split; [exact L1|]. split; [exact L2|]. intros k Hk. split.
  - rewrite <- (last_firstn (tracks v R us zs s) k s s) by (rewrite tracks_length by exact L1; exact Hk). rewrite tracks_firstn.
    apply tracks_estimated; try assumption. rewrite !firstn_length. lia.
  - specialize (ROWS k Hk). destruct k as [|k]; exact ROWS.
Qed.

(** Known changes happen on rows that are events at the end, or soiling events. *)
Lemma row_keeps : forall n med R soiling i x before u after j, row_events n med R soiling i x before u after -> j <> i -> In j before -> In j after.
Proof.
  intros n med R soiling i x before u after j [R1 R2] N I.
  assert (TK : forall a, taken_out i before a -> In j a).
  { intros a T. specialize (T j). destruct (Nat.eq_dec j i); [contradiction|]. apply (count_occ_In Nat.eq_dec). apply (count_occ_In Nat.eq_dec) in I. unfold times in T. lia. }
  destruct (Nat.ltb_spec 7 i) as [A1|A1]; [|rewrite (proj2 (R1 ltac:(lia))); exact I]. destruct (Nat.ltb_spec (i + 7) n) as [A2|A2]; [|rewrite (proj2 (R1 ltac:(lia))); exact I].
  destruct (in_dec Nat.eq_dec i before) as [I1|I1]; [|destruct (in_dec Nat.eq_dec i soiling) as [I2|I2]; [|rewrite (proj2 (R1 ltac:(tauto))); exact I]].
  - destruct (R2 ltac:(tauto)) as (r & _ & C1 & C2). destruct (Nat.eq_dec r i) as [E|E].
    + destruct (C1 (or_intror E)) as [D1 D2]. destruct (Qclt_le_dec R (qz 4 * ((nth (i + 3) med 0 - x) * (nth (i + 3) med 0 - x)))) as [Q|Q]; [rewrite (proj2 (D1 Q)); exact I|apply TK, D2, Q].
    + destruct (C2 I1 E) as [_ C3]. destruct (Qclt_le_dec 0 (step_into med r)); [|apply TK, C3]. destruct (in_dec Nat.eq_dec r before); [apply TK, C3|].
      destruct C3 as (less & T & PI). specialize (PI j). apply TK in T. apply (count_occ_In Nat.eq_dec). apply (count_occ_In Nat.eq_dec) in T. unfold times in PI. destruct (Nat.eq_dec j r); lia.
  - destruct (R2 ltac:(tauto)) as (r & _ & C1 & _). destruct (C1 (or_introl I1)) as [D1 D2]. destruct (Qclt_le_dec R (qz 4 * ((nth (i + 3) med 0 - x) * (nth (i + 3) med 0 - x)))) as [Q|Q]; [rewrite (proj2 (D1 Q)); exact I|apply TK, D2, Q].
Qed.
Lemma row_known : forall n med R soiling i x before u after, row_events n med R soiling i x before u after -> u <> 0 -> (7 < i /\ i + 7 < n)%nat /\ (In i after \/ In i soiling).
Proof.
  intros n med R soiling i x before u after [R1 R2] N.
  destruct (Nat.ltb_spec 7 i) as [A1|A1]; [|exfalso; apply N, R1; lia]. destruct (Nat.ltb_spec (i + 7) n) as [A2|A2]; [|exfalso; apply N, R1; lia]. split; [lia|].
  destruct (in_dec Nat.eq_dec i soiling) as [I2|I2]; [right; exact I2|]. destruct (in_dec Nat.eq_dec i before) as [I1|I1]; [|exfalso; apply N, R1; tauto]. left.
  destruct (R2 ltac:(tauto)) as (r & _ & C1 & C2). destruct (Nat.eq_dec r i) as [E|E]; [|exfalso; apply N; destruct (C2 I1 E) as [-> _]; reflexivity].
  destruct (C1 (or_intror E)) as [D1 D2]. destruct (Qclt_le_dec R (qz 4 * ((nth (i + 3) med 0 - x) * (nth (i + 3) med 0 - x)))) as [Q|Q]; [rewrite (proj2 (D1 Q)); exact I1|exfalso; apply N, D2, Q].
Qed.
Lemma events_kept : forall v R med soiling s zs nows us events, pass v R med soiling s zs nows us events ->
  forall d k j, (k + d = List.length zs)%nat -> (j < k)%nat -> In j (nth k events []) -> In j (List.last events []).
Proof.
  intros v R med soiling s zs nows us events (L1 & L2 & L3 & H). intros d. induction d as [|d IH]; intros k j E N I.
  - rewrite Nat.add_0_r in E. subst k. rewrite <- (firstn_all events), L3, (last_firstn events (List.length zs) [] []) by lia. exact I.
  - apply (IH (S k) j ltac:(lia) ltac:(lia)). destruct (H k ltac:(lia)) as [_ RE]. eapply row_keeps; [exact RE|lia|exact I].
Qed.
Lemma known_at_border : forall v R med soiling s zs nows us events, pass v R med soiling s zs nows us events ->
  forall k, nth k us 0 <> 0 -> (7 < k /\ k + 7 < List.length zs)%nat /\ (In k (List.last events []) \/ In k soiling).
Proof.
  intros v R med soiling s zs nows us events PS k N. pose proof PS as (L1 & L2 & L3 & H). destruct (Nat.ltb_spec k (List.length zs)) as [K|K]; [|exfalso; apply N; apply nth_overflow; lia].
  destruct (H k K) as [_ RE]. destruct (row_known _ _ _ _ _ _ _ _ _ RE N) as [A [I|I]]; split; try exact A; [left|right; exact I].
  apply (events_kept _ _ _ _ _ _ _ _ _ PS (List.length zs - S k) (S k) k); [lia|lia|exact I].
Qed.
