(** The smoother and one run of the filter. *)

From Coq Require Import QArith Qcanon List ZArith Bool Arith Lia Permutation Sorted.
From Verif.Base Require Import QcExtra ISort Quantile Fl TimeSeries Calendar Rolling.
From Verif.Spec Require Import Stats Tracking.
From Verif.Model Require Import Soiling CodsTools CodsKalman.
From Verif.Proofs Require Import KalP1 KalP2.
Import ListNotations.
Open Scope list_scope.
Open Scope Qc_scope.

(** ** Slices *)
Lemma firstn_map : forall {A B} (f : A -> B) k l, firstn k (map f l) = map f (firstn k l).
Proof. intros A B f k. induction k as [|k IH]; intros [|x l]; cbn; try reflexivity. rewrite IH. reflexivity. Qed.
Lemma skipn_map : forall {A B} (f : A -> B) k l, skipn k (map f l) = map f (skipn k l).
Proof. intros A B f k. induction k as [|k IH]; intros [|x l]; cbn; try reflexivity. apply IH. Qed.
Lemma skipn_add : forall {A} a b (l : list A), skipn a (skipn b l) = skipn (b + a) l.
Proof. intros A a b. revert a. induction b as [|b IH]; intros a l; [reflexivity|]. destruct l as [|x l]; [rewrite !skipn_nil; reflexivity|]. cbn. apply IH. Qed.
Lemma rows_map : forall {A B} (f : A -> B) a e l, rows a e (map f l) = map f (rows a e l).
Proof. intros. unfold rows. rewrite skipn_map, firstn_map. reflexivity. Qed.
Lemma rows_length : forall {A} a e (l : list A), (e <= List.length l)%nat -> List.length (rows a e l) = (e - a)%nat.
Proof. intros. unfold rows. rewrite firstn_length, skipn_length. lia. Qed.
Lemma rows_nth : forall {A} a e (l : list A) k d, (k < e - a)%nat -> nth k (rows a e l) d = nth (a + k) l d.
Proof.
  intros A a e l k d H. unfold rows. generalize (e - a)%nat as m, H. clear H. intros m H.
  transitivity (nth k (skipn a l) d).
  - revert k H. generalize (skipn a l). clear. induction m as [|m IH]; intros l k H; [lia|]. destruct l as [|x l]; [destruct k; reflexivity|]. destruct k as [|k]; [reflexivity|]. cbn. apply IH. lia.
  - clear. revert l. induction a as [|a IH]; intros l; [reflexivity|]. destruct l as [|x l]; [destruct k; reflexivity|]. cbn. apply IH.
Qed.
Lemma skipn_nth : forall {A} a (l : list A) d, (a < List.length l)%nat -> skipn a l = nth a l d :: skipn (S a) l.
Proof. intros A a. induction a as [|a IH]; intros [|x l] d H; cbn in H; try lia; [reflexivity|]. change (skipn a l = nth a l d :: skipn (S a) l). apply IH. lia. Qed.
Lemma rows_app : forall {A} a e (now later : list A), List.length now = a -> (a <= e)%nat -> forall b, (a <= b)%nat -> rows b e (now ++ later) = rows (b - a) (e - a) later.
Proof.
  intros A a e now later L H b Hb. unfold rows. rewrite skipn_app, L. replace (skipn b now) with (@nil A) by (symmetry; apply skipn_all2; lia). cbn [app]. f_equal. lia.
Qed.

(** ** The smoother on all stretches *)
Lemma smooth_from_model : forall v R nows, 0 < v -> Forall (fun s => definite (snd s)) nows -> forall ends a,
  StronglySorted le (a :: ends) -> Forall (fun e => (e <= List.length nows)%nat) (a :: ends) ->
  exists out, smooth_from (FN (white_noise (Fin v)) R) a ends (map state_of (skipn a nows)) = Ok out /\
  List.length out = (List.length nows - a)%nat /\
  (forall b e, next_to (a :: ends) b e -> map f_x (rows (b - a) (e - a) out) = map vec_of (back_path v (rows b e nows))) /\
  (forall d, skipn (List.last ends d - a) out = map state_of (skipn (List.last ends a) nows) \/ ends = []) /\
  (ends = [] -> out = map state_of (skipn a nows)).
Proof.
  intros v R nows Hv D ends. induction ends as [|e ends IH]; intros a S F.
  - exists (map state_of (skipn a nows)). split; [reflexivity|]. split; [rewrite map_length, skipn_length; reflexivity|]. split; [|split; [intros; right; reflexivity|reflexivity]].
    intros b e ([->|[]] & [->|[]] & N & _). lia.
  - assert (S' := S). apply StronglySorted_inv in S. destruct S as [S FA]. assert (AE : (a <= e)%nat) by (inversion FA; assumption). apply Forall_inv_tail in F. assert (EL : (e <= List.length nows)%nat) by (inversion F; assumption).
    destruct (IH e S F) as (later & E1 & L1 & B1 & T1 & T2).
    assert (DR : Forall (fun s => definite (snd s)) (rows a e nows)).
    { apply Forall_forall. intros x I. rewrite Forall_forall in D. apply D. unfold rows in I. rewrite <- (firstn_skipn a nows). apply in_or_app. right. rewrite <- (firstn_skipn (e - a) (skipn a nows)). apply in_or_app. left. exact I. }
    destruct (rts_model v R (rows a e nows) Hv DR) as (now & EN & XN).
    assert (LN : List.length now = (e - a)%nat).
    { apply (f_equal (@List.length vec)) in XN. rewrite !map_length in XN. rewrite XN. rewrite <- (rows_length a e nows EL). generalize (rows a e nows). clear. intros l. induction l as [|s l IH]; [reflexivity|]. cbn [back_path]. destruct (back_path v l); cbn in *; lia. }
    exists (now ++ later). split.
    { cbn [smooth_from]. rewrite firstn_map. change (firstn (e - a) (skipn a nows)) with (rows a e nows). rewrite EN. cbn [bind]. rewrite skipn_map, skipn_add. replace (a + (e - a))%nat with e by lia. rewrite E1. reflexivity. }
    split; [rewrite app_length; lia|]. split; [|split].
    + intros b e' (I1 & I2 & N & NB). destruct (Nat.eq_dec b a) as [->|NBA].
      * destruct (Nat.eq_dec a e) as [<-|NAE].
        -- destruct now; [|cbn in LN; lia]. cbn [app]. apply B1. split; [left; reflexivity|]. split; [destruct I2 as [->|I2]; [left; reflexivity|exact I2]|]. split; [exact N|]. intros x Hx. apply NB. right. exact Hx.
        -- assert (e' = e) as ->. { destruct (NB e ltac:(right; left; reflexivity)) as [C|C]; [lia|]. destruct I2 as [->|[->|I2]]; [lia|reflexivity|]. apply StronglySorted_inv in S. destruct S as [_ S]. rewrite Forall_forall in S. specialize (S e' I2). lia. }
           rewrite Nat.sub_diag. unfold rows at 1. cbn [skipn]. rewrite Nat.sub_0_r, <- LN, firstn_app, Nat.sub_diag, firstn_all, firstn_O, app_nil_r. exact XN.
      * assert (EB : (e <= b)%nat). { destruct I1 as [C|[C|I1]]; [congruence|lia|]. apply StronglySorted_inv in S. destruct S as [_ S]. rewrite Forall_forall in S. specialize (S b I1). lia. }
        rewrite (rows_app (e - a) (e' - a) now later LN) by lia. replace (b - a - (e - a))%nat with (b - e)%nat by lia. replace (e' - a - (e - a))%nat with (e' - e)%nat by lia. apply B1.
        split; [destruct I1 as [C|I1]; [congruence|exact I1]|]. split; [destruct I2 as [C|I2]; [lia|exact I2]|]. split; [exact N|]. intros x Hx. apply NB. right. exact Hx.
    + intros d. left. destruct ends as [|e2 ends].
      * cbn [List.last]. rewrite T2 by reflexivity. rewrite <- LN, skipn_app, Nat.sub_diag, skipn_all. reflexivity.
      * destruct (T1 d) as [T|T]; [|discriminate T].
        change (List.last (e :: e2 :: ends) d) with (List.last (e2 :: ends) d). change (List.last (e :: e2 :: ends) a) with (List.last (e2 :: ends) a).
        assert (LL : forall x y, List.last (e2 :: ends) x = List.last (e2 :: ends) y) by (intros x y; clear; revert e2; induction ends as [|q ends IH]; intros; [reflexivity|apply IH]).
        rewrite (LL a e), <- T. assert (LG : (e <= List.last (e2 :: ends) d)%nat).
        { apply StronglySorted_inv in S. destruct S as [_ S]. rewrite Forall_forall in S. apply S. clear. revert e2. induction ends as [|q ends IH]; intros; [left; reflexivity|right; apply IH]. }
        rewrite skipn_app, LN. rewrite skipn_all2 by lia. cbn [app]. f_equal. lia.
    + intros C. discriminate C.
Qed.

(** ** Between two neighbouring borders *)
Lemma tracks_skipn : forall v R us zs s a d, List.length us = List.length zs -> (a < List.length zs)%nat ->
  skipn (S a) (tracks v R us zs s) = tracks v R (skipn (S a) us) (skipn (S a) zs) (nth a (tracks v R us zs s) d).
Proof.
  intros v R us. induction us as [|u us IH]; intros [|z zs] s a d L H; try discriminate L; [cbn in H; lia|]. cbn [tracks]. destruct a as [|a]; [reflexivity|].
  change (skipn (S a) (tracks v R us zs (track v R u z s)) = tracks v R (skipn (S a) us) (skipn (S a) zs) (nth a (tracks v R us zs (track v R u z s)) d)). apply IH; cbn in L, H; lia.
Qed.
Lemma tracks_definite : forall v R, 0 < v -> 0 < R -> forall us zs s, definite (snd s) -> Forall (fun s => definite (snd s)) (tracks v R us zs s).
Proof. intros v R Hv HR us. induction us as [|u us IH]; intros [|z zs] s D; try constructor; [apply track_definite; assumption|]. apply IH. apply track_definite; assumption. Qed.
Lemma zeros : forall {A} (us : list Qc) (l : list A), List.length us = List.length l -> (forall k, nth k us 0 = 0) -> us = map (fun _ => 0) l.
Proof.
  intros A us. induction us as [|u us IH]; intros [|x l] L H; try discriminate L; [reflexivity|]. cbn. f_equal; [exact (H 0%nat)|]. apply IH; [cbn in L; lia|]. intros k. exact (H (S k)).
Qed.
Lemma stretch_best : forall v R med soiling s zs us events, 0 < v -> 0 < R -> definite (snd s) ->
  pass v R med soiling s zs (tracks v R us zs s) us events -> forall a e, (e <= List.length zs)%nat ->
  next_to (List.last events [] ++ [0%nat; (List.length zs - 1)%nat] ++ soiling) a e ->
  best_path v R (nth a (tracks v R us zs s) s) (rows (S a) e zs) (back_path v (rows a e (tracks v R us zs s))).
Proof.
  intros v R med soiling s zs us events Hv HR D PS a e EL (I1 & I2 & N & NB). pose proof PS as (L1 & L2 & L3 & _). set (nows := tracks v R us zs s) in *.
  assert (DA : definite (snd (nth a nows s))). { pose proof (tracks_definite v R Hv HR us zs s D) as F. rewrite Forall_forall in F. apply F. apply nth_In. fold nows. lia. }
  assert (ER : rows a e nows = nth a nows s :: tracks v R (map (fun _ => 0) (rows (S a) e zs)) (rows (S a) e zs) (nth a nows s)).
  { unfold rows. rewrite (skipn_nth a nows s) by lia. replace (e - a)%nat with (S (e - S a)) by lia. cbn [firstn]. f_equal. unfold nows at 1. rewrite (tracks_skipn v R us zs s a s) by lia. fold nows. rewrite tracks_firstn. f_equal.
    apply zeros; [rewrite !firstn_length, !skipn_length; lia|]. intros k. change (firstn (e - S a) (skipn (S a) us)) with (rows (S a) e us).
    destruct (Nat.ltb_spec k (e - S a)) as [K|K]; [|apply nth_overflow; rewrite rows_length; lia]. rewrite rows_nth by exact K.
    destruct (Qc_eq_dec (nth (S a + k) us 0) 0) as [Z|Z]; [exact Z|]. exfalso. destruct (known_at_border _ _ _ _ _ _ _ _ _ PS _ Z) as [_ B].
    destruct (NB (S a + k)%nat ltac:(apply in_or_app; destruct B as [B|B]; [left; exact B|right; right; right; exact B])); lia. }
  rewrite ER. apply back_best; assumption.
Qed.
Lemma row_rows : forall n med R soiling i x before u after j, row_events n med R soiling i x before u after -> In j after -> In j before \/ (j < n)%nat.
Proof.
  intros n med R soiling i x before u after j [R1 R2] I.
  assert (TK : forall a, taken_out i before a -> In j a -> In j before).
  { intros a T J. specialize (T j). apply (count_occ_In Nat.eq_dec). apply (count_occ_In Nat.eq_dec) in J. unfold times in T. destruct (Nat.eq_dec j i); lia. }
  destruct (Nat.ltb_spec 7 i) as [A1|A1]; [|rewrite (proj2 (R1 ltac:(lia))) in I; left; exact I]. destruct (Nat.ltb_spec (i + 7) n) as [A2|A2]; [|rewrite (proj2 (R1 ltac:(lia))) in I; left; exact I].
  destruct (in_dec Nat.eq_dec i before) as [I1|I1]; [|destruct (in_dec Nat.eq_dec i soiling) as [I2|I2]; [|rewrite (proj2 (R1 ltac:(tauto))) in I; left; exact I]].
  - destruct (R2 ltac:(tauto)) as (r & [B _] & C1 & C2). destruct (Nat.eq_dec r i) as [E|E].
    + left. destruct (C1 (or_intror E)) as [D1 D2]. destruct (Qclt_le_dec R (qz 4 * ((nth (i + 3) med 0 - x) * (nth (i + 3) med 0 - x)))) as [Q|Q]; [rewrite (proj2 (D1 Q)) in I; exact I|exact (TK _ (proj2 (D2 Q)) I)].
    + destruct (C2 I1 E) as [_ C3]. destruct (Qclt_le_dec 0 (step_into med r)); [|left; exact (TK _ C3 I)]. destruct (in_dec Nat.eq_dec r before); [left; exact (TK _ C3 I)|].
      destruct C3 as (less & T & PI). specialize (PI j). destruct (Nat.eq_dec j r) as [->|NR]; [right; lia|]. left. apply (TK less T). apply (count_occ_In Nat.eq_dec). apply (count_occ_In Nat.eq_dec) in I. unfold times in PI. lia.
  - left. destruct (R2 ltac:(tauto)) as (r & _ & C1 & _). destruct (C1 (or_introl I1)) as [D1 D2]. destruct (Qclt_le_dec R (qz 4 * ((nth (i + 3) med 0 - x) * (nth (i + 3) med 0 - x)))) as [Q|Q]; [rewrite (proj2 (D1 Q)) in I; exact I|exact (TK _ (proj2 (D2 Q)) I)].
Qed.
Lemma events_rows : forall v R med soiling s zs nows us events, pass v R med soiling s zs nows us events ->
  Forall (fun j => (j < List.length zs)%nat) (nth 0 events []) -> Forall (fun j => (j < List.length zs)%nat) (List.last events []).
Proof.
  intros v R med soiling s zs nows us events (L1 & L2 & L3 & H) F.
  assert (G : forall k, (k <= List.length zs)%nat -> Forall (fun j => (j < List.length zs)%nat) (nth k events [])).
  { induction k as [|k IH]; intros K; [exact F|]. specialize (IH ltac:(lia)). destruct (H k ltac:(lia)) as [_ RE]. rewrite Forall_forall in *. intros j I. destruct (row_rows _ _ _ _ _ _ _ _ _ _ RE I) as [J|J]; [apply IH, J|exact J]. }
  rewrite <- (firstn_all events), L3, (last_firstn events (List.length zs) [] []) by lia. apply G. lia.
Qed.

(** ** One run *)
Theorem run_model : forall k zs med soiling l s v R a b ce,
  ks_zs k = map fl_of zs -> ks_noise k = noise_of v R -> ks_rm7 k = map Fin med -> ks_soiling k = soiling -> ks_intercept k = Fin l -> ks_slope k = Fin s ->
  0 < v -> 0 < R -> a <> 0 -> b <> 0 -> zs <> [] -> List.length med = List.length zs -> Forall (fun j => (j < List.length zs)%nat) (ce ++ soiling) ->
  exists nows us events r, let n := List.length zs in let start := ((l, s), (b * b, 0, a * a)) in let final := nth (n - 1) nows start in
  pass v R med soiling start zs nows us events /\ nth 0 events [] = ce /\
  run_filter k (Fin a) (Fin b) ce = Ok r /\ kr_events r = List.last events [] /\
  kr_zs_std r = Fin (fst (fst (snd final))) /\ kr_rate_std r = Fin (snd (snd final)) /\
  (forall i e, next_to (kr_events r ++ [0%nat; (n - 1)%nat] ++ soiling) i e -> exists xs, best_path v R (nth i nows start) (rows (S i) e zs) xs /\
     rows i e (level r) = map (fun x => Fin (fst x)) xs /\ rows i e (rate r) = map (fun x => Fin (snd x)) xs) /\
  rows (n - 1) n (level r) = [Fin (fst (fst final))] /\ rows (n - 1) n (rate r) = [Fin (snd (fst final))].
Proof.
  intros k zs med soiling l s v R a b ce K1 K2 K3 K4 K5 K6 Hv HR Ha Hb NE LM F. set (start := ((l, s), (b * b, 0, a * a)) : motion * cov).
  assert (SQ : forall q : Qc, q <> 0 -> 0 < q * q). { intros q Hq. destruct (Qclt_le_dec 0 (q * q)) as [C|C]; [exact C|]. exfalso. assert (0 <= q * q) by qnra. assert (q * q = 0) as Z by (apply Qcle_antisym; assumption). apply Qcmult_integral in Z. tauto. }
  assert (D : definite (snd start)). { unfold start, definite, det. cbn [snd]. split; [apply SQ, Hb|]. replace (b * b * (a * a) - 0 * 0) with (b * b * (a * a)) by ring. apply mul_pos; apply SQ; assumption. }
  destruct (forward_pass_model v R med soiling zs start ce Hv HR LM D) as (us & events & PS & H0 & EF). set (nows := tracks v R us zs start) in *. cbv zeta in PS, EF.
  pose proof PS as (L1 & L2 & L3 & _). set (n := List.length zs) in *. assert (NN : (0 < n)%nat) by (unfold n; destruct zs; [congruence|cbn; lia]).
  apply Forall_app in F. destruct F as [F1 F2]. assert (FE : Forall (fun j => (j < n)%nat) (List.last events [])) by (apply (events_rows _ _ _ _ _ _ _ _ _ PS); rewrite H0; exact F1).
  set (bs := List.last events [] ++ [0%nat; (n - 1)%nat] ++ soiling).
  assert (FB : Forall (fun j => (j < n)%nat) bs) by (unfold bs; apply Forall_app; split; [exact FE|]; constructor; [lia|]; constructor; [lia|exact F2]).
  assert (SB : StronglySorted le (0%nat :: isort Nat.leb bs)).
  { constructor; [|apply Forall_forall; intros; lia].
    assert (G : StronglySorted (fun x y => Nat.leb x y = true) (isort Nat.leb bs)) by (apply isort_sorted; [intros x y; destruct (Nat.leb_spec x y); [left; reflexivity|right; apply Nat.leb_le; lia]|intros x y z; rewrite !Nat.leb_le; lia]).
    clear - G. induction G as [|x l G IH FA]; constructor; [exact IH|]. eapply Forall_impl; [|exact FA]. intros y H. apply Nat.leb_le. exact H. }
  destruct (smooth_from_model v (Fin R) nows Hv (tracks_definite v R Hv HR us zs start D) (isort Nat.leb bs) 0 SB) as (out & ES & LO & SM & LST & _).
  { constructor; [lia|]. apply Forall_forall. intros x I. apply isort_In in I. rewrite Forall_forall in FB. specialize (FB x I). lia. }
  assert (LAST : forall d, List.last (isort Nat.leb bs) d = (n - 1)%nat).
  { intros d. assert (G : forall l, StronglySorted le l -> In (n - 1)%nat l -> Forall (fun j => (j < n)%nat) l -> List.last l d = (n - 1)%nat).
    { clear - NN. induction l as [|x l IH]; intros S I FL; [destruct I|]. apply StronglySorted_inv in S. destruct S as [S FA]. destruct l as [|y l].
      - destruct I as [->|[]]. reflexivity.
      - change (List.last (x :: y :: l) d) with (List.last (y :: l) d). apply IH; [exact S| |apply Forall_inv_tail in FL; exact FL]. destruct I as [->|I]; [|exact I]. left. apply Forall_inv in FA. apply Forall_inv_tail in FL. apply Forall_inv in FL. lia. }
    apply G; [apply StronglySorted_inv in SB; apply SB| |].
    - apply isort_In. unfold bs. apply in_or_app. right. right. left. reflexivity.
    - apply Forall_forall. intros x I. apply isort_In in I. rewrite Forall_forall in FB. exact (FB x I). }
  assert (NB : isort Nat.leb bs <> []) by (intros C; apply isort_nil_iff in C; unfold bs in C; destruct (List.last events []); discriminate C).
  assert (TAIL : skipn (n - 1) out = [state_of (nth (n - 1) nows start)]).
  { destruct (LST 0%nat) as [T|T]; [|contradiction]. rewrite !LAST, Nat.sub_0_r in T. rewrite T, (skipn_nth (n - 1) nows start) by lia. rewrite skipn_all2 by lia. reflexivity. }
  exists nows, us, events, (Run out (List.last events []) (Fin (snd (snd (nth (n - 1) nows start)))) (Fin (fst (fst (snd (nth (n - 1) nows start)))))). cbv zeta. fold n.
  split; [exact PS|]. split; [exact H0|]. split.
  { unfold run_filter. rewrite K1, K2, K3, K4, K5, K6. replace (initial_state (Fin s) (Fin l) (Fin a) (Fin b)) with (state_of start).
    2:{ unfold initial_state, state_of, start, vec_of, mat_of, fz. cbn [fst snd fmul]. rewrite qz0. reflexivity. }
    rewrite EF. cbn [bind]. unfold smooth_results, borders. rewrite map_length, L1. fold n. fold bs. cbn [skipn] in ES. unfold noise_of. rewrite ES. cbn [bind].
    assert (RV : exists q, rev (map state_of nows) = state_of (nth (n - 1) nows start) :: q).
    { exists (rev (map state_of (firstn (n - 1) nows))). rewrite <- (firstn_skipn (n - 1) nows) at 1. rewrite (skipn_nth (n - 1) nows start) by lia. rewrite (skipn_all2 (n := S (n - 1))) by lia. rewrite map_app, rev_app_distr. reflexivity. }
    destruct RV as (q & ->). destruct (nth (n - 1) nows start) as [m [[p c] r]]. reflexivity. }
  split; [reflexivity|]. split; [reflexivity|]. split; [reflexivity|]. cbn [kr_events level rate kr_states]. unfold level, rate. cbn [kr_states]. split.
  - intros i e NT. exists (back_path v (rows i e nows)). split.
    + apply (stretch_best v R med soiling start zs us events Hv HR D PS); [|exact NT]. destruct NT as (_ & I2 & _). fold bs in I2. rewrite Forall_forall in FB. specialize (FB e I2). lia.
    + fold bs in NT. assert (X : map f_x (rows i e out) = map vec_of (back_path v (rows i e nows))).
      { specialize (SM i e). rewrite !Nat.sub_0_r in SM. apply SM. destruct NT as (I1 & I2 & N & B). split; [right; apply isort_In; exact I1|]. split; [right; apply isort_In; exact I2|]. split; [exact N|].
        intros x [<-|I]; [left; lia|]. apply B. apply isort_In in I. exact I. }
      rewrite !rows_map. split; [apply (f_equal (map v0)) in X|apply (f_equal (map v1)) in X]; rewrite !map_map in X; exact X.
  - unfold rows. replace (n - (n - 1))%nat with 1%nat by lia. rewrite !skipn_map, TAIL. split; reflexivity.
Qed.
