(** Proofs about the cleaning events of the Kalman filter and its pruning loop. *)

From Coq Require Import QArith Qcanon List ZArith Bool Arith Lia String Sorted Permutation.
From Verif.Base Require Import QcExtra ISort Quantile Fl TimeSeries Calendar Rolling.
From Verif.Spec Require Import Stats Soiling Cods Kalman.
From Verif.Model Require Import Soiling CodsTools CodsKalman.
From Verif.Proofs Require Import FlP StatsP FiltersP FiltersP2 SoilP2 CodsP CodsP3 CodsP5 CodsP6.
Import ListNotations.
Open Scope list_scope.
Open Scope nat_scope.

(** ** Event lists *)

Definition good (n : nat) (ce : list nat) : Prop := StronglySorted le ce /\ Forall (fun i => i < n) ce.

Lemma member_In : forall k l, member k l = true <-> In k l.
Proof.
  intros k l. unfold member. rewrite existsb_exists. split.
  - intros (x & I & E). apply Nat.eqb_eq in E. subst. exact I.
  - intros I. exists k. split; [exact I|apply Nat.eqb_refl].
Qed.

Lemma remove_first_In : forall k l x, In x (remove_first k l) -> In x l.
Proof. induction l as [|y l IH]; cbn; intros x H; [exact H|]. destruct (y =? k); [right; exact H|destruct H as [->|H]; [left; reflexivity|right; auto]]. Qed.
Lemma insort_In : forall k l x, In x (insort k l) <-> x = k \/ In x l.
Proof.
  induction l as [|y l IH]; cbn [insort]; intros x; [cbn; intuition|].
  destruct (k <? y); cbn; [intuition|rewrite IH; intuition].
Qed.

Lemma good_remove : forall n k l, good n l -> good n (remove_first k l).
Proof.
  intros n k l [S F]. split.
  - clear F. induction l as [|y l IH]; cbn; [constructor|]. apply StronglySorted_inv in S. destruct S as [S Y].
    destruct (y =? k); [exact S|]. constructor; [apply IH; exact S|]. rewrite Forall_forall in *. intros x Hx. apply Y, (remove_first_In k), Hx.
  - rewrite Forall_forall in *. intros x Hx. apply F, (remove_first_In k), Hx.
Qed.
Lemma good_insort : forall n k l, k < n -> good n l -> good n (insort k l).
Proof.
  intros n k l K [S F]. split.
  - clear F. induction l as [|y l IH]; cbn [insort]; [repeat constructor|]. pose proof S as S0. apply StronglySorted_inv in S. destruct S as [S Y].
    destruct (Nat.ltb_spec k y) as [L|L].
    + constructor; [exact S0|]. rewrite Forall_forall in *. intros x [<-|Hx]; [lia|]. specialize (Y x Hx). lia.
    + constructor; [apply IH; exact S|]. rewrite Forall_forall in *. intros x Hx. apply insort_In in Hx. destruct Hx as [->|Hx]; [exact L|apply Y, Hx].
  - rewrite Forall_forall in *. intros x Hx. apply insort_In in Hx. destruct Hx as [->|Hx]; [exact K|apply F, Hx].
Qed.
Lemma sorted_seq : forall n k, StronglySorted le (seq k n).
Proof.
  induction n as [|n IH]; intros k; cbn [seq]; constructor; [apply IH|]. apply Forall_forall. intros x Hx. apply in_seq in Hx. lia.
Qed.
Lemma sorted_filter : forall A (R : A -> A -> Prop) (p : A -> bool) l, StronglySorted R l -> StronglySorted R (filter p l).
Proof.
  intros A R p l. induction l as [|x l IH]; intros S; cbn; [constructor|]. apply StronglySorted_inv in S. destruct S as [S X].
  destruct (p x); [|apply IH, S]. constructor; [apply IH, S|]. rewrite Forall_forall in *. intros y Hy. apply filter_In in Hy. apply X, Hy.
Qed.
Lemma sorted_kept : forall l b, StronglySorted le l -> StronglySorted le (map fst (filter (fun p : nat * bool => negb (snd p)) (combine l b))).
Proof.
  induction l as [|x l IH]; intros b S; [constructor|]. destruct b as [|y b]; [constructor|]. apply StronglySorted_inv in S. destruct S as [S X].
  cbn. destruct y; cbn; [apply IH, S|]. constructor; [apply IH, S|]. rewrite Forall_forall in *. intros z Hz. apply in_map_iff in Hz.
  destruct Hz as ([u v] & <- & Hz). apply filter_In in Hz. destruct Hz as [Hz _]. apply in_combine_l in Hz. apply X, Hz.
Qed.
Lemma good_isort : forall n l, Forall (fun i => i < n) l -> good n (isort Nat.leb l).
Proof.
  intros n l F. split.
  - assert (StronglySorted (le' Nat.leb) (isort Nat.leb l)) as S.
    { apply isort_sorted; intros; rewrite ?Nat.leb_le in *; lia. }
    clear F. induction S as [|x m S IH H]; constructor; [exact IH|]. eapply Forall_impl; [|exact H]. intros y Hy. apply Nat.leb_le. exact Hy.
  - rewrite Forall_forall in *. intros x Hx. apply isort_In in Hx. apply F, Hx.
Qed.
Lemma good_rows : forall b, good (List.length b) (true_rows b).
Proof.
  intros b. split; [apply sorted_filter, sorted_seq|]. apply Forall_forall. intros x Hx. apply filter_In in Hx. destruct Hx as [Hx _]. apply in_seq in Hx. lia.
Qed.

(** ** Moving events *)

Lemma argmax_from_bound : forall l best b i, argmax_from best b i l = b \/ i <= argmax_from best b i l < i + List.length l.
Proof.
  induction l as [|x l IH]; intros best b i; cbn [argmax_from List.length]; [left; reflexivity|].
  destruct (isnan best); [left; reflexivity|]. destruct (isnan x || flt best x)%bool.
  - destruct (IH x i (S i)) as [->|H]; lia.
  - destruct (IH best b (S i)) as [->|H]; [left; reflexivity|right; lia].
Qed.
Lemma argmax_bound : forall l, l <> [] -> argmax l < List.length l.
Proof.
  intros [|x l] H; [congruence|]. cbn [argmax List.length]. destruct (argmax_from_bound l x 0 1) as [->|K]; lia.
Qed.
Lemma local_steps_length : forall l, List.length (local_steps l) = 10.
Proof. intros l. unfold local_steps. rewrite map_length, seq_length. reflexivity. Qed.

Lemma good_control : forall n f s local i ce, i + 7 < n -> good n ce -> good n (snd (control_input f s local i ce)).
Proof.
  intros n f s local i ce H G. unfold control_input.
  assert (M : argmax (local_steps local) < 10).
  { rewrite <- (local_steps_length local). apply argmax_bound. intro C. pose proof (local_steps_length local) as L. rewrite C in L. discriminate L. }
  destruct (_ || _)%bool.
  - destruct (_ && _)%bool; [exact G|]. cbn [snd]. destruct (member i ce); [apply good_remove|]; exact G.
  - cbn [snd]. destruct (_ && _)%bool; [apply good_insort; [lia|]|]; apply good_remove; exact G.
Qed.

Lemma forward_ok : forall f n rm7 soiling zs i s ce states ce',
  forward_from f n rm7 soiling i zs s ce = Ok (states, ce') -> good n ce -> List.length states = List.length zs /\ good n ce'.
Proof.
  intros f n rm7 soiling zs. induction zs as [|z zs IH]; intros i s ce states ce' E G; cbn [forward_from] in E.
  - injection E as <- <-. split; [reflexivity|exact G].
  - match type of E with context [let '(_, _) := ?X in _] => destruct X as [s1 ce1] eqn:EX end.
    assert (G1 : good n ce1).
    { destruct (_ && _)%bool eqn:C in EX; [|injection EX as _ <-; exact G].
      pose proof (good_control n f s (local_medians rm7 i) i ce) as K. destruct (control_input f s (local_medians rm7 i) i ce) as [u ce2].
      injection EX as _ <-. apply K; [|exact G]. apply andb_true_iff in C. destruct C as [C _]. apply andb_true_iff in C. destruct C as [_ C]. apply Nat.ltb_lt in C. exact C. }
    destruct (if isnan z then Ok s1 else kf_update f z s1) as [s2|e]; [|discriminate E]. cbn [bind] in E.
    destruct (forward_from f n rm7 soiling (S i) zs s2 ce1) as [[st c]|e] eqn:EF; [|discriminate E]. cbn [bind fst snd] in E. injection E as <- <-.
    destruct (IH _ _ _ _ _ EF G1) as [L G2]. split; [cbn; f_equal; exact L|exact G2].
Qed.

(** ** Smoothing keeps the rows *)

Lemma rts_length : forall f l l', rts f l = Ok l' -> List.length l' = List.length l.
Proof.
  intros f. induction l as [|s l IH]; intros l' E; cbn [rts] in E; [injection E as <-; reflexivity|].
  destruct (rts f l) as [rest|e] eqn:ER; [|discriminate E]. cbn [bind] in E. specialize (IH rest eq_refl).
  destruct rest as [|nx rest]; [injection E as <-; cbn in *; lia|].
  destruct (inverse _) as [inv|e]; [|discriminate E]. cbn [bind] in E. injection E as <-. cbn in *. lia.
Qed.
Lemma smooth_from_length : forall f ends a states l, smooth_from f a ends states = Ok l -> List.length l = List.length states.
Proof.
  intros f. induction ends as [|e ends IH]; intros a states l E; cbn [smooth_from] in E; [injection E as <-; reflexivity|].
  destruct (rts f (firstn (e - a) states)) as [now|x] eqn:E1; [|discriminate E]. cbn [bind] in E.
  destruct (smooth_from f e ends (skipn (e - a) states)) as [later|x] eqn:E2; [|discriminate E]. cbn [bind] in E. injection E as <-.
  rewrite app_length, (rts_length _ _ _ E1), (IH _ _ _ E2), <- app_length, firstn_skipn. reflexivity.
Qed.

Definition run_good (k : kalman_setup) (r : kalman_run) : Prop :=
  List.length (kr_states r) = List.length (ks_zs k) /\ good (List.length (ks_zs k)) (kr_events r).

Lemma run_filter_good : forall k a b ce r, run_filter k a b ce = Ok r -> good (List.length (ks_zs k)) ce -> run_good k r.
Proof.
  intros k a b ce r E G. unfold run_filter in E.
  destruct (forward_pass _ _ _ _ _ _) as [[states ce']|e] eqn:EF; [|discriminate E]. cbn [bind] in E.
  destruct (smooth_results _ _ _ _) as [smooth|e] eqn:ES; [|discriminate E]. cbn [bind] in E.
  destruct (rev states) as [|last rs]; [discriminate E|]. injection E as <-.
  destruct (forward_ok _ _ _ _ _ _ _ _ _ _ EF G) as [L G'].
  split; cbn [kr_states kr_events]; [|exact G']. rewrite (smooth_from_length _ _ _ _ _ ES). exact L.
Qed.

(** ** Dropping and adding events *)

Lemma collapse_loop_length : forall fuel f hi metric start dummy out l,
  collapse_loop fuel f hi metric start dummy out = Ok l -> List.length l = List.length out.
Proof.
  induction fuel as [|fuel IH]; intros f hi metric start dummy out l E; cbn [collapse_loop] in E; [injection E as <-; reflexivity|].
  destruct (start =? 0); [injection E as <-; reflexivity|]. cbv zeta in E. destruct (start <? _); [|injection E as <-; reflexivity].
  destruct (peak_day _ _ _) as [day|e]; [|discriminate E]. cbn [bind] in E. destruct (first_true _ _ _) as [next|e]; [|discriminate E]. cbn [bind] in E.
  apply IH in E. rewrite E, mark_length, clear_length. reflexivity.
Qed.
Lemma collapse_length : forall f ev metric l, collapse_cleaning_events f ev metric = Ok l -> List.length l = List.length ev.
Proof.
  intros f ev metric l E. unfold collapse_cleaning_events in E. cbv zeta in E. destruct (negb _); [discriminate E|].
  destruct (first_true _ _ _) as [start|e]; [|discriminate E]. cbn [bind] in E. apply collapse_loop_length in E. rewrite E. apply repeat_length.
Qed.

Lemma keep_good : forall k r ce, keep_events k r = Ok ce -> run_good k r -> good (List.length (ks_zs k)) ce.
Proof.
  intros k r ce E [L G]. unfold keep_events in E.
  match type of E with bind ?X _ = _ => destruct X as [kept|e] eqn:EK; [|discriminate E] end. cbn [bind] in E. cbv zeta in E.
  assert (GK : good (List.length (ks_zs k)) kept).
  { destruct (kr_events r) as [|c cs] eqn:EC; [injection EK as <-; exact G|]. rewrite <- EC in *.
    destruct (find_numeric_outliers _ _ _) as [o|e]; [|discriminate EK]. cbn [bind] in EK. destruct o as [| |low|]; try (injection EK as <-; exact G).
    injection EK as <-. destruct G as [S F]. split; [apply sorted_kept, S|]. rewrite Forall_forall in *. intros x Hx. apply in_map_iff in Hx.
    destruct Hx as ([u v] & <- & Hx). apply filter_In in Hx. destruct Hx as [Hx _]. apply in_combine_l in Hx. apply F, Hx. }
  destruct (1 <? _); [|injection E as <-; exact GK].
  destruct (collapse_cleaning_events _ _ _) as [more|e] eqn:EM; [|discriminate E]. cbn [bind] in E. injection E as <-.
  apply good_isort. apply Forall_app. split; [exact (proj2 GK)|]. apply Forall_forall. intros x Hx. apply filter_In in Hx. destruct Hx as [Hx _]. apply in_seq in Hx.
  apply collapse_length in EM. rewrite EM, map_length in Hx. unfold rate in Hx. rewrite map_length, L in Hx. lia.
Qed.

Lemma diffs_length : forall l, List.length (diffs l) = List.length l.
Proof. intros l. unfold diffs. rewrite map_length, seq_length. reflexivity. Qed.
Lemma first_good : forall zs p ce, first_events zs p = Ok ce -> good (List.length zs) ce.
Proof.
  assert (D : forall zs ce, (let '(c, rm9) := ce_detection true 9 (ff 1 2) zs in bind (collapse_cleaning_events 5 c (diffs rm9)) (fun b => Ok (true_rows b))) = Ok ce -> good (List.length zs) ce).
  { intros zs ce E. unfold ce_detection in E. cbv zeta in E. destruct (collapse_cleaning_events _ _ _) as [b|e] eqn:EB; [|discriminate E]. cbn [bind] in E. injection E as <-.
    apply collapse_length in EB. rewrite map_length, diffs_length in EB. unfold centered_medians, vals in EB.
    rewrite map_length, rolling_median_length, numbered_length, fill_length in EB. rewrite <- EB. apply good_rows. }
  intros zs p ce E. unfold first_events in E. cbv zeta in E. destruct p as [b|]; [|apply D, E].
  destruct (4 <? _); [|apply D, E]. destruct (Nat.eqb_spec (List.length b) (List.length zs)) as [H|H]; [|discriminate E]. injection E as <-. rewrite <- H. apply good_rows.
Qed.

(** ** The pruning loop *)

Lemma prune_ok : forall fuel k iterations counter r ratio rates r' ratio' rates',
  prune_loop fuel k iterations counter r ratio rates = Some (Ok (r', ratio', rates')) -> run_good k r ->
  run_good k r' /\
  ((iterations <= counter /\ r' = r /\ ratio' = ratio /\ rates' = rates) \/
   (counter < iterations /\ exists before, ratio_and_rates k r' before = (ratio', rates') /\ (ks_clip k = false -> before = rates))).
Proof.
  induction fuel as [|fuel IH]; intros k iterations counter r ratio rates r' ratio' rates' E G; cbn [prune_loop] in E;
    destruct (Nat.ltb_spec counter iterations) as [L|L]; try discriminate E;
    try (injection E as <- <- <-; split; [exact G|left; auto]; fail).
  assert (C : ks_clip k = false -> forall r0 b, snd (ratio_and_rates k r0 b) = b) by (intros H r0 b; unfold ratio_and_rates; rewrite H; reflexivity).
  destruct (keep_events k r) as [ce|e] eqn:EK; [|discriminate E].
  destruct (same_events (kr_events r) ce).
  - destruct (ratio_and_rates k r rates) as [ra rt] eqn:ER. destruct (IH _ _ _ _ _ _ _ _ _ E G) as [G' H]. split; [exact G'|]. right. split; [exact L|].
    destruct H as [(H & -> & -> & ->)|(H & b & Eb & Hb)]; [exists rates; split; [exact ER|auto]|].
    exists b. split; [exact Eb|]. intros K. rewrite (Hb K). specialize (C K r rates). rewrite ER in C. exact C.
  - destruct (run_filter _ _ _ _) as [r1|e] eqn:EF; [|discriminate E].
    pose proof (run_filter_good _ _ _ _ _ EF (keep_good _ _ _ EK G)) as G1.
    destruct (ratio_and_rates k r1 rates) as [ra rt] eqn:ER. destruct (IH _ _ _ _ _ _ _ _ _ E G1) as [G' H]. split; [exact G'|]. right. split; [exact L|].
    destruct H as [(H & -> & -> & ->)|(H & b & Eb & Hb)]; [exists rates; split; [exact ER|auto]|].
    exists b. split; [exact Eb|]. intros K. rewrite (Hb K). specialize (C K r1 rates). rewrite ER in C. exact C.
Qed.

(** At most 100 iterations asked for: as many rounds suffice. *)
Lemma prune_stops : forall fuel k iterations counter r ratio rates, iterations <= 100 -> iterations - counter <= fuel ->
  prune_loop fuel k iterations counter r ratio rates <> None.
Proof.
  induction fuel as [|fuel IH]; intros k iterations counter r ratio rates H F; cbn [prune_loop]; destruct (Nat.ltb_spec counter iterations) as [L|L]; try discriminate; [lia|].
  destruct (keep_events k r) as [ce|e]; [|discriminate]. destruct (same_events _ _).
  - destruct (ratio_and_rates _ _ _). apply IH; lia.
  - destruct (run_filter _ _ _ _) as [r1|e]; [|discriminate]. destruct (ratio_and_rates _ _ _). apply IH; lia.
Qed.
(** The number of rounds given does not matter beyond that. *)
Lemma prune_more : forall fuel k iterations counter r ratio rates x, prune_loop fuel k iterations counter r ratio rates = Some x ->
  forall fuel', fuel <= fuel' -> prune_loop fuel' k iterations counter r ratio rates = Some x.
Proof.
  induction fuel as [|fuel IH]; intros k iterations counter r ratio rates x E fuel' F; cbn [prune_loop] in E.
  - destruct fuel'; cbn [prune_loop]; destruct (counter <? iterations); try discriminate E; exact E.
  - destruct fuel' as [|fuel']; [lia|]. cbn [prune_loop]. destruct (counter <? iterations); [|exact E].
    destruct (keep_events k r) as [ce|e]; [|exact E]. destruct (same_events _ _).
    + destruct (ratio_and_rates _ _ _). apply (IH _ _ _ _ _ _ _ E). lia.
    + destruct (run_filter _ _ _ _) as [r1|e]; [|exact E]. destruct (ratio_and_rates _ _ _). apply (IH _ _ _ _ _ _ _ E). lia.
Qed.
(** More than 100 asked for, and a round that leaves the events alone: the loop never ends. *)
Lemma prune_forever : forall fuel k iterations counter r ratio rates, 100 < iterations -> counter < iterations ->
  keep_events k r = Ok (kr_events r) -> prune_loop fuel k iterations counter r ratio rates = None.
Proof.
  induction fuel as [|fuel IH]; intros k iterations counter r ratio rates H L E; cbn [prune_loop]; destruct (Nat.ltb_spec counter iterations) as [L'|L']; try reflexivity; try lia.
  rewrite E. unfold same_events. destruct (list_eq_dec _ _ _) as [_|N]; [|congruence]. destruct (ratio_and_rates _ _ _). apply IH; auto.
Qed.
