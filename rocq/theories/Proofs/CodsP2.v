(** Consequences for _collapse_cleaning_events. *)

From Coq Require Import QArith Qcanon List ZArith Bool Arith Lia Sorted String.
From Verif.Base Require Import QcExtra ISort Quantile Fl TimeSeries Calendar Rolling.
From Verif.Spec Require Import Stats Filters Soiling Cods.
From Verif.Model Require Import Soiling CodsTools.
From Verif.Proofs Require Import FlP CodsP.
Import ListNotations.
Open Scope list_scope.

Lemma islands_unique : forall ev f hi a l, islands ev f hi a l -> forall l', islands ev f hi a l' -> l = l'.
Proof.
  intros ev f hi a l H. induction H as [a N|a s Hs Hb Ho|a s e l R Le I IH]; intros l' H'.
  - inversion H' as [a0 N0|a0 s0 Hs0 Hb0 Ho0|a0 s0 e0 l0 R0 Le0 I0]; subst; try reflexivity.
    exfalso. destruct R0 as (R1 & R2 & R3 & R4). apply (N s0); [lia|]. apply R3. lia.
  - inversion H' as [a0 N0|a0 s0 Hs0 Hb0 Ho0|a0 s0 e0 l0 R0 Le0 I0]; subst; try reflexivity.
    exfalso. destruct R0 as (R1 & R2 & R3 & R4). apply R4. apply Ho.
    assert (~ (s0 < s)%nat) by (intro C; apply (Hb s0); [lia|]; apply R3; lia). lia.
  - destruct R as (R1 & R2 & R3 & R4).
    inversion H' as [a0 N0|a0 s0 Hs0 Hb0 Ho0|a0 s0 e0 l0 R0 Le0 I0]; subst.
    + exfalso. apply (N0 s); [lia|]. apply R3. lia.
    + exfalso. apply R4. apply Ho0.
      assert (~ (s < s0)%nat) by (intro C; apply (Hb0 s); [lia|]; apply R3; lia). lia.
    + destruct R0 as (Q1 & Q2 & Q3 & Q4).
      assert (s = s0) as <-.
      { assert (~ (s < s0)%nat) by (intro C; apply (Q2 s); [lia|]; apply R3; lia).
        assert (~ (s0 < s)%nat) by (intro C; apply (R2 s0); [lia|]; apply Q3; lia). lia. }
      assert (e = e0) as <-.
      { assert (~ (e < e0)%nat) by (intro C; apply R4; apply Q3; lia).
        assert (~ (e0 < e)%nat) by (intro C; apply Q4; apply R3; lia). lia. }
      f_equal. apply IH. exact I0.
Qed.

Lemma islands_exist : forall ev f hi n a, (hi < a + n)%nat -> exists l, islands ev f hi a l.
Proof.
  intros ev f hi n. induction n as [|n IH]; intros a L.
  - exists []. apply isl_none. intros i Hi. lia.
  - destruct (find (fun i => nth i ev false) (seq a (hi - a))) as [s|] eqn:E.
    + apply find_seq_some in E. destruct E as (E1 & E2 & E3).
      destruct (find (fun i => negb (nth i ev false)) (seq s (hi - s))) as [t|] eqn:F.
      * apply find_seq_some in F. destruct F as (F1 & F2 & F3). apply negb_true_iff in F2.
        assert (s <> t) by congruence.
        destruct (IH (S (t - 1 + f)) ltac:(lia)) as (l & I). exists ((s, (t - 1)%nat) :: l).
        apply isl_take; [|lia|exact I]. split; [lia|]. split; [|split].
        -- intros i Hi. apply undetected_nth. apply E3. exact Hi.
        -- intros i Hi. apply detected_nth. specialize (F3 i ltac:(lia)). apply negb_false_iff in F3. exact F3.
        -- replace (S (t - 1)) with t by lia. apply undetected_nth. exact F2.
      * exists []. apply isl_open with s; [lia| |].
        -- intros i Hi. apply undetected_nth. apply E3. exact Hi.
        -- intros i Hi. apply detected_nth. pose proof (find_seq_none _ _ _ F i ltac:(lia)) as Q. apply negb_false_iff in Q. exact Q.
    + exists []. apply isl_none. intros i Hi. apply undetected_nth. apply (find_seq_none _ _ _ E). lia.
Qed.

(** Every island is a run of detected rows away from the edges. *)
Lemma islands_In : forall ev f hi a l, islands ev f hi a l -> forall se, In se l ->
  (a <= fst se <= snd se)%nat /\ (S (snd se) < hi)%nat /\ (forall i, (fst se <= i <= snd se)%nat -> detected ev i) /\ ~ detected ev (S (snd se)).
Proof.
  intros ev f hi a l H. induction H as [a N|a s Hs Hb Ho|a s e l R Le I IH]; intros se [].
  - subst se. destruct R as (R1 & R2 & R3 & R4). simpl. split; [lia|]. split; [exact Le|]. split; assumption.
  - destruct R as (R1 & _). destruct (IH se H) as (A & B). split; [lia|exact B].
Qed.

Lemma peak_not_missing : forall m lo hi p, is_peak m lo hi p -> ~ all_missing m lo hi.
Proof. intros m lo hi p (Hp & x & E & N & _) A. apply N. exact (A p x Hp E). Qed.

Lemma peaks_unique : forall m f isl p p', Forall2 (fun se p => is_peak m (fst se - f) (snd se + f) p) isl p ->
  Forall2 (fun se p => is_peak m (fst se - f) (snd se + f) p) isl p' -> p = p'.
Proof.
  intros m f isl p p' H. revert p'. induction H as [|se q l ps A B IH]; intros p' H'; inversion H'; subst; [reflexivity|].
  f_equal; [eapply peak_unique; eassumption|]. apply IH. assumption.
Qed.
Lemma bools_ext : forall a b, List.length a = List.length b -> (forall i, detected a i <-> detected b i) -> a = b.
Proof.
  intros a b L H. apply (nth_ext _ _ false false L). intros i _.
  specialize (H i). rewrite !detected_nth in H. destruct (nth i a false), (nth i b false); try reflexivity; exfalso.
  - assert (false = true) by (apply H; reflexivity). discriminate.
  - assert (false = true) by (apply H; reflexivity). discriminate.
Qed.

Lemma collapse_ok : forall f ev metric out, List.length metric = List.length ev -> (0 < f)%nat -> (2 * f < List.length ev)%nat ->
  (collapse_cleaning_events f ev metric = Ok out <-> collapsed f ev metric out).
Proof.
  intros f ev metric out Lm F0 Fn. destruct (collapse_main f ev metric Lm F0 Fn) as (isl & I & M). split.
  - intro E. rewrite E in M. destruct M as (peaks & P). exists isl, peaks. split; [exact I|exact P].
  - intros (isl' & peaks' & I' & P' & L' & D'). pose proof (islands_unique _ _ _ _ _ I _ I') as <-.
    destruct (collapse_cleaning_events f ev metric) as [o|ex].
    + destruct M as (peaks & P & L & D). pose proof (peaks_unique _ _ _ _ _ P P') as <-.
      f_equal. apply bools_ext; [congruence|]. intro i. rewrite D, D'. reflexivity.
    + exfalso. destruct M as (_ & se & In & A). apply In_nth_error in In. destruct In as [k Ek].
      revert k Ek. clear -P' A. induction P' as [|se0 p l ps H1 H2 IH]; intros [|k] Ek; try discriminate Ek.
      * simpl in Ek. injection Ek as ->. exact (peak_not_missing _ _ _ _ H1 A).
      * exact (IH _ Ek).
Qed.

Lemma collapse_raises : forall f ev metric, List.length metric = List.length ev -> (0 < f)%nat -> (2 * f < List.length ev)%nat ->
  forall e, collapse_cleaning_events f ev metric = Raise e <->
  e = ValueError /\ exists isl se, islands ev f (List.length ev - f) f isl /\ In se isl /\ all_missing metric (fst se - f) (snd se + f).
Proof.
  intros f ev metric Lm F0 Fn e. destruct (collapse_main f ev metric Lm F0 Fn) as (isl & I & M). split.
  - intro E. rewrite E in M. destruct M as (-> & se & In & A). split; [reflexivity|]. exists isl, se. auto.
  - intros (-> & isl' & se & I' & In & A). pose proof (islands_unique _ _ _ _ _ I _ I') as <-.
    destruct (collapse_cleaning_events f ev metric) as [o|ex].
    + exfalso. destruct M as (peaks & P & _). revert In. clear -P A.
      induction P as [|se0 p l ps H1 H2 IH]; intros []; [subst; exact (peak_not_missing _ _ _ _ H1 A)|auto].
    + destruct M as (-> & _). reflexivity.
Qed.

Lemma collapse_short : forall f ev metric, (f = 0 \/ List.length ev <= 2 * f \/ List.length metric <> List.length ev)%nat ->
  collapse_cleaning_events f ev metric = Raise ValueError.
Proof.
  intros f ev metric H. unfold collapse_cleaning_events.
  destruct (Nat.eqb_spec (List.length metric) (List.length ev)) as [L|L]; cbn [negb]; [|reflexivity].
  unfold first_true. destruct (Nat.eqb_spec f 0) as [->|N]; [reflexivity|].
  destruct (Nat.ltb_spec f (List.length ev - f)) as [C|C]; [lia|reflexivity].
Qed.

(** Every reported event. *)
Lemma reported_peak : forall m f isl peaks i, Forall2 (fun se p => is_peak m (fst se - f) (snd se + f) p) isl peaks ->
  reported f isl peaks i -> exists se, In se isl /\ is_peak m (fst se - f) (snd se + f) i.
Proof.
  intros m f isl peaks i F (k & E & _). revert k E. induction F as [|se p l ps A B IH]; intros [|k] E; try discriminate E.
  - simpl in E. injection E as <-. exists se. split; [left; reflexivity|exact A].
  - destruct (IH _ E) as (se' & I & P). exists se'. split; [right; exact I|exact P].
Qed.

Lemma collapse_near : forall f ev metric out i, collapse_cleaning_events f ev metric = Ok out -> detected out i ->
  exists s e, (f <= s <= e)%nat /\ (S e + f < List.length ev)%nat /\ (forall j, (s <= j <= e)%nat -> detected ev j) /\
    ~ detected ev (S e) /\ is_peak metric (s - f) (e + f) i.
Proof.
  intros f ev metric out i E D.
  assert (C : ~ (f = 0 \/ List.length ev <= 2 * f \/ List.length metric <> List.length ev)%nat)
    by (intro C; rewrite (collapse_short _ _ _ C) in E; discriminate E).
  apply collapse_ok in E; [|lia|lia|lia]. destruct E as (isl & peaks & I & F & L & R).
  apply R in D. destruct (reported_peak _ _ _ _ _ F D) as ((s & e) & In & P).
  destruct (islands_In _ _ _ _ _ I _ In) as (A & B & B2 & B3). simpl in *.
  exists s, e. split; [exact A|]. split; [lia|]. split; [exact B2|]. split; [exact B3|exact P].
Qed.

Lemma collapse_count : forall f ev metric out, collapse_cleaning_events f ev metric = Ok out ->
  exists isl, islands ev f (List.length ev - f) f isl /\
  forall l, NoDup l -> (forall i, In i l -> detected out i) -> (List.length l <= List.length isl)%nat.
Proof.
  intros f ev metric out E.
  assert (C : ~ (f = 0 \/ List.length ev <= 2 * f \/ List.length metric <> List.length ev)%nat)
    by (intro C; rewrite (collapse_short _ _ _ C) in E; discriminate E).
  apply collapse_ok in E; [|lia|lia|lia]. destruct E as (isl & peaks & I & F & L & R).
  exists isl. split; [exact I|]. intros l N H.
  assert (incl l peaks) as Inc.
  { intros i Hi. destruct (proj1 (R i) (H i Hi)) as (k & Ek & _). apply nth_error_In in Ek. exact Ek. }
  pose proof (NoDup_incl_length N Inc) as Q. clear -F Q.
  assert (List.length isl = List.length peaks) as ->; [|exact Q].
  clear Q. induction F; simpl; congruence.
Qed.

(** A reported event for every last island. *)
Lemma collapse_some : forall f ev metric out isl, collapse_cleaning_events f ev metric = Ok out ->
  islands ev f (List.length ev - f) f isl -> isl <> [] -> exists i, detected out i.
Proof.
  intros f ev metric out isl E I N.
  assert (C : ~ (f = 0 \/ List.length ev <= 2 * f \/ List.length metric <> List.length ev)%nat)
    by (intro C; rewrite (collapse_short _ _ _ C) in E; discriminate E).
  apply collapse_ok in E; [|lia|lia|lia]. destruct E as (isl' & peaks & I' & F & L & R).
  pose proof (islands_unique _ _ _ _ _ I _ I') as <-.
  assert (Lp : List.length isl = List.length peaks) by (clear -F; induction F; simpl; congruence).
  destruct isl as [|se isl]; [congruence|]. simpl in Lp.
  destruct (nth_error peaks (List.length isl)) as [p|] eqn:Ep.
  - exists p. apply R. exists (List.length isl). split; [exact Ep|].
    intros j se' Lj Ej. exfalso. apply nth_error_None in Ep || idtac.
    assert (nth_error (se :: isl) j = None) as Q by (apply nth_error_None; simpl; lia). congruence.
  - apply nth_error_None in Ep. lia.
Qed.

Lemma collapse_nothing : forall f ev metric, List.length metric = List.length ev -> (0 < f)%nat -> (2 * f < List.length ev)%nat ->
  (forall i, (f <= i < List.length ev - f)%nat -> ~ detected ev i) ->
  collapse_cleaning_events f ev metric = Ok (repeat false (List.length ev)).
Proof.
  intros f ev metric Lm F0 Fn H. apply collapse_ok; [assumption..|].
  exists [], []. split; [apply isl_none; exact H|]. split; [constructor|]. split; [apply repeat_length|].
  intro i. split; intro D; [elim (detected_repeat _ _ D)|elim (reported_nil _ _ D)].
Qed.
