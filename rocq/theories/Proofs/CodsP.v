(** Proofs about _collapse_cleaning_events. *)

From Coq Require Import QArith Qcanon List ZArith Bool Arith Lia Sorted String.
From Verif.Base Require Import QcExtra ISort Quantile Fl TimeSeries Calendar Rolling.
From Verif.Spec Require Import Stats Filters Soiling Cods.
From Verif.Model Require Import Soiling CodsTools.
From Verif.Proofs Require Import FlP.
Import ListNotations.
Open Scope list_scope.

Lemma find_seq_some : forall (p : nat -> bool) k lo i, find p (seq lo k) = Some i ->
  (lo <= i < lo + k)%nat /\ p i = true /\ forall j, (lo <= j < i)%nat -> p j = false.
Proof.
  induction k as [|k IH]; simpl; intros lo i H; [discriminate H|].
  destruct (p lo) eqn:E.
  - injection H as <-. split; [lia|]. split; [exact E|]. intros j Hj. lia.
  - apply IH in H. destruct H as (H1 & H2 & H3). split; [lia|]. split; [exact H2|].
    intros j Hj. destruct (Nat.eq_dec j lo) as [->|N]; [exact E|]. apply H3. lia.
Qed.
Lemma find_seq_none : forall (p : nat -> bool) k lo, find p (seq lo k) = None -> forall j, (lo <= j < lo + k)%nat -> p j = false.
Proof.
  induction k as [|k IH]; simpl; intros lo H j Hj; [lia|].
  destruct (p lo) eqn:E; [discriminate H|].
  destruct (Nat.eq_dec j lo) as [->|N]; [exact E|]. apply (IH _ H). lia.
Qed.

Lemma detected_nth : forall ev i, detected ev i <-> nth i ev false = true.
Proof.
  intros ev i. unfold detected. split; intro H.
  - apply nth_error_nth with (d := false) in H. exact H.
  - destruct (nth_error ev i) as [b|] eqn:E.
    + apply nth_error_nth with (d := false) in E. congruence.
    + apply nth_error_None in E. rewrite nth_overflow in H by exact E. discriminate H.
Qed.
Lemma undetected_nth : forall ev i, ~ detected ev i <-> nth i ev false = false.
Proof. intros ev i. rewrite detected_nth. destruct (nth i ev false); split; congruence. Qed.

Lemma nth_mapi : forall (g : nat -> bool -> bool) l i,
  nth i (map (fun r => g (fst r) (snd r)) (combine (seq 0 (List.length l)) l)) false =
  if (i <? List.length l)%nat then g i (nth i l false) else false.
Proof.
  intros g l i. destruct (Nat.ltb_spec i (List.length l)) as [L|L].
  - rewrite nth_indep with (d' := (fun r => g (fst r) (snd r)) (O, false)).
    2: { rewrite map_length, combine_length, seq_length. lia. }
    rewrite (map_nth (fun r => g (fst r) (snd r))). rewrite combine_nth by apply seq_length.
    simpl. rewrite seq_nth by exact L. reflexivity.
  - apply nth_overflow. rewrite map_length, combine_length, seq_length. lia.
Qed.
Lemma clear_length : forall lo hi l, List.length (clear lo hi l) = List.length l.
Proof. intros. unfold clear. rewrite map_length, combine_length, seq_length. lia. Qed.
Lemma mark_length : forall k l, List.length (mark k l) = List.length l.
Proof. intros. unfold mark. rewrite map_length, combine_length, seq_length. lia. Qed.
Lemma clear_nth : forall lo hi l i, nth i (clear lo hi l) false = if (lo <=? i)%nat && (i <=? hi)%nat then false else nth i l false.
Proof.
  intros. unfold clear. rewrite (nth_mapi (fun k b => if (lo <=? k)%nat && (k <=? hi)%nat then false else b)).
  destruct (Nat.ltb_spec i (List.length l)); destruct ((lo <=? i)%nat && (i <=? hi)%nat); try reflexivity.
  rewrite nth_overflow by assumption. reflexivity.
Qed.
Lemma mark_nth : forall k l i, (k < List.length l)%nat -> nth i (mark k l) false = if (i =? k)%nat then true else nth i l false.
Proof.
  intros k l i L. unfold mark. rewrite (nth_mapi (fun j b => if (j =? k)%nat then true else b)).
  destruct (Nat.ltb_spec i (List.length l)); destruct (Nat.eqb_spec i k); try reflexivity; try lia.
  rewrite nth_overflow by assumption. reflexivity.
Qed.

(** The largest value. *)
Lemma notnan_iff : forall x, isnan x = false <-> x <> NaN.
Proof. intros [| | |]; simpl; split; congruence. Qed.
Lemma fle_refl' : forall x, x <> NaN -> fle x x = true.
Proof. intros [| |q|] H; simpl; try congruence. apply qle_spec. apply Qcle_refl. Qed.
Lemma flt_fle_neg : forall x y, x <> NaN -> y <> NaN -> flt x y = false -> fle y x = true.
Proof.
  intros [| |p|] [| |q|] Hx Hy; simpl; try congruence.
  unfold qlt. destruct (qle q p); simpl; congruence.
Qed.
Lemma fle_flt_trans : forall x y z, fle x y = true -> flt y z = true -> flt x z = true.
Proof.
  intros [| |p|] [| |q|] [| |r|]; simpl; try congruence. unfold qlt.
  intros H1 H2. apply qle_spec in H1. destruct (qle r q) eqn:E; [discriminate H2|].
  destruct (qle r p) eqn:E2; [|reflexivity]. apply qle_spec in E2.
  assert (qle r q = true) as C by (apply qle_spec; eapply Qcle_trans; eassumption). congruence.
Qed.
Lemma flt_fle : forall x y, flt x y = true -> fle x y = true.
Proof.
  intros [| |p|] [| |q|]; simpl; try congruence. unfold qlt. destruct (qle q p) eqn:E; simpl; [congruence|].
  intros _. apply qle_spec. apply Qclt_le_weak. apply Qcnot_le_lt. intro C. apply qle_spec in C. congruence.
Qed.

Lemma peak_fold : forall m lo k, (lo + k <= List.length m)%nat ->
  match fold_left (better m) (seq lo k) None with
  | None => forall j, (lo <= j < lo + k)%nat -> at_row m j = NaN
  | Some p => (lo <= p < lo + k)%nat /\ at_row m p <> NaN /\
      (forall j, (lo <= j < lo + k)%nat -> at_row m j <> NaN -> fle (at_row m j) (at_row m p) = true) /\
      (forall j, (lo <= j < p)%nat -> at_row m j <> NaN -> flt (at_row m j) (at_row m p) = true)
  end.
Proof.
  intros m lo k. induction k as [|k IH]; intro L.
  - simpl. intros j Hj. lia.
  - rewrite seq_S, fold_left_app. specialize (IH ltac:(lia)).
    destruct (fold_left (better m) (seq lo k) None) as [b|].
    + destruct IH as (Hb & Nb & Hm & Hf). cbn [fold_left]. unfold better.
      destruct (isnan (at_row m (lo + k))) eqn:En.
      * split; [lia|]. split; [exact Nb|]. split; [|exact Hf].
        intros j Hj Nj. destruct (Nat.eq_dec j (lo + k)) as [->|N].
        -- exfalso. apply Nj. destruct (at_row m (lo + k)); simpl in En; congruence.
        -- apply Hm; [lia|exact Nj].
      * apply notnan_iff in En. destruct (flt (at_row m b) (at_row m (lo + k))) eqn:El.
        -- split; [lia|]. split; [exact En|]. split.
           ++ intros j Hj Nj. destruct (Nat.eq_dec j (lo + k)) as [->|N]; [apply fle_refl'; exact En|].
              apply flt_fle. apply fle_flt_trans with (at_row m b); [apply Hm; [lia|exact Nj]|exact El].
           ++ intros j Hj Nj. apply fle_flt_trans with (at_row m b); [apply Hm; [lia|exact Nj]|exact El].
        -- split; [lia|]. split; [exact Nb|]. split; [|exact Hf].
           intros j Hj Nj. destruct (Nat.eq_dec j (lo + k)) as [->|N]; [apply flt_fle_neg; assumption|].
           apply Hm; [lia|exact Nj].
    + cbn [fold_left]. unfold better. destruct (isnan (at_row m (lo + k))) eqn:En.
      * intros j Hj. destruct (Nat.eq_dec j (lo + k)) as [->|N]; [destruct (at_row m (lo + k)); simpl in En; congruence|].
        apply IH. lia.
      * apply notnan_iff in En. split; [lia|]. split; [exact En|]. split.
        -- intros j Hj Nj. destruct (Nat.eq_dec j (lo + k)) as [->|N]; [apply fle_refl'; exact En|].
           exfalso. apply Nj. apply IH. lia.
        -- intros j Hj Nj. exfalso. apply Nj. apply IH. lia.
Qed.

Lemma at_row_error : forall m j x, nth_error m j = Some x -> at_row m j = x.
Proof. intros m j x H. unfold at_row. apply nth_error_nth. exact H. Qed.
Lemma error_at_row : forall m j, (j < List.length m)%nat -> nth_error m j = Some (at_row m j).
Proof. intros m j H. unfold at_row. apply nth_error_nth'. exact H. Qed.

Lemma peak_day_spec : forall m lo hi, (lo <= hi)%nat -> (hi < List.length m)%nat ->
  match peak_day m lo hi with
  | Ok p => is_peak m lo hi p
  | Raise e => e = ValueError /\ all_missing m lo hi
  end.
Proof.
  intros m lo hi L H. unfold peak_day. pose proof (peak_fold m lo (S hi - lo) ltac:(lia)) as P.
  destruct (fold_left (better m) (seq lo (S hi - lo)) None) as [p|].
  - destruct P as (P1 & P2 & P3 & P4). split; [lia|]. exists (at_row m p).
    split; [apply error_at_row; lia|]. split; [exact P2|]. split.
    + intros j y Hj Ey Ny. rewrite <- (at_row_error _ _ _ Ey) in *. apply P3; [lia|exact Ny].
    + intros j y Hj Ey Ny. rewrite <- (at_row_error _ _ _ Ey) in *. apply P4; [lia|exact Ny].
  - split; [reflexivity|]. intros j x Hj Ex. rewrite <- (at_row_error _ _ _ Ex). apply P. lia.
Qed.

Lemma peak_unique : forall m lo hi p q, is_peak m lo hi p -> is_peak m lo hi q -> p = q.
Proof.
  assert (W : forall m lo hi p q, is_peak m lo hi p -> is_peak m lo hi q -> (q <= p)%nat).
  { intros m lo hi p q (Hp & x & Ex & Nx & Mx & Fx) (Hq & y & Ey & Ny & My & Fy).
    destruct (Nat.le_gt_cases q p) as [L|L]; [exact L|exfalso].
    pose proof (Fy p x ltac:(lia) Ex Nx) as A. pose proof (Mx q y ltac:(lia) Ey Ny) as B.
    pose proof (fle_flt_trans _ _ _ B A) as C.
    destruct y as [| |q0|]; simpl in C; try congruence. unfold qlt in C.
    assert (qle q0 q0 = true) as D by (apply qle_spec; apply Qcle_refl). rewrite D in C. discriminate C. }
  intros m lo hi p q Hp Hq. pose proof (W _ _ _ _ _ Hp Hq). pose proof (W _ _ _ _ _ Hq Hp). lia.
Qed.

(** One round. *)
Lemma reported_nil : forall f i, ~ reported f [] [] i.
Proof. intros f i (k & E & _). destruct k; discriminate E. Qed.
Lemma reported_cons : forall f se isl p peaks i,
  reported f (se :: isl) (p :: peaks) i <->
  (i = p /\ forall se', In se' isl -> ~ window f se' i) \/ reported f isl peaks i.
Proof.
  intros. split.
  - intros (k & E & H). destruct k as [|k].
    + left. simpl in E. injection E as <-. split; [reflexivity|].
      intros se' I. apply In_nth_error in I. destruct I as [j Ej]. apply (H (S j)); [lia|exact Ej].
    + right. exists k. split; [exact E|]. intros j se' L Ej. apply (H (S j)); [lia|exact Ej].
  - intros [(-> & H)|(k & E & H)].
    + exists O. split; [reflexivity|]. intros [|j] se' L Ej; [lia|]. simpl in Ej. apply H. apply nth_error_In in Ej. exact Ej.
    + exists (S k). split; [exact E|]. intros [|j] se' L Ej; [lia|]. apply (H j); [lia|exact Ej].
Qed.

Definition start_ok (dummy : list bool) (a hi start : nat) : Prop :=
  (start = O /\ forall i, (a <= i < hi)%nat -> nth i dummy false = false) \/
  ((0 < start)%nat /\ (a <= start < hi)%nat /\ (forall i, (a <= i < start)%nat -> nth i dummy false = false) /\
   (nth start dummy false = true \/ forall i, (a <= i < hi)%nat -> nth i dummy false = false)).

Lemma window_bool : forall f s e i, window f (s, e) i <-> ((s - f <=? i)%nat && (i <=? e + f)%nat) = true.
Proof.
  intros. unfold window. simpl. rewrite andb_true_iff, !Nat.leb_le. lia.
Qed.

Lemma collapse_loop_spec : forall f n metric ev, List.length metric = n -> List.length ev = n -> (0 < f)%nat -> (f < n - f)%nat ->
  forall fuel a start dummy out,
  (n - f < a + fuel)%nat -> (f <= a)%nat -> List.length out = n -> List.length dummy = n ->
  (forall i, (f <= i < a)%nat -> nth i dummy false = false) ->
  (forall i, (a <= i)%nat -> nth i dummy false = nth i ev false) ->
  start_ok dummy a (n - f) start ->
  exists isl, islands ev f (n - f) a isl /\
  match collapse_loop fuel f (n - f) metric start dummy out with
  | Ok out' => exists peaks, Forall2 (fun se p => is_peak metric (fst se - f) (snd se + f) p) isl peaks /\
      List.length out' = n /\
      forall i, detected out' i <-> reported f isl peaks i \/ (detected out i /\ forall se, In se isl -> ~ window f se i)
  | Raise e => e = ValueError /\ exists se, In se isl /\ all_missing metric (fst se - f) (snd se + f)
  end.
Proof.
  intros f n metric ev Lm Lev F0 Fn. induction fuel as [|fuel IH]; intros a start dummy out Hf Ha Lo Ld Z0 Same St.
  - exists []. split.
    + apply isl_none. intros i Hi. lia.
    + simpl. exists []. split; [constructor|]. split; [exact Lo|]. intro i. split.
      * intro D. right. split; [exact D|]. intros se [].
      * intros [R|(D & _)]; [elim (reported_nil _ _ R)|exact D].
  - assert (Stop : forall i, detected out i <-> reported f [] [] i \/ (detected out i /\ forall se, In se [] -> ~ window f se i)).
    { intro i. split.
      * intro D. right. split; [exact D|]. intros se [].
      * intros [R|(D & _)]; [elim (reported_nil _ _ R)|exact D]. }
    destruct St as [(-> & Hn)|(S0 & Hs & Hb & Hc)].
    { exists []. split.
      - apply isl_none. intros i Hi. apply undetected_nth. rewrite <- Same by lia. apply Hn. exact Hi.
      - simpl. exists []. split; [constructor|]. split; [exact Lo|exact Stop]. }
    cbn [collapse_loop]. destruct (Nat.eqb_spec start 0) as [C|_]; [lia|].
    unfold first_false.
    destruct (find (fun i => negb (nth i dummy false)) (seq start (n - f - start))) as [stop|] eqn:Ef.
    + apply find_seq_some in Ef. destruct Ef as (R1 & R2 & R3). apply negb_true_iff in R2.
      destruct (Nat.ltb_spec start stop) as [Lt|Ge].
      * (* an island *)
        assert (Ds : nth start dummy false = true).
        { specialize (R3 start ltac:(lia)). apply negb_false_iff in R3. exact R3. }
        assert (Run : run_from ev a start (stop - 1)).
        { split; [lia|]. split.
          - intros i Hi. apply undetected_nth. rewrite <- Same by lia. apply Hb. exact Hi.
          - split.
            + intros i Hi. apply detected_nth. rewrite <- Same by lia.
              specialize (R3 i ltac:(lia)). apply negb_false_iff in R3. exact R3.
            + replace (S (stop - 1)) with stop by lia. apply undetected_nth. rewrite <- Same by lia. exact R2. }
        set (last := (stop - 1)%nat) in *.
        set (dummy' := clear (start - f) (last + f) dummy).
        assert (Z1 : forall i, (f <= i < S (last + f))%nat -> nth i dummy' false = false).
        { intros i Hi. unfold dummy'. rewrite clear_nth.
          destruct (Nat.leb_spec (start - f) i) as [A|A]; simpl; [destruct (Nat.leb_spec i (last + f)); [reflexivity|lia]|].
          destruct (Nat.lt_ge_cases i a) as [B|B]; [apply Z0; lia|]. apply Hb. lia. }
        assert (Same1 : forall i, (S (last + f) <= i)%nat -> nth i dummy' false = nth i ev false).
        { intros i Hi. unfold dummy'. rewrite clear_nth.
          destruct (Nat.leb_spec i (last + f)) as [A|A]; [lia|]. rewrite andb_false_r. apply Same. lia. }
        assert (Nx : exists next, first_true dummy' f (n - f) = Ok next /\
                       start_ok dummy' (S (last + f)) (n - f) (if (next =? f)%nat then O else next)).
        { unfold first_true. destruct (Nat.ltb_spec f (n - f)) as [_|C]; [|lia].
          eexists. split; [reflexivity|].
          destruct (find (fun i => nth i dummy' false) (seq f (n - f - f))) as [nx|] eqn:En.
          - apply find_seq_some in En. destruct En as (N1 & N2 & N3).
            assert (~ (nx < S (last + f))%nat) as N4 by (intro C; rewrite Z1 in N2 by lia; discriminate N2).
            destruct (Nat.eqb_spec nx f) as [C|_]; [lia|]. right.
            split; [lia|]. split; [lia|]. split; [|left; exact N2].
            intros i Hi. apply N3. lia.
          - rewrite Nat.eqb_refl. left. split; [reflexivity|]. intros i Hi. apply (find_seq_none _ _ _ En). lia. }
        destruct Nx as (next & En & Sn).
        pose proof (peak_day_spec metric (start - f) (last + f) ltac:(lia) ltac:(lia)) as Pk.
        destruct (IH (S (last + f)) (if (next =? f)%nat then O else next) dummy'
                    (mark 0 out) ltac:(lia) ltac:(lia) ltac:(rewrite mark_length; exact Lo)
                    ltac:(unfold dummy'; rewrite clear_length; exact Ld) Z1 Same1 Sn) as (isl0 & Isl0 & _).
        destruct (peak_day metric (start - f) (last + f)) as [day|ex].
        -- cbn [bind]. fold dummy'. rewrite En. cbn [bind].
           assert (Ldy : (day < n)%nat).
           { destruct Pk as (_ & x & Ex & _). rewrite <- Lm. apply nth_error_Some. congruence. }
           destruct (IH (S (last + f)) (if (next =? f)%nat then O else next) dummy'
                      (mark day (clear (start - f) (last + f) out)) ltac:(lia) ltac:(lia)
                      ltac:(rewrite mark_length, clear_length; exact Lo)
                      ltac:(unfold dummy'; rewrite clear_length; exact Ld) Z1 Same1 Sn) as (isl & Isl & M).
           exists ((start, last) :: isl). split; [apply isl_take; [exact Run|lia|exact Isl]|].
           destruct (collapse_loop fuel f (n - f) metric (if (next =? f)%nat then O else next) dummy'
                       (mark day (clear (start - f) (last + f) out))) as [out'|ex].
           ++ destruct M as (peaks & P1 & P2 & P3). exists (day :: peaks). split; [constructor; [exact Pk|exact P1]|].
              split; [exact P2|]. intro i. rewrite P3, reported_cons.
              rewrite (detected_nth (mark _ _)), mark_nth by (rewrite clear_length; lia).
              rewrite clear_nth, (detected_nth out).
              assert (W : window f (start, last) i <-> ((start - f <=? i)%nat && (i <=? last + f)%nat) = true) by apply window_bool.
              destruct (Nat.eqb_spec i day) as [Ei|Ni].
              ** split.
                 --- intros [R|(_ & Q)]; [left; right; exact R|]. left. left. split; [exact Ei|exact Q].
                 --- intros [[(_ & Q)|R]|(D & Q)].
                     +++ right. split; [reflexivity|exact Q].
                     +++ left. exact R.
                     +++ right. split; [reflexivity|]. intros se I. apply Q. right. exact I.
              ** split.
                 --- intros [R|(D & Q)]; [left; right; exact R|]. right.
                     destruct ((start - f <=? i)%nat && (i <=? last + f)%nat) eqn:Ew; [discriminate D|].
                     split; [exact D|]. intros se [<-|I]; [rewrite W; congruence|apply Q; exact I].
                 --- intros [[(C & _)|R]|(D & Q)].
                     +++ contradiction.
                     +++ left. exact R.
                     +++ right. split; [|intros se I; apply Q; right; exact I].
                         destruct ((start - f <=? i)%nat && (i <=? last + f)%nat) eqn:Ew; [|exact D].
                         exfalso. apply (Q (start, last)); [left; reflexivity|]. apply W. reflexivity.
           ++ destruct M as (-> & se & I & A). split; [reflexivity|]. exists se. split; [right; exact I|exact A].
        -- cbn [bind]. destruct Pk as (-> & A). exists ((start, last) :: isl0).
           split; [apply isl_take; [exact Run|lia|exact Isl0]|].
           split; [reflexivity|]. exists (start, last). split; [left; reflexivity|exact A].
      * assert (start = stop) as <- by lia. exists []. split.
        -- destruct Hc as [Hc|Hc]; [congruence|]. apply isl_none. intros i Hi. apply undetected_nth. rewrite <- Same by lia. apply Hc. exact Hi.
        -- exists []. split; [constructor|]. split; [exact Lo|exact Stop].
    + rewrite Nat.ltb_irrefl. pose proof (find_seq_none _ _ _ Ef) as Q. exists []. split.
      * apply isl_open with start; [exact Hs| |].
        -- intros i Hi. apply undetected_nth. rewrite <- Same by lia. apply Hb. exact Hi.
        -- intros i Hi. apply detected_nth. rewrite <- Same by lia.
           specialize (Q i ltac:(lia)). apply negb_false_iff in Q. exact Q.
      * exists []. split; [constructor|]. split; [exact Lo|exact Stop].
Qed.

Lemma detected_repeat : forall n i, ~ detected (repeat false n) i.
Proof. intros n i H. unfold detected in H. apply nth_error_In in H. apply repeat_spec in H. discriminate H. Qed.

Lemma collapse_main : forall f ev metric, List.length metric = List.length ev -> (0 < f)%nat -> (2 * f < List.length ev)%nat ->
  exists isl, islands ev f (List.length ev - f) f isl /\
  match collapse_cleaning_events f ev metric with
  | Ok out => exists peaks, Forall2 (fun se p => is_peak metric (fst se - f) (snd se + f) p) isl peaks /\
      List.length out = List.length ev /\ forall i, detected out i <-> reported f isl peaks i
  | Raise e => e = ValueError /\ exists se, In se isl /\ all_missing metric (fst se - f) (snd se + f)
  end.
Proof.
  intros f ev metric Lm F0 Fn. unfold collapse_cleaning_events. rewrite Lm, Nat.eqb_refl.
  destruct (Nat.eqb_spec f 0) as [C|_]; [lia|]. cbn [negb].
  unfold first_true. destruct (Nat.ltb_spec f (List.length ev - f)) as [L|C]; [|lia]. cbn [bind].
  destruct (collapse_loop_spec f (List.length ev) metric ev Lm eq_refl F0 L (S (List.length ev)) f
     (match find (fun i => nth i ev false) (seq f (List.length ev - f - f)) with Some i => i | None => f end)
     ev (repeat false (List.length ev))) as (isl & I & M).
  - lia.
  - lia.
  - apply repeat_length.
  - reflexivity.
  - intros i Hi. lia.
  - reflexivity.
  - right. destruct (find (fun i => nth i ev false) (seq f (List.length ev - f - f))) as [s|] eqn:E.
    + apply find_seq_some in E. destruct E as (E1 & E2 & E3). split; [lia|]. split; [lia|]. split; [exact E3|left; exact E2].
    + pose proof (find_seq_none _ _ _ E) as Q. split; [lia|]. split; [lia|]. split; [intros i Hi; lia|].
      right. intros i Hi. apply Q. lia.
  - exists isl. split; [exact I|].
    destruct (collapse_loop _ _ _ _ _ _ _) as [out|ex]; [|exact M].
    destruct M as (peaks & P1 & P2 & P3). exists peaks. split; [exact P1|]. split; [exact P2|].
    intro i. rewrite P3. split; [|intro R; left; exact R].
    intros [R|(D & _)]; [exact R|]. elim (detected_repeat _ _ D).
Qed.
