(** Full outages. *)

From Coq Require Import QArith Qcanon List ZArith Bool Arith Lia Permutation Sorted.
From Verif.Base Require Import QcExtra ISort Quantile Fl TimeSeries Calendar Rolling.
From Verif.Spec Require Import Stats Availability.
From Verif.Model Require Import Utilities Clipping Availability.
From Verif.Proofs Require Import ClipP ClipP4 AvailP AvailP2.
Import ListNotations.
Open Scope list_scope.

(** ** Filling *)
Lemma filled_length : forall l acc, length (filled_from acc l) = length l.
Proof. induction l as [| x l IH]; intros acc; cbn; [reflexivity |]. rewrite IH. reflexivity. Qed.

Lemma filled_true : forall l acc i, nth i (filled_from acc l) false = true <->
  last_daylight l i true \/ (acc = true /\ (i < length l)%nat /\ forall k, (k <= i)%nat -> nth_error l k = Some None).
Proof.
  induction l as [| x l IH]; intros acc i.
  - cbn. destruct i; (split; [discriminate |]); intros [(j & _ & H & _) | (_ & H & _)]; try lia; destruct j; discriminate.
  - cbn [filled_from]. destruct i as [| i].
    + cbn [nth]. split.
      * intros H. destruct x as [b |].
        -- subst b. left. exists 0%nat. split; [lia |]. split; [reflexivity |]. intros k Hk. lia.
        -- right. split; [exact H |]. split; [cbn; lia |]. intros k Hk. replace k with 0%nat by lia. reflexivity.
      * intros [(j & Hj & E & _) | (Ha & _ & N)].
        -- replace j with 0%nat in E by lia. cbn in E. injection E as ->. reflexivity.
        -- specialize (N 0%nat ltac:(lia)). cbn in N. injection N as ->. exact Ha.
    + cbn [nth]. rewrite IH. split.
      * intros [(j & Hj & E & N) | (Ha & Hl & N)].
        -- left. exists (S j). split; [lia |]. split; [exact E |]. intros [| k] Hk; [lia |]. apply N. lia.
        -- destruct x as [b |].
           ++ subst b. left. exists 0%nat. split; [lia |]. split; [reflexivity |]. intros [| k] Hk; [lia |]. apply N. lia.
           ++ right. split; [exact Ha |]. split; [cbn; lia |]. intros [| k] Hk; [reflexivity |]. apply N. lia.
      * intros [(j & Hj & E & N) | (Ha & Hl & N)].
        -- destruct j as [| j].
           ++ cbn in E. injection E as ->. right. split; [reflexivity |]. assert (i < length l)%nat as Li.
              { pose proof (N (S i) ltac:(lia)) as K. cbn in K. apply nth_error_Some. congruence. }
              split; [exact Li |]. intros k Hk. exact (N (S k) ltac:(lia)).
           ++ left. exists j. split; [lia |]. split; [exact E |]. intros k Hk. exact (N (S k) ltac:(lia)).
        -- right. pose proof (N 0%nat ltac:(lia)) as K. cbn in K. injection K as ->. split; [exact Ha |]. split; [cbn in Hl; lia |].
           intros k Hk. exact (N (S k) ltac:(lia)).
Qed.

Lemma nth_error_rev : forall A (l : list A) i, (i < length l)%nat -> nth_error (rev l) i = nth_error l (length l - 1 - i).
Proof.
  intros A l. induction l as [| x l IH]; intros i Hi; [cbn in Hi; lia |]. cbn [rev length]. cbn [length] in Hi.
  destruct (Nat.eq_dec i (length l)) as [-> | N].
  - rewrite nth_error_app2; rewrite rev_length; [| lia]. replace (length l - length l)%nat with 0%nat by lia.
    replace (S (length l) - 1 - length l)%nat with 0%nat by lia. reflexivity.
  - rewrite nth_error_app1 by (rewrite rev_length; lia). rewrite IH by lia. replace (S (length l) - 1 - i)%nat with (S (length l - 1 - i)) by lia. reflexivity.
Qed.

Lemma rev_daylight : forall l i b, (i < length l)%nat -> last_daylight (rev l) (length l - 1 - i) b <-> next_daylight l i b.
Proof.
  intros l i b Hi. split.
  - intros (j & Hj & E & N). rewrite nth_error_rev in E by lia. exists (length l - 1 - j)%nat. split; [lia |]. split; [exact E |].
    intros k Hk. specialize (N (length l - 1 - k)%nat ltac:(lia)). rewrite nth_error_rev in N by lia.
    replace (length l - 1 - (length l - 1 - k))%nat with k in N by lia. exact N.
  - intros (j & Hj & E & N). assert (j < length l)%nat as Lj by (apply nth_error_Some; congruence).
    exists (length l - 1 - j)%nat. split; [lia |]. rewrite nth_error_rev by lia. replace (length l - 1 - (length l - 1 - j))%nat with j by lia.
    split; [exact E |]. intros k Hk. rewrite nth_error_rev by lia. apply N. lia.
Qed.

Lemma full_outage_length : forall l, length (full_outage l) = length l.
Proof. intros l. unfold full_outage. rewrite zip_length, rev_length, !filled_length, rev_length. lia. Qed.

Lemma daylight_lt : forall l i b, last_daylight l i b -> nth_error l i <> None -> (i < length l)%nat.
Proof. intros l i b _ H. apply nth_error_Some. exact H. Qed.

Lemma full_outage_spec : forall l i, (i < length l)%nat -> flag (full_outage l) i = true <-> in_outage l i.
Proof.
  intros l i Hi. unfold flag. assert (nth_error (full_outage l) i = Some (nth i (filled_from false l) false || nth (length l - 1 - i) (filled_from false (rev l)) false)) as E.
  { unfold full_outage. rewrite zip_nth. rewrite (nth_error_nth' (filled_from false l) false) by (rewrite filled_length; exact Hi).
    rewrite nth_error_rev by (rewrite filled_length, rev_length; exact Hi). rewrite filled_length, rev_length.
    rewrite (nth_error_nth' (filled_from false (rev l)) false) by (rewrite filled_length, rev_length; lia). reflexivity. }
  rewrite (nth_error_nth _ _ _ E). rewrite orb_true_iff, !filled_true. unfold in_outage. rewrite (rev_daylight l i true Hi).
  split; intros [H | H]; auto; destruct H as [H | (H & _)]; auto; discriminate.
Qed.

(** ** Runs *)
Fixpoint runs_at (k : nat) (o : list bool) : list (nat * nat) :=
  match o with
  | [] => []
  | false :: o' => runs_at (S k) o'
  | true :: o' =>
    match o' with
    | true :: _ => match runs_at (S k) o' with (_, b) :: r => (k, b) :: r | [] => [] end
    | _ => (k, k) :: runs_at (S k) o'
    end
  end.
Fixpoint starts_at (prev : bool) (k : nat) (o : list bool) : list nat :=
  match o with [] => [] | b :: o' => (if b && negb prev then [k] else []) ++ starts_at b (S k) o' end.
Fixpoint ends_at (k : nat) (o : list bool) : list nat :=
  match o with [] => [] | b :: o' => (if b && negb (hd false o') then [k] else []) ++ ends_at (S k) o' end.
Fixpoint steps_at (prev : bool) (o : list bool) : list bool :=
  match o with [] => [] | b :: o' => (if xorb b prev then [b] else []) ++ steps_at b o' end.

Lemma ends_runs : forall o k, ends_at k o = map snd (runs_at k o).
Proof.
  induction o as [| b o IH]; intros k; [reflexivity |]. cbn [ends_at]. destruct b; [| cbn [andb app runs_at]; apply IH].
  cbn [runs_at]. destruct o as [| [] o].
  - reflexivity.
  - cbn [hd negb andb app]. rewrite IH. destruct (runs_at (S k) (true :: o)) as [| [a b] r]; reflexivity.
  - cbn [hd negb andb app map snd]. f_equal. apply IH.
Qed.

Lemma starts_runs : forall o k, starts_at false k o = map fst (runs_at k o).
Proof.
  induction o as [| b o IH]; intros k; [reflexivity |]. cbn [starts_at]. destruct b; [| cbn [andb app runs_at]; apply IH].
  cbn [runs_at]. destruct o as [| [] o].
  - reflexivity.
  - specialize (IH (S k)). cbn [starts_at negb andb app] in IH |- *.
    destruct (runs_at (S k) (true :: o)) as [| [a b] r]; [discriminate |]. cbn [map fst] in IH |- *. injection IH as _ IH. f_equal. exact IH.
  - specialize (IH (S k)). cbn [starts_at negb andb app] in IH |- *. cbn [map fst]. f_equal. exact IH.
Qed.

Lemma combine_fst_snd : forall A B (l : list (A * B)), combine (map fst l) (map snd l) = l.
Proof. induction l as [| [a b] l IH]; cbn; [reflexivity |]. f_equal. exact IH. Qed.

(** The lists of the code. *)
Lemma seq_starts : forall suf pre, pre <> [] ->
  filter (fun i => flag (pre ++ suf) i && negb (flag (pre ++ suf) (i - 1))) (seq (length pre) (length suf)) = starts_at (List.last pre false) (length pre) suf.
Proof.
  induction suf as [| b suf IH]; intros pre Hp; [reflexivity |]. cbn [length seq filter starts_at].
  assert (flag (pre ++ b :: suf) (length pre) = b) as E1.
  { unfold flag. rewrite app_nth2 by lia. rewrite Nat.sub_diag. reflexivity. }
  assert (flag (pre ++ b :: suf) (length pre - 1) = List.last pre false) as E2.
  { unfold flag. assert (0 < length pre)%nat by (destruct pre; [contradiction | cbn; lia]). rewrite app_nth1 by lia.
    clear - Hp. induction pre as [| x pre IHp]; [contradiction |]. destruct pre as [| y pre]; [reflexivity |].
    cbn [length]. replace (S (S (length pre)) - 1)%nat with (S (S (length pre) - 1)) by lia. cbn [nth List.last]. apply IHp. discriminate. }
  rewrite E1, E2. replace (pre ++ b :: suf) with ((pre ++ [b]) ++ suf) by (rewrite <- app_assoc; reflexivity).
  assert (filter (fun i => flag ((pre ++ [b]) ++ suf) i && negb (flag ((pre ++ [b]) ++ suf) (i - 1))) (seq (S (length pre)) (length suf)) = starts_at b (S (length pre)) suf) as E3.
  { specialize (IH (pre ++ [b])). rewrite app_length, last_last in IH. cbn [length] in IH. rewrite Nat.add_1_r in IH. apply IH. destruct pre; discriminate. }
  rewrite E3. destruct (b && negb (List.last pre false)); reflexivity.
Qed.

Lemma seq_steps : forall suf pre, pre <> [] ->
  map (fun i => flag (pre ++ suf) i) (filter (fun i => xorb (flag (pre ++ suf) i) (flag (pre ++ suf) (i - 1))) (seq (length pre) (length suf))) = steps_at (List.last pre false) suf.
Proof.
  induction suf as [| b suf IH]; intros pre Hp; [reflexivity |]. cbn [length seq filter steps_at].
  assert (flag (pre ++ b :: suf) (length pre) = b) as E1.
  { unfold flag. rewrite app_nth2 by lia. rewrite Nat.sub_diag. reflexivity. }
  assert (flag (pre ++ b :: suf) (length pre - 1) = List.last pre false) as E2.
  { unfold flag. assert (0 < length pre)%nat by (destruct pre; [contradiction | cbn; lia]). rewrite app_nth1 by lia.
    clear - Hp. induction pre as [| x pre IHp]; [contradiction |]. destruct pre as [| y pre]; [reflexivity |].
    cbn [length]. replace (S (S (length pre)) - 1)%nat with (S (S (length pre) - 1)) by lia. cbn [nth List.last]. apply IHp. discriminate. }
  rewrite E1, E2.
  assert (map (fun i => flag (pre ++ b :: suf) i) (filter (fun i => xorb (flag (pre ++ b :: suf) i) (flag (pre ++ b :: suf) (i - 1))) (seq (S (length pre)) (length suf))) = steps_at b suf) as E3.
  { specialize (IH (pre ++ [b])). rewrite app_length, last_last, <- app_assoc in IH. cbn [length app] in IH. rewrite Nat.add_1_r in IH. apply IH. destruct pre; discriminate. }
  destruct (xorb b (List.last pre false)); cbn [map app]; rewrite ?E1, E3; reflexivity.
Qed.

Lemma seq_ends : forall suf pre,
  filter (fun i => flag (pre ++ suf) i && negb (flag (pre ++ suf) (S i))) (seq (length pre) (length suf)) = ends_at (length pre) suf.
Proof.
  induction suf as [| b suf IH]; intros pre; [reflexivity |]. cbn [length seq filter ends_at].
  assert (flag (pre ++ b :: suf) (length pre) = b) as E1.
  { unfold flag. rewrite app_nth2 by lia. rewrite Nat.sub_diag. reflexivity. }
  assert (flag (pre ++ b :: suf) (S (length pre)) = hd false suf) as E2.
  { unfold flag. rewrite app_nth2 by lia. replace (S (length pre) - length pre)%nat with 1%nat by lia. destruct suf; reflexivity. }
  rewrite E1, E2.
  assert (filter (fun i => flag (pre ++ b :: suf) i && negb (flag (pre ++ b :: suf) (S i))) (seq (S (length pre)) (length suf)) = ends_at (S (length pre)) suf) as E3.
  { specialize (IH (pre ++ [b])). rewrite app_length, <- app_assoc in IH. cbn [length app] in IH. rewrite Nat.add_1_r in IH. exact IH. }
  rewrite E3. destruct (b && negb (hd false suf)); reflexivity.
Qed.

Lemma steps_nil : forall o prev, steps_at prev o = [] -> forall b, In b o -> b = prev.
Proof.
  induction o as [| x o IH]; intros prev H b Hb; [contradiction |]. cbn in H. destruct (xorb x prev) eqn:E; [discriminate |].
  assert (x = prev) as -> by (destruct x, prev; cbn in E; congruence). destruct Hb as [-> | Hb]; [reflexivity | exact (IH prev H b Hb)].
Qed.
Lemma steps_hd : forall o prev b r, steps_at prev o = b :: r -> b = negb prev.
Proof.
  induction o as [| x o IH]; intros prev b r H; [discriminate |]. cbn in H. destruct (xorb x prev) eqn:E.
  - injection H as <- _. destruct x, prev; cbn in E |- *; congruence.
  - assert (x = prev) as -> by (destruct x, prev; cbn in E; congruence). exact (IH prev b r H).
Qed.
Lemma last_cons : forall A (l : list A) x d, List.last (x :: l) d = List.last l x.
Proof. intros A l. induction l as [| y l IH]; intros x d; [reflexivity |]. change (List.last (x :: y :: l) d) with (List.last (y :: l) d). rewrite !IH. reflexivity. Qed.
Lemma steps_last : forall o prev, List.last (steps_at prev o) prev = List.last o prev.
Proof.
  induction o as [| x o IH]; intros prev; [reflexivity |]. cbn [steps_at]. rewrite last_cons. destruct (xorb x prev) eqn:E; cbn [app].
  - rewrite last_cons. apply IH.
  - assert (x = prev) as -> by (destruct x, prev; cbn in E; congruence). apply IH.
Qed.

Lemma runs_code : forall o, outage_runs o = if forallb (fun b => b) o then [] else runs_at 0 o.
Proof.
  intros o. destruct o as [| b0 o]; [reflexivity |]. unfold outage_runs, outage_steps. cbn [length].
  replace (S (length o) - 1)%nat with (length o) by lia.
  pose proof (seq_starts o [b0] ltac:(discriminate)) as HS. pose proof (seq_steps o [b0] ltac:(discriminate)) as HT.
  cbn [app length List.last] in HS, HT. rewrite HS, HT.
  pose proof (seq_ends (b0 :: o) []) as HE. cbn [app length] in HE. rewrite seq_S, filter_app in HE.
  cbn [plus filter] in HE.
  assert (flag (b0 :: o) (S (length o)) = false) as En by (unfold flag; apply nth_overflow; cbn; lia). rewrite En in HE.
  assert (flag (b0 :: o) (length o) = List.last o b0) as El.
  { unfold flag. clear. revert b0. induction o as [| x o IH]; intros b0; [reflexivity |]. cbn [length nth]. rewrite last_cons. apply IH. }
  rewrite El in HE. cbn [negb] in HE. rewrite andb_true_r in HE. set (E0 := filter _ (seq 0 (length o))) in *. clearbody E0. clear En El HS HT.
  set (st := steps_at b0 o) in *. pose proof (steps_last o b0) as HL. fold st in HL.
  destruct (forallb (fun b => b) (b0 :: o)) eqn:Ea.
  - (* all in outage: no step *)
    assert (b0 = true /\ forall b, In b o -> b = true) as [-> Ho].
    { cbn in Ea. apply andb_true_iff in Ea. destruct Ea as [-> Ea]. rewrite forallb_forall in Ea. auto. }
    assert (st = []) as Es.
    { unfold st. clear - Ho. induction o as [| x o IH]; [reflexivity |]. cbn. rewrite (Ho x (or_introl eq_refl)). cbn. apply IH. intros b Hb. apply Ho. right. exact Hb. }
    assert (starts_at true 1 o = []) as ->.
    { clear - Ho. generalize 1%nat. induction o as [| x o IH]; intros k; [reflexivity |]. cbn. rewrite (Ho x (or_introl eq_refl)). cbn. apply IH. intros b Hb. apply Ho. right. exact Hb. }
    rewrite Es. reflexivity.
  - assert (exists b, In b (b0 :: o) /\ b = false) as (bf & Hbf & ->).
    { clear - Ea. induction (b0 :: o) as [| x k IH]; [discriminate |]. cbn in Ea. destruct x; [| exists false; split; [left; reflexivity | reflexivity]].
      destruct (IH Ea) as (b & Hb & E). exists b. split; [right; exact Hb | exact E]. }
    assert (match st with false :: _ => 0%nat :: starts_at b0 1 o | _ => starts_at b0 1 o end = starts_at false 0 (b0 :: o)) as ->.
    { cbn [starts_at negb]. rewrite andb_true_r. destruct st as [| s r] eqn:Es.
      - destruct b0; [| reflexivity]. destruct Hbf as [Hbf | Hbf]; [discriminate |]. pose proof (steps_nil o true Es false Hbf). discriminate.
      - pose proof (steps_hd o b0 s r Es) as ->. destruct b0; reflexivity. }
    assert (match rev st with true :: _ => E0 ++ [length o] | _ => E0 end = ends_at 0 (b0 :: o)) as ->.
    { rewrite <- HE. clear HE. destruct (rev st) as [| s r] eqn:Er.
      - assert (st = []) as Es by (rewrite <- (rev_involutive st), Er; reflexivity). rewrite Es in HL. cbn in HL. rewrite <- HL.
        destruct b0; [| rewrite app_nil_r; reflexivity]. exfalso. destruct Hbf as [Hbf | Hbf]; [discriminate |].
        pose proof (steps_nil o true Es false Hbf). discriminate.
      - assert (st = rev r ++ [s]) as Es by (rewrite <- (rev_involutive st), Er; reflexivity). rewrite Es, last_last in HL. rewrite <- HL.
        destruct s; [reflexivity | rewrite app_nil_r; reflexivity]. }
    rewrite starts_runs, ends_runs. apply combine_fst_snd.
Qed.

(** Maximal runs of a suffix. *)
Definition run_in (k : nat) (o : list bool) (a b : nat) : Prop :=
  (k <= a <= b)%nat /\ (b < k + length o)%nat /\ (forall i, (a <= i <= b)%nat -> nth (i - k) o false = true) /\
  (a = k \/ nth (a - 1 - k) o false = false) /\ nth (S b - k) o false = false.

Lemma runs_head : forall o k, exists b r, runs_at k (true :: o) = (k, b) :: r.
Proof.
  intros o k. pose proof (starts_runs (true :: o) k) as H. cbn [starts_at andb negb app] in H.
  destruct (runs_at k (true :: o)) as [| [a b] r]; [discriminate |]. cbn [map fst] in H. injection H as <- _. exists b, r. reflexivity.
Qed.

Lemma run_shift : forall k x o a b, (S k < a)%nat \/ (x = false /\ (k < a)%nat) -> run_in k (x :: o) a b <-> run_in (S k) o a b.
Proof.
  intros k x o a b Ha. unfold run_in. cbn [length]. split.
  - intros (H1 & H2 & H3 & H4 & H5). split; [lia |]. split; [lia |]. split; [| split].
    + intros i Hi. specialize (H3 i Hi). replace (i - k)%nat with (S (i - S k)) in H3 by lia. exact H3.
    + destruct (Nat.eq_dec a (S k)) as [-> | N]; [left; reflexivity | right].
      destruct H4 as [H4 | H4]; [lia |]. replace (a - 1 - k)%nat with (S (a - 1 - S k)) in H4 by lia. exact H4.
    + replace (S b - k)%nat with (S (S b - S k)) in H5 by lia. exact H5.
  - intros (H1 & H2 & H3 & H4 & H5). split; [lia |]. split; [lia |]. split; [| split].
    + intros i Hi. specialize (H3 i Hi). replace (i - k)%nat with (S (i - S k)) by lia. exact H3.
    + right. destruct (Nat.eq_dec a (S k)) as [-> | N].
      * destruct Ha as [Ha | [-> _]]; [lia |]. replace (S k - 1 - k)%nat with 0%nat by lia. reflexivity.
      * destruct H4 as [H4 | H4]; [lia |]. replace (a - 1 - k)%nat with (S (a - 1 - S k)) by lia. exact H4.
    + replace (S b - k)%nat with (S (S b - S k)) by lia. exact H5.
Qed.

Lemma runs_spec : forall o k, (forall a b, In (a, b) (runs_at k o) <-> run_in k o a b) /\ in_order (runs_at k o).
Proof.
  induction o as [| x o IH]; intros k.
  - split; [| constructor]. intros a b. cbn. split; [contradiction |]. intros (H1 & H2 & _). cbn in H2. lia.
  - destruct (IH (S k)) as [I1 I2]. destruct x.
    + cbn [runs_at]. destruct o as [| [] o].
      * split; [| repeat constructor]. intros a b. cbn. split.
        -- intros [E | []]. injection E as <- <-. split; [lia |]. split; [cbn; lia |]. split; [| split; [left; reflexivity |]].
           ++ intros i Hi. replace (i - k)%nat with 0%nat by lia. reflexivity.
           ++ replace (S k - k)%nat with 1%nat by lia. reflexivity.
        -- intros (H1 & H2 & _). cbn in H2. left. f_equal; lia.
      * destruct (runs_head o (S k)) as (b0 & r & E). rewrite E in I1, I2 |- *.
        assert (run_in (S k) (true :: o) (S k) b0) as R0 by (apply I1; left; reflexivity).
        assert (forall a b, In (a, b) r -> (b0 < a)%nat) as Hr.
        { intros a b Hab. inversion I2 as [| ? ? _ F]; subst. rewrite Forall_forall in F. exact (F (a, b) Hab). }
        split; [| inversion I2 as [| ? ? S F]; subst; constructor; [exact S | exact F]].
        intros a b. split.
        -- intros [K | K].
           ++ injection K as <- <-. destruct R0 as (H1 & H2 & H3 & H4 & H5). split; [lia |]. split; [cbn in *; lia |]. split; [| split; [left; reflexivity |]].
              ** intros i Hi. destruct (Nat.eq_dec i k) as [-> | N]; [rewrite Nat.sub_diag; reflexivity |].
                 specialize (H3 i ltac:(lia)). replace (i - k)%nat with (S (i - S k)) by lia. exact H3.
              ** replace (S b0 - k)%nat with (S (S b0 - S k)) by lia. exact H5.
           ++ pose proof (Hr a b K) as La. assert (S k <= b0)%nat by (destruct R0 as (? & _); lia). apply run_shift; [left; lia |]. apply I1. right. exact K.
        -- intros R. destruct (Nat.eq_dec a k) as [-> | Na].
           ++ left. f_equal. assert (run_in (S k) (true :: o) (S k) b) as R1.
              { destruct R as (H1 & H2 & H3 & H4 & H5).
                assert (b <> k) as Nb.
                { intros ->. replace (S k - k)%nat with 1%nat in H5 by lia. discriminate. }
                split; [lia |]. split; [cbn in *; lia |]. split; [| split; [left; reflexivity |]].
                - intros i Hi. specialize (H3 i ltac:(lia)). replace (i - k)%nat with (S (i - S k)) in H3 by lia. exact H3.
                - replace (S b - k)%nat with (S (S b - S k)) in H5 by lia. exact H5. }
              apply I1 in R1. destruct R1 as [R1 | R1]; [injection R1 as <-; reflexivity |]. pose proof (Hr _ _ R1). destruct R0. lia.
           ++ destruct (Nat.eq_dec a (S k)) as [-> | Nb].
              ** exfalso. destruct R as (H1 & H2 & H3 & [H4 | H4] & H5); [lia |]. replace (S k - 1 - k)%nat with 0%nat in H4 by lia. discriminate.
              ** assert (S k < a)%nat as La by (destruct R as (? & _); lia). apply run_shift in R; [| left; exact La]. apply I1 in R.
                 destruct R as [R | R]; [injection R as <- _; lia | right; exact R].
      * split.
        -- intros a b. cbn [In]. rewrite I1. split.
           ++ intros [K | R].
              ** injection K as <- <-. split; [lia |]. split; [cbn; lia |]. split; [| split; [left; reflexivity |]].
                 --- intros i Hi. replace (i - k)%nat with 0%nat by lia. reflexivity.
                 --- replace (S k - k)%nat with 1%nat by lia. reflexivity.
              ** assert (S k < a)%nat as La.
                 { destruct (Nat.eq_dec a (S k)) as [-> | N]; [| destruct R as (? & _); lia]. destruct R as (H1 & _ & H3 & _).
                   specialize (H3 (S k) ltac:(lia)). rewrite Nat.sub_diag in H3. discriminate. }
                 apply run_shift; [left; exact La | exact R].
           ++ intros R. destruct (Nat.eq_dec a k) as [-> | Na].
              ** left. destruct R as (H1 & H2 & H3 & _). destruct (Nat.eq_dec b k) as [-> | N]; [reflexivity |].
                 specialize (H3 (S k) ltac:(lia)). replace (S k - k)%nat with 1%nat in H3 by lia. discriminate.
              ** right. assert (S k < a)%nat as La.
                 { destruct (Nat.eq_dec a (S k)) as [-> | N]; [| destruct R as (? & _); lia]. destruct R as (H1 & _ & H3 & _).
                   specialize (H3 (S k) ltac:(lia)). replace (S k - k)%nat with 1%nat in H3 by lia. discriminate. }
                 apply run_shift in R; [exact R | left; exact La].
        -- constructor; [exact I2 |]. apply Forall_forall. intros [a b] K. apply I1 in K. destruct K as (H1 & _). cbn. lia.
    + cbn [runs_at]. split; [| exact I2]. intros a b. rewrite I1.
      destruct (le_lt_dec a k) as [La | La].
      * split; [intros (H1 & _); lia |]. intros (H1 & _ & H3 & _). exfalso. specialize (H3 a ltac:(lia)). replace (a - k)%nat with 0%nat in H3 by lia. discriminate.
      * symmetry. apply run_shift. right. split; [reflexivity | lia].
Qed.

(** The reported outages. *)
Lemma outages_spec : forall l, let o := outage_runs (full_outage l) in
  ((exists i, (i < length l)%nat /\ ~ in_outage l i) ->
     in_order o /\ forall a b, In (a, b) o <-> maximal_run (length l) (in_outage l) a b) /\
  ((forall i, (i < length l)%nat -> in_outage l i) -> o = []).
Proof.
  intros l o. unfold o. rewrite runs_code. split.
  - intros (i & Hi & Ni). destruct (forallb (fun b => b) (full_outage l)) eqn:Ea.
    { exfalso. apply Ni. apply full_outage_spec; [exact Hi |]. rewrite forallb_forall in Ea. apply Ea. unfold flag. apply nth_In. rewrite full_outage_length. exact Hi. }
    destruct (runs_spec (full_outage l) 0) as [R1 R2]. split; [exact R2 |]. intros a b. rewrite R1.
    unfold run_in, maximal_run. rewrite full_outage_length.
    assert (forall j, (j < length l)%nat -> nth j (full_outage l) false = true <-> in_outage l j) as F by (intros j Hj; exact (full_outage_spec l j Hj)).
    split.
    + intros (H1 & H2 & H3 & H4 & H5). split; [lia |]. split; [| split].
      * intros j Hj. apply F; [lia |]. specialize (H3 j Hj). rewrite Nat.sub_0_r in H3. exact H3.
      * intros j Hj K. apply F in K; [| lia]. destruct H4 as [H4 | H4]; [lia |]. replace (a - 1 - 0)%nat with j in H4 by lia. congruence.
      * intros Hb K. apply F in K; [| lia]. rewrite Nat.sub_0_r in H5. congruence.
    + intros (H1 & H2 & H3 & H4). split; [lia |]. split; [lia |]. split; [| split].
      * intros j Hj. rewrite Nat.sub_0_r. apply F; [lia | apply H2; exact Hj].
      * destruct a as [| a]; [left; reflexivity | right]. replace (S a - 1 - 0)%nat with a by lia. apply not_true_is_false. intros K. apply F in K; [| lia]. exact (H3 a eq_refl K).
      * rewrite Nat.sub_0_r. destruct (Nat.lt_ge_cases (S b) (length l)) as [L | L].
        -- apply not_true_is_false. intros K. apply F in K; [| exact L]. exact (H4 L K).
        -- apply nth_overflow. rewrite full_outage_length. exact L.
  - intros A. assert (forallb (fun b => b) (full_outage l) = true) as ->; [| reflexivity].
    apply forallb_forall. intros b Hb. apply (In_nth _ _ false) in Hb. destruct Hb as (i & Hi & <-). rewrite full_outage_length in Hi.
    apply full_outage_spec; [exact Hi | exact (A i Hi)].
Qed.

(** What the daylight rows tell. *)
Lemma daylight_spec : forall masks expected i, nth_error (daylight_offline masks expected) i =
  match nth_error masks i, nth_error expected i with
  | Some m, Some e => Some (if fgt e (fz 0) then Some (negb (existsb (fun b => b) m)) else None)
  | _, _ => None
  end.
Proof. intros. unfold daylight_offline. apply zip_nth. Qed.
