(** Soiling intervals as blocks of rows. *)

From Coq Require Import QArith Qcanon List ZArith Bool Arith Lia Sorted String.
From Verif.Base Require Import QcExtra ISort Quantile Fl TimeSeries Calendar Rolling Segments.
From Verif.Spec Require Import Stats Filters Soiling.
From Verif.Model Require Import Soiling.
From Verif.Proofs Require Import StatsP FiltersP2 SoilP SoilP2.
Import ListNotations.
Open Scope list_scope.
Open Scope Qc_scope.

Lemma nth_error_skipn : forall A a (l : list A) i, nth_error (skipn a l) i = nth_error l (a + i).
Proof. induction a as [| a IH]; intros l i; [reflexivity |]. destruct l; [destruct i; reflexivity |]. cbn. apply IH. Qed.
Lemma nth_error_firstn : forall A n (l : list A) i, nth_error (firstn n l) i = if (i <? n)%nat then nth_error l i else None.
Proof.
  induction n as [| n IH]; intros l i; [destruct i; reflexivity |]. destruct l; [rewrite firstn_nil; destruct (i <? S n)%nat; destruct i; reflexivity |].
  destruct i as [| i]; [reflexivity |]. cbn [firstn nth_error]. rewrite IH. reflexivity.
Qed.

(** ** Tiles *)

Section Tiles.
Variables (event : nat -> Prop) (n : nat).

Lemma tiles_exists : (forall i, event i \/ ~ event i) -> forall a, (a < n)%nat -> exists l, tiles event n a l.
Proof.
  intros D. assert (forall m a, (a + S m = n)%nat -> exists b l, tiles event n a ((a, b) :: l)) as K.
  { induction m as [| m IH]; intros a Ha.
    - exists (n - 1)%nat, []. apply tiles_last; [lia |]. intros i Hi. lia.
    - destruct (IH (S a) ltac:(lia)) as (b & l & H). destruct (D (S a)) as [E | E].
      + exists a, ((S a, b) :: l). apply tiles_more; [lia | lia | intros i Hi; lia | exact E | exact H].
      + exists b, l. inversion H as [a' L N | a' b' l' L1 L2 N E' H']; subst.
        * apply tiles_last; [lia |]. intros i Hi. destruct (Nat.eq_dec i (S a)) as [-> | Ne]; [exact E | apply N; lia].
        * apply tiles_more; [lia | lia | | exact E' | exact H']. intros i Hi. destruct (Nat.eq_dec i (S a)) as [-> | Ne]; [exact E | apply N; lia]. }
  intros a Ha. destruct (K (n - a - 1)%nat a ltac:(lia)) as (b & l & H). eauto.
Qed.

Lemma tiles_unique : forall a l l', tiles event n a l -> tiles event n a l' -> l = l'.
Proof.
  intros a l l' H. revert l'. induction H as [a L N | a b l L1 L2 N E H IH]; intros l' K; inversion K as [a' L' N' | a' b' l'' L1' L2' N' E' H']; subst.
  - reflexivity.
  - exfalso. apply (N (S b')); [lia | exact E'].
  - exfalso. apply (N' (S b)); [lia | exact E].
  - assert (b = b') as <-.
    { destruct (Nat.lt_trichotomy b b') as [C | [C | C]]; [exfalso; apply (N' (S b)); [lia | exact E] | exact C | exfalso; apply (N (S b')); [lia | exact E']]. }
    f_equal. apply IH. exact H'.
Qed.

Lemma tiles_partition : forall A (rows : list A) a l, List.length rows = n -> tiles event n a l -> List.concat (map (block rows) l) = skipn a rows.
Proof.
  intros A rows a l Hn H. induction H as [a L N | a b l L1 L2 N E H IH].
  - cbn [map List.concat]. rewrite app_nil_r. unfold block. cbn [fst snd]. apply firstn_all2. rewrite skipn_length. lia.
  - cbn [map List.concat]. rewrite IH. unfold block. cbn [fst snd]. apply ext_nth. intros i.
    destruct (Nat.lt_ge_cases i (S b - a)) as [C | C].
    + rewrite nth_error_app1 by (rewrite firstn_length, skipn_length; lia). rewrite nth_error_firstn. assert (i <? S b - a = true)%nat as -> by (apply Nat.ltb_lt; lia). reflexivity.
    + rewrite nth_error_app2; rewrite firstn_length, skipn_length; [| lia]. rewrite !nth_error_skipn. f_equal. lia.
Qed.
End Tiles.

(** ** Runs *)

Lemma count_step : forall l i, count_true (firstn (S (S i)) l) = (count_true (firstn (S i) l) + (if nth (S i) l false then 1 else 0))%nat.
Proof.
  unfold count_true. induction l as [| b l IH]; intros i; [rewrite !firstn_nil; reflexivity |]. destruct i as [| i].
  - destruct l as [| c l]; [destruct b; reflexivity |]. destruct b, c; reflexivity.
  - change (firstn (S (S (S i))) (b :: l)) with (b :: firstn (S (S i)) l). change (firstn (S (S i)) (b :: l)) with (b :: firstn (S i) l).
    cbn [filter nth]. destruct b; cbn [List.length]; rewrite IH; lia.
Qed.

Lemma map_tl : forall A B (f : A -> B) l, map f (tl l) = tl (map f l).
Proof. intros A B f [| x l]; reflexivity. Qed.
Lemma map_removelast : forall A B (f : A -> B) l, map f (removelast l) = removelast (map f l).
Proof. induction l as [| x l IH]; [reflexivity |]. destruct l as [| y l]; [reflexivity |]. cbn [removelast map] in *. rewrite IH. reflexivity. Qed.
Lemma In_kept : forall trim (l : list (nat * nat)) x, In x (kept_blocks trim l) -> In x l.
Proof.
  assert (forall A (l : list A) x, In x (removelast l) -> In x l) as R.
  { induction l as [| y l IH]; intros x H; [exact H |]. destruct l as [| z l]; [destruct H |]. destruct H as [H | H]; [left; exact H | right; apply IH; exact H]. }
  intros [|] l x H; [| exact H]. apply R in H. destruct l; [destruct H | right; exact H].
Qed.

Lemma map_result_forall : forall A B (f : A -> result B) l, (forall x, In x l -> exists y, f x = Ok y) ->
  exists ys, map_result f l = Ok ys /\ Forall2 (fun x y => f x = Ok y) l ys.
Proof.
  induction l as [| x l IH]; intros H; [exists []; split; [reflexivity | constructor] |]. destruct (H x (or_introl eq_refl)) as [y Ey].
  destruct (IH (fun z Hz => H z (or_intror Hz))) as (ys & Eys & F). exists (y :: ys). cbn [map_result]. rewrite Ey, Eys. split; [reflexivity | constructor; assumption].
Qed.
Lemma map_result_map : forall A B C (f : B -> result C) (g : A -> B) l, map_result f (map g l) = map_result (fun x => f (g x)) l.
Proof. induction l as [| x l IH]; [reflexivity |]. cbn. rewrite IH. reflexivity. Qed.
Lemma map_result_ext : forall A B (f g : A -> result B) l, (forall x, In x l -> f x = g x) -> map_result f l = map_result g l.
Proof. induction l as [| x l IH]; intros H; [reflexivity |]. cbn. rewrite (H x (or_introl eq_refl)), IH; [reflexivity | intros y Hy; apply H; right; exact Hy]. Qed.
Lemma filter_none : forall A (f : A -> bool) l, (forall x, In x l -> f x = false) -> filter f l = [].
Proof. induction l as [| x l IH]; intros H; [reflexivity |]. cbn. rewrite (H x (or_introl eq_refl)). apply IH. intros y Hy. apply H. right. exact Hy. Qed.
Lemma filter_all : forall A (f : A -> bool) l, (forall x, In x l -> f x = true) -> filter f l = l.
Proof. induction l as [| x l IH]; intros H; [reflexivity |]. cbn. rewrite (H x (or_introl eq_refl)). f_equal. apply IH. intros y Hy. apply H. right. exact Hy. Qed.
Lemma sorted_map_seq : forall (f : nat -> Z) m s, (forall i j, (i < j)%nat -> (f i < f j)%Z) -> StronglySorted Z.lt (map f (seq s m)).
Proof.
  intros f m. induction m as [| m IH]; intros s H; [constructor |]. cbn. constructor; [apply IH; exact H |]. apply Forall_forall. intros x Hx.
  apply in_map_iff in Hx. destruct Hx as (j & <- & Hj). apply in_seq in Hj. apply H. lia.
Qed.
Section Runs.
Variable rows : list day_row.
Hypothesis nonempty : rows <> [].
Hypothesis numbered : forall i d, nth_error rows i = Some d ->
  d_day d = Z.of_nat i /\ d_run d = Z.of_nat (count_true (firstn (S i) (map d_event rows))).
Definition event_row (i : nat) : Prop := exists d, nth_error rows i = Some d /\ d_event d = true.
Let n := List.length rows.
Let R (i : nat) : nat := count_true (firstn (S i) (map d_event rows)).

Lemma event_nth : forall i, nth i (map d_event rows) false = true <-> event_row i.
Proof.
  intros i. unfold event_row. destruct (nth_error rows i) as [d |] eqn:E.
  - assert (nth i (map d_event rows) false = d_event d) as -> by (apply nth_error_nth; rewrite nth_error_map_some, E; reflexivity).
    split; [eauto | intros (d' & E' & H); congruence].
  - rewrite nth_overflow by (rewrite map_length; apply nth_error_None; exact E). split; [discriminate | intros (d' & E' & H); congruence].
Qed.
Lemma event_dec : forall i, event_row i \/ ~ event_row i.
Proof. intros i. rewrite <- event_nth. destruct (nth i _ false); [left; reflexivity | right; discriminate]. Qed.
Lemma R_event : forall i, event_row (S i) -> R (S i) = S (R i).
Proof. intros i H. unfold R. rewrite count_step, (proj2 (event_nth _) H). lia. Qed.
Lemma R_none : forall i, ~ event_row (S i) -> R (S i) = R i.
Proof. intros i H. unfold R. rewrite count_step. destruct (nth (S i) _ false) eqn:E; [apply event_nth in E; contradiction | lia]. Qed.
Lemma R_mono : forall i j, (i <= j)%nat -> (R i <= R j)%nat.
Proof. intros i j H. induction H as [| j H IH]; [lia |]. destruct (event_dec (S j)) as [E | E]; [rewrite (R_event _ E) | rewrite (R_none _ E)]; lia. Qed.
Lemma R_flat : forall a j, (a <= j)%nat -> (forall i, (a < i <= j)%nat -> ~ event_row i) -> R j = R a.
Proof.
  intros a j H. induction H as [| j H IH]; intros N; [reflexivity |]. rewrite R_none by (apply N; lia). apply IH. intros i Hi. apply N. lia.
Qed.

Lemma block_runs : forall a l, tiles event_row n a l -> forall k x y, nth_error l k = Some (x, y) ->
  (a <= x)%nat /\ (x <= y)%nat /\ (y < n)%nat /\ R x = (R a + k)%nat /\ forall i, (a <= i < n)%nat -> (R i = (R a + k)%nat <-> (x <= i <= y)%nat).
Proof.
  intros a l H. induction H as [a L N | a b l L1 L2 N E H IH]; intros k x y Hk.
  - destruct k as [| k]; [| destruct k; discriminate]. injection Hk as <- <-. repeat split; try lia. intros _. rewrite Nat.add_0_r. apply R_flat; [lia |]. intros j Hj. apply N. lia.
  - assert (R b = R a) as Eb by (apply R_flat; [lia | exact N]). assert (R (S b) = S (R a)) as Es by (rewrite (R_event _ E), Eb; reflexivity). destruct k as [| k].
    + injection Hk as <- <-. split; [lia |]. split; [lia |]. split; [lia |]. split; [lia |]. intros i Hi. split.
      * intros ER. destruct (Nat.lt_ge_cases b i) as [C | C]; [| lia]. pose proof (R_mono (S b) i C). lia.
      * intros Hi'. rewrite Nat.add_0_r. apply R_flat; [lia |]. intros j Hj. apply N. lia.
    + cbn [nth_error] in Hk. destruct (IH k x y Hk) as (H1 & H2 & H3 & H4 & H5). split; [lia |]. split; [lia |]. split; [lia |]. split; [lia |].
      intros i Hi. destruct (Nat.lt_ge_cases b i) as [C | C].
      * rewrite <- (H5 i ltac:(lia)). lia.
      * pose proof (R_mono i b C). lia.
Qed.
Lemma runs_covered : forall a l, tiles event_row n a l -> forall i, (a <= i < n)%nat -> exists k, (k < List.length l)%nat /\ R i = (R a + k)%nat.
Proof.
  intros a l H. induction H as [a L N | a b l L1 L2 N E H IH]; intros i Hi.
  - exists 0%nat. split; [cbn; lia |]. rewrite Nat.add_0_r. apply R_flat; [lia |]. intros j Hj. apply N. lia.
  - destruct (Nat.lt_ge_cases b i) as [C | C].
    + destruct (IH i ltac:(lia)) as (k & Hk & ->). exists (S k). split; [cbn; lia |]. rewrite (R_event _ E), (R_flat a b); [lia | lia | exact N].
    + exists 0%nat. split; [cbn; lia |]. rewrite Nat.add_0_r. apply R_flat; [lia |]. intros j Hj. apply N. lia.
Qed.

Definition run_at (ab : nat * nat) : Z := Z.of_nat (R (fst ab)).


Lemma runs_list : forall l, tiles event_row n 0 l -> zset (map d_run rows) = map run_at l.
Proof.
  intros l H. assert (map run_at l = map (fun k => Z.of_nat (R 0 + k)) (seq 0 (List.length l))) as ->.
  { apply ext_nth. intros k. rewrite !nth_error_map_some, nth_error_seq. destruct (nth_error l k) as [[x y] |] eqn:E.
    - destruct (block_runs 0 l H k x y E) as (_ & _ & _ & H4 & _). assert (k < List.length l)%nat as L by (apply nth_error_Some; congruence).
      assert (k <? List.length l = true)%nat as -> by (apply Nat.ltb_lt; exact L). unfold run_at. cbn [fst]. rewrite H4. reflexivity.
    - apply nth_error_None in E. assert (k <? List.length l = false)%nat as -> by (apply Nat.ltb_ge; exact E). reflexivity. }
  apply sorted_lt_unique; [apply zset_sorted | apply sorted_map_seq; intros i j Hij; lia |]. intros t. rewrite zset_In, !in_map_iff. split.
  - intros (d & <- & Hd). apply In_nth_error in Hd. destruct Hd as [i Hi]. assert (i < n)%nat as L by (apply nth_error_Some; congruence).
    destruct (numbered i d Hi) as [_ ->]. destruct (runs_covered 0 l H i ltac:(lia)) as (k & Hk & E). exists k. split; [fold (R i); rewrite E; reflexivity | apply in_seq; lia].
  - intros (k & <- & Hk). apply in_seq in Hk. destruct (nth_error l k) as [[x y] |] eqn:E; [| apply nth_error_None in E; lia].
    destruct (block_runs 0 l H k x y E) as (_ & H2 & H3 & H4 & _). destruct (nth_error rows x) as [d |] eqn:Ed; [| apply nth_error_None in Ed; unfold n in H3; lia].
    exists d. split; [destruct (numbered x d Ed) as [_ ->]; fold (R x); rewrite H4; reflexivity | apply nth_error_In with (1 := Ed)].
Qed.

Lemma runs_kept : forall l trim, tiles event_row n 0 l -> runs_of trim rows = map run_at (kept_blocks trim l).
Proof.
  intros l trim H. unfold runs_of. cbv zeta. rewrite (runs_list l H). destruct trim; [| reflexivity]. cbn [kept_blocks]. rewrite map_removelast, map_tl. reflexivity.
Qed.

Lemma block_split : forall x y, (x <= y)%nat -> (y < n)%nat -> rows = firstn x rows ++ block rows (x, y) ++ skipn (S y) rows.
Proof.
  intros x y Hx Hy. unfold block. cbn [fst snd]. rewrite <- (firstn_skipn x rows) at 1. f_equal. rewrite <- (firstn_skipn (S y - x) (skipn x rows)) at 1. f_equal.
  apply ext_nth. intros i. rewrite !nth_error_skipn. f_equal. lia.
Qed.
Lemma block_In : forall (l : list day_row) x y d, In d (block l (x, y)) <-> exists i, (x <= i <= y)%nat /\ nth_error l i = Some d.
Proof.
  intros l x y d. unfold block. cbn [fst snd]. split.
  - intros H. apply In_nth_error in H. destruct H as [i Hi]. rewrite nth_error_firstn, nth_error_skipn in Hi. destruct (Nat.ltb_spec i (S y - x)) as [L | L]; [| discriminate].
    exists (x + i)%nat. split; [lia | exact Hi].
  - intros (i & Hi & E). apply (nth_error_In _ (i - x)). rewrite nth_error_firstn, nth_error_skipn. assert (i - x <? S y - x = true)%nat as -> by (apply Nat.ltb_lt; lia).
    replace (x + (i - x))%nat with i by lia. exact E.
Qed.

Lemma block_rows : forall l ab, tiles event_row n 0 l -> In ab l -> filter (fun d => (d_run d =? run_at ab)%Z) rows = block rows ab.
Proof.
  intros l [x y] H Hin. apply In_nth_error in Hin. destruct Hin as [k Hk]. destruct (block_runs 0 l H k x y Hk) as (_ & H2 & H3 & H4 & H5). unfold run_at. cbn [fst].
  rewrite (block_split x y H2 H3) at 1. rewrite !filter_app. rewrite (filter_none _ _ (firstn x rows)), (filter_none _ _ (skipn (S y) rows)), (filter_all _ _ (block rows (x, y))).
  - rewrite app_nil_r. reflexivity.
  - intros d Hd. apply block_In in Hd. destruct Hd as (i & Hi & E). destruct (numbered i d E) as [_ ->]. apply Z.eqb_eq. f_equal. fold (R i). rewrite H4. apply H5; lia.
  - intros d Hd. apply In_nth_error in Hd. destruct Hd as [i Hi]. rewrite nth_error_skipn in Hi. assert (S y + i < n)%nat as L by (apply nth_error_Some; congruence).
    destruct (numbered _ d Hi) as [_ ->]. apply Z.eqb_neq. intros C. apply Nat2Z.inj in C. fold (R (S y + i)) in C. rewrite H4 in C. apply H5 in C; lia.
  - intros d Hd. apply In_nth_error in Hd. destruct Hd as [i Hi]. rewrite nth_error_firstn in Hi. destruct (Nat.ltb_spec i x) as [L | L]; [| discriminate].
    assert (i < n)%nat as L' by lia. destruct (numbered i d Hi) as [_ ->]. apply Z.eqb_neq. intros C. apply Nat2Z.inj in C. fold (R i) in C. rewrite H4 in C. apply H5 in C; lia.
Qed.

Lemma block_ends : forall l ab, tiles event_row n 0 l -> In ab l -> exists x y, spans rows ab x y /\
  (exists rest, block rows ab = x :: rest) /\ List.last (block rows ab) x = y /\ d_run x = run_at ab /\ d_day x = Z.of_nat (fst ab) /\ d_day y = Z.of_nat (snd ab).
Proof.
  intros l [a b] H Hin. apply In_nth_error in Hin. destruct Hin as [k Hk]. destruct (block_runs 0 l H k a b Hk) as (_ & H2 & H3 & H4 & H5).
  destruct (nth_error rows a) as [x |] eqn:Ea; [| apply nth_error_None in Ea; unfold n in H3; lia]. destruct (nth_error rows b) as [y |] eqn:Eb; [| apply nth_error_None in Eb; unfold n in H3; lia].
  exists x, y. split; [split; [exact H2 |]; split; assumption |].
  assert (nth_error (block rows (a, b)) 0 = Some x) as E0.
  { unfold block. cbn [fst snd]. rewrite nth_error_firstn, nth_error_skipn, Nat.add_0_r. assert (0 <? S b - a = true)%nat as -> by (apply Nat.ltb_lt; lia). exact Ea. }
  split; [destruct (block rows (a, b)) as [| d rest]; [discriminate |]; injection E0 as ->; eauto |]. split; [| destruct (numbered a x Ea), (numbered b y Eb); auto].
  assert (skipn a rows <> []) as NE by (intros C; rewrite <- (Nat.add_0_r a), <- nth_error_skipn, C in Ea; discriminate).
  assert (List.length (block rows (a, b)) = S (b - a)) as L.
  { unfold block. cbn [fst snd]. rewrite firstn_length, skipn_length. unfold n in H3. lia. }
  assert (nth_error (block rows (a, b)) (b - a) = Some y) as EL.
  { unfold block. cbn [fst snd]. rewrite nth_error_firstn, nth_error_skipn. assert (b - a <? S b - a = true)%nat as -> by (apply Nat.ltb_lt; lia). replace (a + (b - a))%nat with b by lia. exact Eb. }
  revert L EL. generalize (block rows (a, b)) as r, (b - a)%nat as m. clear. induction r as [| d r IH]; intros m L E; [discriminate |]. destruct r as [| d' r].
  - cbn in L. injection L as <-. injection E as <-. reflexivity.
  - destruct m as [| m]; [discriminate |]. change (List.last (d' :: r) x = y). apply (IH m); [cbn in *; lia | exact E].
Qed.

(** ** The table of intervals *)


Definition fit_block (fit : fit_function) (minimum : Z) (ab : nat * nat) : result interval := fit_interval fit minimum (block rows ab) (run_at ab).

Lemma fit_block_shape : forall fit minimum l ab, tiles event_row n 0 l -> In ab l ->
  exists i x y, fit_block fit minimum ab = Ok i /\ spans rows ab x y /\ i_start i = d_date x /\ i_end i = d_date y /\
    i_length i = (Z.of_nat (snd ab) - Z.of_nat (fst ab))%Z /\ i_run i = d_run x /\ i_run i = run_at ab.
Proof.
  intros fit minimum l ab H Hin. destruct (block_ends l ab H Hin) as (x & y & S & (rest & Eb) & EL & ER & E1 & E2). unfold fit_block, fit_interval. rewrite Eb in *. cbv zeta. rewrite EL.
  destruct ((minimum <? _)%Z && _) eqn:EC.
  - destruct (fit _) as [[[slope intercept] low] high]. eexists. exists x, y. split; [reflexivity |]. split; [exact S |]. cbn. rewrite E1, E2, ER. auto.
  - eexists. exists x, y. split; [reflexivity |]. split; [exact S |]. cbn. rewrite E1, E2, ER. auto.
Qed.

Lemma result_blocks : forall fit trim limit step minimum l, tiles event_row n 0 l -> exists fits,
  Forall2 (fun ab i => fit_block fit minimum ab = Ok i) (kept_blocks trim l) fits /\
  let table := map (flatten (rejected limit step)) fits in
  calc_result_df fit rows trim limit step minimum =
    if existsb i_valid table then Ok (SrrIntervals (combine table (recoveries table)) (flat_map (analyze_row table) rows)) else Raise NoValidIntervalError.
Proof.
  intros fit trim limit step minimum l H. unfold calc_result_df. rewrite (runs_kept l trim H), map_result_map.
  rewrite (map_result_ext _ _ _ (fit_block fit minimum)).
  - destruct (map_result_forall _ _ (fit_block fit minimum) (kept_blocks trim l)) as (fits & -> & F).
    + intros ab Hab. destruct (fit_block_shape fit minimum l ab H (In_kept _ _ _ Hab)) as (i & x & y & E & _). eauto.
    + exists fits. split; [exact F |]. cbn [bind]. cbv zeta. destruct fits as [| f fits]; [reflexivity |]. set (table := map _ (f :: fits)).
      destruct (filter i_valid table) as [| j js] eqn:E.
      * assert (existsb i_valid table = false) as ->; [| reflexivity]. apply not_true_iff_false. intros C. apply existsb_exists in C. destruct C as (i & Hi & V).
        assert (In i (filter i_valid table)) as K by (apply filter_In; auto). rewrite E in K. destruct K.
      * assert (existsb i_valid table = true) as ->; [| reflexivity]. apply existsb_exists. exists j. assert (In j (filter i_valid table)) as K by (rewrite E; left; reflexivity). apply filter_In in K. exact K.
  - intros ab Hab. unfold fit_block. rewrite (block_rows l ab H (In_kept _ _ _ Hab)). reflexivity.
Qed.

End Runs.

Lemma recoveries_length : forall l, List.length (recoveries l) = List.length l.
Proof. induction l as [| i l IH]; [reflexivity |]. cbn. rewrite IH. reflexivity. Qed.
Lemma Forall2_combine : forall A B C (P : A -> B -> Prop) (l : list A) (m : list B) (r : list C), List.length r = List.length m -> Forall2 P l m -> Forall2 (fun a bc => P a (fst bc)) l (combine m r).
Proof.
  intros A B C P l m r L H. revert r L. induction H as [| a b l m Hab H IH]; intros r L; [constructor |]. destruct r as [| c r]; [discriminate |]. cbn. constructor; [exact Hab | apply IH; cbn in L; lia].
Qed.
Lemma flatten_keeps : forall bad i, i_start (flatten bad i) = i_start i /\ i_end (flatten bad i) = i_end i /\ i_length (flatten bad i) = i_length i /\ i_run (flatten bad i) = i_run i.
Proof. intros bad i. unfold flatten. destruct (bad i); auto. Qed.

Lemma analyze_none : forall table d, (forall i, In i table -> i_run i <> d_run d) -> analyze_row table d = [].
Proof. intros table d H. unfold analyze_row. rewrite filter_none; [reflexivity |]. intros i Hi. apply Z.eqb_neq. apply H. exact Hi. Qed.
Lemma analyze_one : forall table i d, In i table -> i_run i = d_run d -> (forall i', In i' table -> i_run i' = d_run d -> i' = i) -> exists e, analyze_row table d = [e] /\
  a_date e = d_date d /\ a_insol e = d_insol d /\ a_run e = d_run d /\ a_days e = ((d_date d - i_start i) / ns_day)%Z /\ a_valid e = i_valid i /\
  a_loss_perfect e = fill1 (fadd (fz 1) (fmul (fz (a_days e)) (i_slope i))) /\ a_loss_inferred e = fill1 (fadd (i_start_loss i) (fmul (fz (a_days e)) (i_slope i))).
Proof.
  intros table i d Hi E U. unfold analyze_row. destruct (filter _ table) as [| j l] eqn:F.
  - assert (In i (filter (fun i => (i_run i =? d_run d)%Z) table)) as K by (apply filter_In; split; [exact Hi | apply Z.eqb_eq; exact E]). rewrite F in K. destruct K.
  - assert (In j (filter (fun i => (i_run i =? d_run d)%Z) table)) as K by (rewrite F; left; reflexivity). apply filter_In in K. destruct K as [K1 K2]. apply Z.eqb_eq in K2.
    rewrite (U j K1 K2). eexists. split; [reflexivity |]. cbn. auto 10.
Qed.
