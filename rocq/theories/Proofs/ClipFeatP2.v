(** Proofs about the numbers shown to the classifier of the clipping filter, continued. *)

From Coq Require Import QArith Qcanon List ZArith Bool Arith Lia Lqa Sorted.
From Verif.Base Require Import QcExtra ISort Quantile Fl TimeSeries Calendar Rolling.
From Verif.Spec Require Import Stats Energy Normalization Clipping ClipFeatures.
From Verif.Model Require Import Utilities Interpolation Normalization Clipping ClipFeatures.
From Verif.Proofs Require Import StatsP NormP NormP4 ClipP ClipP2 ClipP4 ClipFeatP.
Import ListNotations.
Open Scope Qc_scope.

Lemma has_number : forall s j, noinf (vals s) -> has (vals s) j = true <-> exists q, number_at s j q.
Proof.
  intros s j H. unfold has, number_at. destruct (Nat.ltb_spec j (length (vals s))) as [L | L].
  - rewrite (nth_error_nth' _ NaN L). destruct (nth j (vals s) NaN); split; try discriminate; try (intros [q E]; discriminate); eauto.
  - rewrite (nth_overflow _ NaN L). split; [discriminate |]. intros [q E]. apply nth_error_None in L. congruence.
Qed.
Lemma num_number : forall s j q, number_at s j q -> num (vals s) j = q.
Proof. intros s j q H. unfold num. rewrite (nth_error_nth _ _ _ H). reflexivity. Qed.
Lemma number_In : forall s j q, number_at s j q -> In q (finvals (vals s)).
Proof. intros s j q H. apply finvals_In. apply nth_error_In with j. exact H. Qed.

(** ** Scaled values *)

Lemma good_scaled : forall s lo hi, noinf (vals s) -> is_min (finvals (vals s)) lo -> is_max (finvals (vals s)) hi -> lo < hi ->
  good (has (vals s)) (fun i => (num (vals s) i - lo) / (hi - lo)) (scaled (vals s)).
Proof.
  intros s lo hi HI Hlo Hhi HL i. unfold scaled.
  destruct (fminimum_spec (vals s) HI) as [[E _] | (lo' & Hlo' & ->)]; [destruct Hlo as [K _]; rewrite E in K; destruct K |].
  destruct (fmaximum_spec (vals s) HI) as [[E _] | (hi' & Hhi' & ->)]; [destruct Hlo as [K _]; rewrite E in K; destruct K |].
  rewrite (is_min_unique _ _ _ Hlo' Hlo), (is_max_unique _ _ _ Hhi' Hhi). cbn [fsub fneg fadd].
  assert (hi + - lo <> 0) as Hd by (intros K; apply (Qclt_not_le _ _ HL); qlra).
  assert (qeq (hi + - lo) 0 = false) as E0 by (apply qeq_false; exact Hd).
  change NaN with (fdiv (fadd NaN (Fin (- lo))) (Fin (hi + - lo))) at 1. 
  rewrite map_nth with (f := fun x => fdiv (fadd x (Fin (- lo))) (Fin (hi + - lo))).
  unfold has, num. destruct (noinf_nth (vals s) i HI) as [-> | [q ->]]; [reflexivity |]. cbn [isfin fadd]. unfold fdiv. rewrite E0. reflexivity.
Qed.

Lemma scaled_none : forall s i, noinf (vals s) -> (forall lo hi, is_min (finvals (vals s)) lo -> is_max (finvals (vals s)) hi -> ~ lo < hi) ->
  nth i (scaled (vals s)) NaN = NaN.
Proof.
  intros s i HI HF. pose proof (scaled_flat s HF HI) as E.
  assert (scaled (vals s) = map (fun _ => NaN) s) as ->.
  { apply (f_equal (map snd)) in E. rewrite map_map in E. cbn [snd] in E. rewrite <- E.
    assert (length (times s) = length (scaled (vals s))) as L by (unfold times, scaled, vals; rewrite !map_length; reflexivity).
    clear -L. revert L. generalize (scaled (vals s)). induction (times s) as [| t T IH]; intros [| x l] L; try discriminate; [reflexivity |]. cbn. f_equal. apply IH. cbn in L. lia. }
  clear. revert i. induction s as [| r s IH]; intros [| i]; try reflexivity. apply IH.
Qed.

Lemma tiny_pos : 0 < qf 1 100000.
Proof. reflexivity. Qed.

(** ** The whole row *)

Definition columns (freq : Z) (s : series) : list (list fl) :=
  let n := window_of freq in
  let x := scaled (vals s) in
  let average := rolling_center n fmean x in
  let backward := diff x in
  let top := daily_max (combine (times s) x) in
  [backward; diff (shift_back x);
     diff average; diff (shift_back average);
     x; average; top;
     map (fun p => fdiv (fst p) (fadd (snd p) (ff 1 100000))) (combine x top);
     max_rolling_range n (combine (times s) x);
     rolling_center n variance backward; rolling_center n fmean backward;
     rolling_center n fmedian backward; rolling_center n fminimum backward; rolling_center n fmaximum backward].
Definition row_at (freq : Z) (s : series) (i : nat) : list fl := map (fun c => nth i c NaN) (columns freq s).
Lemma features_rows : forall freq s, features freq s = map (row_at freq s) (seq 0 (length s)).
Proof. reflexivity. Qed.

Lemma window_reach : forall freq, window_of freq = size (reach_of freq) /\
  size (reach_of freq) = S (half (reach_of freq) + (size (reach_of freq) - 1) / 2) /\ (2 <= size (reach_of freq))%nat.
Proof.
  intros freq. unfold window_of, reach_of. destruct (freq <? 10)%Z; [| destruct (freq <? 60)%Z]; cbn [size half]; repeat split; lia.
Qed.

Lemma length_scaled : forall l, length (scaled l) = length l.
Proof. intros l. unfold scaled. apply map_length. Qed.

(** The highest value of the day. *)
Lemma top_spec : forall s lo hi i t, noinf (vals s) -> is_min (finvals (vals s)) lo -> is_max (finvals (vals s)) hi -> lo < hi ->
  nth_error (times s) i = Some t ->
  nth i (daily_max (combine (times s) (scaled (vals s)))) NaN = NaN /\ has (vals s) i = false \/
  exists top, nth i (daily_max (combine (times s) (scaled (vals s)))) NaN = Fin top /\ 0 <= top /\
    is_max (finvals (on_day t s)) (lo + top * (hi - lo)).
Proof.
  intros s lo hi i t HI Hlo Hhi HL Ht.
  rewrite (scaled_rows s lo hi Hlo Hhi HL HI). unfold daily_max.
  assert (hi - lo <> 0) as Hd by (intros K; apply (Qclt_not_le _ _ HL); qlra).
  assert (nth_error s i = Some (t, nth i (vals s) NaN)) as Es.
  { unfold times in Ht. rewrite nth_error_map in Ht. destruct (nth_error s i) as [[t' v] |] eqn:E; [| discriminate]. cbn in Ht. injection Ht as ->.
    f_equal. f_equal. symmetry. apply nth_error_nth. unfold vals. rewrite nth_error_map, E. reflexivity. }
  set (f := fun r : Z * fl => (fst r, position lo hi (snd r))).
  assert (vals (filter (fun u => (fst u / ns_day =? t / ns_day)%Z) (map f s)) = map (position lo hi) (on_day t s)) as ED.
  { unfold on_day. clear. induction s as [| r s IH]; [reflexivity |]. cbn [map filter]. change (fst (f r)) with (fst r).
    destruct (fst r / ns_day =? t / ns_day)%Z; [| exact IH]. cbn [vals map]. f_equal. exact IH. }
  assert (nth i (map (fun r => fmaximum (vals (filter (fun u => (fst u / ns_day =? fst r / ns_day)%Z) (map f s)))) (map f s)) NaN =
          fmaximum (map (position lo hi) (on_day t s))) as ->.
  { rewrite <- ED. apply nth_error_nth. rewrite !nth_error_map, Es. reflexivity. }
  clear ED f. pose proof (on_day_noinf t s HI) as HD.
  assert (forall l, noinf l -> finvals (map (position lo hi) l) = map (fun q => (q - lo) / (hi - lo)) (finvals l) /\ noinf (map (position lo hi) l)) as X.
  { induction l as [| x l IH]; intros H; [split; [reflexivity | exact H] |]. apply noinf_cons in H. destruct H as [Hx H]. destruct (IH H) as [E1 E2].
    destruct Hx as [-> | [q ->]]; cbn [map position finvals]; (split; [rewrite E1; reflexivity | intros y [<- | Hy]; [split; discriminate | apply E2, Hy]]). }
  destruct (X _ HD) as [E1 E2]. destruct (fmaximum_spec _ E2) as [[E ->] | (q & Hq & ->)].
  - left. split; [reflexivity |]. rewrite E1 in E. apply map_eq_nil in E. unfold has.
    pose proof (on_day_In t _ s (nth_error_In _ _ Es)) as K. destruct (nth i (vals s) NaN) as [| | v |]; try reflexivity.
    apply finvals_In in K. rewrite E in K. destruct K.
  - right. exists q. rewrite E1 in Hq. destruct Hq as [Hin Hle]. apply in_map_iff in Hin. destruct Hin as (v & Ev & Hv).
    assert (lo + q * (hi - lo) = v) as EV by (rewrite <- Ev; field; exact Hd).
    assert (lo <= v) as Lv.
    { apply Hlo. apply finvals_In. apply finvals_In in Hv. unfold on_day, vals in Hv. apply in_map_iff in Hv. destruct Hv as (r & Er & Hr).
      apply filter_In in Hr. unfold vals. rewrite <- Er. apply in_map, Hr. }
    assert (0 < hi - lo) as Pd by qlra.
    assert (forall a b, a / (hi - lo) <= b / (hi - lo) -> a <= b) as Mon.
    { intros a b K. apply Qcmult_le_compat_r with (z := hi - lo) in K; [| apply Qclt_le_weak, Pd].
      replace (a / (hi - lo) * (hi - lo)) with a in K by (field; exact Hd). replace (b / (hi - lo) * (hi - lo)) with b in K by (field; exact Hd). exact K. }
    split; [reflexivity |]. split.
    + rewrite <- Ev. replace 0 with (0 / (hi - lo)) by (field; exact Hd). unfold Qcdiv. apply Qcmult_le_compat_r; [qlra |].
      apply Qclt_le_weak, Qc_inv_pos, Pd.
    + rewrite EV. split; [exact Hv |]. intros x Hx. assert (x - lo <= v - lo) as K.
      { apply Mon. rewrite Ev. apply Hle. apply in_map_iff. exists x. split; [reflexivity | exact Hx]. }
      qlra.
Qed.

Section Row.
Variables (freq : Z) (s : series) (lo hi : Qc).
Hypothesis HI : noinf (vals s).
Hypothesis Hlo : is_min (finvals (vals s)) lo.
Hypothesis Hhi : is_max (finvals (vals s)) hi.
Hypothesis HL : lo < hi.
Let c := has (vals s).
Let u := fun i => (num (vals s) i - lo) / (hi - lo).
Let R := reach_of freq.
Let n := size R.
Let x := scaled (vals s).
Let dc := fun i => match i with O => false | S j => c i && c j end.
Let d := fun i => u i - u (i - 1)%nat.
Let ac := fun i => (half R <=? i)%nat && forallb c (seq (i - half R) n).
Let a := fun i => average (map u (seq (i - half R) n)).

Lemma u_pos : forall i, c i = true -> 0 <= u i.
Proof.
  intros i Hi. unfold c in Hi. apply (has_number s i HI) in Hi. destruct Hi as [q Hq]. unfold u. rewrite (num_number _ _ _ Hq).
  assert (lo <= q) as L by (apply Hlo, (number_In _ _ _ Hq)).
  unfold Qcdiv. replace 0 with (0 * / (hi - lo)) by ring. apply Qcmult_le_compat_r; [qlra |]. apply Qclt_le_weak, Qc_inv_pos. qlra.
Qed.

Lemma u_above : forall i q, number_at s i q -> (0 < u i <-> lo < q).
Proof.
  intros i q Hq. unfold u. rewrite (num_number _ _ _ Hq). assert (0 < hi - lo) as P by qlra.
  assert (hi - lo <> 0) as N by (intros K; rewrite K in P; exact (Qclt_not_le _ _ P (Qcle_refl 0))).
  split; intros K.
  - assert (0 < (q - lo) / (hi - lo) * (hi - lo)) as K' by (apply Qc_mul_pos; assumption).
    replace ((q - lo) / (hi - lo) * (hi - lo)) with (q - lo) in K' by (field; exact N). qlra.
  - unfold Qcdiv. apply Qc_mul_pos; [qlra | apply Qc_inv_pos, P].
Qed.

Let tops := daily_max (combine (times s) x).
Lemma columns_good : 
  good dc d (diff x) /\
  good (fun i => match i with O => false | S j => c (S i) && c (S j) end) (fun i => u (S i) - u (S (i - 1))) (diff (shift_back x)) /\
  good (fun i => match i with O => false | S j => ac i && ac j end) (fun i => a i - a (i - 1)%nat) (diff (rolling_center n fmean x)) /\
  good (fun i => match i with O => false | S j => ac (S i) && ac (S j) end) (fun i => a (S i) - a (S (i - 1))) (diff (shift_back (rolling_center n fmean x))) /\
  good c u x /\ good ac a (rolling_center n fmean x) /\
  good (fun i => forallb c (seq i n) && qlt 0 (most (map u (seq i n))))
       (fun i => qz 200 * (most (map u (seq i n)) - least (map u (seq i n))) / (most (map u (seq i n)) + least (map u (seq i n))))
       (max_rolling_range n (combine (times s) x)) /\
  forall f F, (forall w, w <> [] -> f (map Fin w) = Fin (F w)) ->
    good (fun i => (half R <=? i)%nat && forallb dc (seq (i - half R) n)) (fun i => F (map d (seq (i - half R) n))) (rolling_center n f (diff x)).
Proof.
  destruct (window_reach freq) as (_ & Hn & Hn2). pose proof (good_scaled s lo hi HI Hlo Hhi HL) as G. fold c in G. fold u in G. fold x in G.
  pose proof (good_rolling _ _ _ n (half R) _ _ G Hn mean_full) as GA. fold ac in GA. fold a in GA.
  split; [exact (good_diff _ _ _ G) |]. split; [exact (good_diff _ _ _ (good_shift _ _ _ G)) |]. split; [exact (good_diff _ _ _ GA) |].
  split; [exact (good_diff _ _ _ (good_shift _ _ _ GA)) |]. split; [exact G |]. split; [exact GA |]. split.
  - apply (good_range c u x n (times s) G); [unfold n, R; lia | unfold x, times, vals; rewrite length_scaled, !map_length; reflexivity | exact u_pos].
  - intros f F HF. apply (good_rolling _ _ _ n (half R) f F (good_diff _ _ _ G) Hn HF).
Qed.

Lemma reach_facts : back R = S (half R) /\ on R = (n - 1)%nat /\ (1 <= half R < n)%nat.
Proof. unfold n, R, reach_of. destruct (freq <? 10)%Z; [| destruct (freq <? 60)%Z]; cbn [size half back on]; repeat split; lia. Qed.

Lemma forallb_seq : forall f p m, forallb f (seq p m) = true <-> forall j, (p <= j < p + m)%nat -> f j = true.
Proof. intros f p m. rewrite forallb_forall. split; intros H j Hj; apply H; [apply in_seq; exact Hj | apply in_seq in Hj; exact Hj]. Qed.
Lemma dc_iff : forall j, dc j = true <-> (1 <= j)%nat /\ c j = true /\ c (j - 1)%nat = true.
Proof.
  intros [| j]; unfold dc; [split; [discriminate | intros [H _]; lia] |]. rewrite andb_true_iff. replace (S j - 1)%nat with j by lia. intuition lia.
Qed.
Lemma ac_iff : forall j, ac j = true <-> (half R <= j)%nat /\ forall k, (j - half R <= k < j - half R + n)%nat -> c k = true.
Proof. intros j. unfold ac. rewrite andb_true_iff, Nat.leb_le, forallb_seq. reflexivity. Qed.

Definition full (i : nat) : Prop := (back R <= i)%nat /\ forall j, (i - back R <= j <= i + on R)%nat -> c j = true.

Lemma full_all : forall i, full i ->
  (1 <= i)%nat /\ dc i = true /\ c i = true /\ c (S i) = true /\ ac i = true /\ ac (i - 1)%nat = true /\ ac (S i) = true /\
  (forallb c (seq i n)) = true /\ ((half R <=? i)%nat && forallb dc (seq (i - half R) n) = true).
Proof.
  destruct reach_facts as (E1 & E2 & E3). intros i [Hb H]. 
  split; [lia |]. split; [apply dc_iff; repeat split; [lia | apply H; lia | apply H; lia] |].
  split; [apply H; lia |]. split; [apply H; lia |].
  split; [apply ac_iff; split; [lia |]; intros k Hk; apply H; lia |].
  split; [apply ac_iff; split; [lia |]; intros k Hk; apply H; lia |].
  split; [apply ac_iff; split; [lia |]; intros k Hk; apply H; lia |].
  split; [apply forallb_seq; intros k Hk; apply H; lia |].
  apply andb_true_iff. split; [apply Nat.leb_le; lia |]. apply forallb_seq. intros k Hk. apply dc_iff. repeat split; [lia | apply H; lia | apply H; lia].
Qed.
Lemma all_full : forall i, forallb c (seq i n) = true -> (half R <=? i)%nat && forallb dc (seq (i - half R) n) = true -> full i.
Proof.
  destruct reach_facts as (E1 & E2 & E3). intros i H1 H2. apply andb_true_iff in H2. destruct H2 as [H2 H3]. apply Nat.leb_le in H2.
  rewrite forallb_seq in H1, H3. assert (forall j, (i - half R <= j < i - half R + n)%nat -> (1 <= j)%nat /\ c j = true /\ c (j - 1)%nat = true) as H4 by (intros j Hj; apply dc_iff, H3, Hj).
  clear H3. destruct (H4 (i - half R)%nat ltac:(lia)) as (K1 & K2 & K3). split; [lia |]. intros j Hj.
  destruct (Nat.ltb_spec j i) as [L | L]; [| apply H1; lia].
  destruct (Nat.eq_dec j (i - half R - 1)) as [-> | Nj]; [exact K3 |]. apply H4. lia.
Qed.

Lemma notnan_good : forall c' g l i, good c' g l -> notnan (nth i l NaN) = c' i.
Proof. intros c' g l i H. rewrite (H i). destruct (c' i); reflexivity. Qed.

Lemma row_full : forall i t, nth_error (times s) i = Some t ->
  forallb notnan (row_at freq s i) = true <-> full i /\ 0 < most (map u (seq i n)).
Proof.
  intros i t Ht. destruct columns_good as (G1 & G2 & G3 & G4 & G5 & G6 & G7 & G8). destruct (window_reach freq) as (EW & _ & _).
  pose proof (top_spec s lo hi i t HI Hlo Hhi HL Ht) as HT. fold c in HT. fold x in HT. fold tops in HT.
  assert (nth i (map (fun p => fdiv (fst p) (fadd (snd p) (ff 1 100000))) (combine x tops)) NaN = fdiv (nth i x NaN) (fadd (nth i tops NaN) (ff 1 100000))) as EP.
  { rewrite (nth_combine (fun p q => fdiv p (fadd q (ff 1 100000)))).
    - destruct (i <? length x)%nat eqn:E; [reflexivity |]. apply Nat.ltb_ge in E. rewrite (nth_overflow x NaN E). reflexivity.
    - unfold tops, daily_max. rewrite map_length, combine_length. unfold x. rewrite !length_scaled. unfold times, vals. rewrite !map_length. lia. }
  unfold row_at, columns. fold x. rewrite EW. fold R. fold n. fold tops. cbn [map forallb].
  rewrite EP, (notnan_good _ _ _ i G1), (notnan_good _ _ _ i G2), (notnan_good _ _ _ i G3), (notnan_good _ _ _ i G4), (notnan_good _ _ _ i G5),
    (notnan_good _ _ _ i G6), (notnan_good _ _ _ i G7), (notnan_good _ _ _ i (G8 _ _ (fun w _ => variance_full w))), (notnan_good _ _ _ i (G8 _ _ mean_full)),
    (notnan_good _ _ _ i (G8 _ _ median_full)), (notnan_good _ _ _ i (G8 _ _ (fun w Hw => proj1 (least_spec w Hw)))), (notnan_good _ _ _ i (G8 _ _ (fun w Hw => proj1 (most_spec w Hw)))).
  cbv beta. rewrite !andb_true_iff, qlt_spec. split.
  - intros H. split; [apply all_full; [apply H | apply andb_true_iff, H] |]. apply H.
  - intros [HF HM]. pose proof (full_all i HF) as (A1 & A2 & A3 & A4 & A5 & A6 & A7 & A8 & A9).
    apply andb_true_iff in A9. destruct i as [| i]; [lia |]. replace (S i - 1)%nat with i in A6 by lia.
    destruct HT as [[_ E] | (top & E & Ptop & _)]; [rewrite A3 in E; discriminate |].
    assert (notnan (fdiv (nth (S i) x NaN) (fadd (nth (S i) tops NaN) (ff 1 100000))) = true) as EQ.
    { rewrite (G5 (S i)), A3, E. unfold ff. cbn [fadd]. unfold fdiv.
      assert (qeq (top + qf 1 100000) 0 = false) as -> by (apply qeq_false; intros K; apply (Qclt_not_le _ _ tiny_pos); qlra). reflexivity. }
    rewrite EQ, E, A2, A3, A4, A5, A6, A7, A8. repeat split; try reflexivity; first [exact HM | apply A9].
Qed.

Lemma row_numbers : forall m i t, nth_error (times s) i = Some t -> full i -> 0 < most (map u (seq i n)) ->
  let row := row_at freq s i in
  numbers_shown freq m s i t (firstn 4 row ++ [fz (if (freq <? 5)%Z then 5%Z else freq); match m with Tracking => fz 1 | _ => fz 0 end] ++ skipn 4 row).
Proof.
  intros m i t Ht HF HM row. destruct columns_good as (G1 & G2 & G3 & G4 & G5 & G6 & G7 & G8). destruct (window_reach freq) as (EW & Hn & Hn2).
  pose proof (full_all i HF) as (A1 & A2 & A3 & A4 & A5 & A6 & A7 & A8 & A9).
  destruct (top_spec s lo hi i t HI Hlo Hhi HL Ht) as [[_ E] | (top & E & Ptop & Htop)]; [fold c in E; rewrite A3 in E; discriminate |].
  assert (map u (seq i n) <> []) as N1 by (unfold n, R; destruct (size (reach_of freq)); [lia | discriminate]).
  assert (map d (seq (i - half R) n) <> []) as N2 by (unfold n, R; destruct (size (reach_of freq)); [lia | discriminate]).
  assert (hi - lo <> 0) as Hd by (intros K; apply (Qclt_not_le _ _ HL); qlra).
  unfold numbers_shown. fold R. fold n.
  exists lo, hi, u, top, (least (map u (seq i n))), (most (map u (seq i n))), (qmedian (map d (seq (i - half R) n))),
    (least (map d (seq (i - half R) n))), (most (map d (seq (i - half R) n))).
  split; [exact Hlo |]. split; [exact Hhi |]. split; [exact HL |].
  split. { intros j q Hq. unfold u. rewrite (num_number _ _ _ Hq). field. exact Hd. }
  split; [exact Htop |]. split; [apply least_spec, N1 |]. split; [apply most_spec, N1 |]. split; [exact HM |]. cbv zeta.
  split; [apply qmedian_spec, N2 |]. split; [apply least_spec, N2 |]. split; [apply most_spec, N2 |].
  fold x in E. fold tops in E.
  assert (nth i (map (fun p => fdiv (fst p) (fadd (snd p) (ff 1 100000))) (combine x tops)) NaN = Fin (u i / (top + qf 1 100000))) as EP.
  { rewrite (nth_combine (fun p q => fdiv p (fadd q (ff 1 100000)))).
    - assert (i <? length x = true)%nat as -> by (apply Nat.ltb_lt, (good_in _ _ _ _ G5 A3)).
      rewrite (G5 i), A3, E. unfold ff. cbn [fadd]. unfold fdiv.
      assert (qeq (top + qf 1 100000) 0 = false) as -> by (apply qeq_false; intros K; apply (Qclt_not_le _ _ tiny_pos); qlra). reflexivity.
    - unfold tops, daily_max. rewrite map_length, combine_length. unfold x. rewrite !length_scaled. unfold times, vals. rewrite !map_length. lia. }
  unfold row, row_at, columns. fold x. rewrite EW. fold R. fold n. fold tops. cbn [map firstn skipn app].
  rewrite EP, E, (G1 i), (G2 i), (G3 i), (G4 i), (G5 i), (G6 i), (G7 i), (G8 _ _ (fun w _ => variance_full w) i), (G8 _ _ mean_full i),
    (G8 _ _ median_full i), (G8 _ _ (fun w Hw => proj1 (least_spec w Hw)) i), (G8 _ _ (fun w Hw => proj1 (most_spec w Hw)) i).
  destruct i as [| i]; [lia |]. replace (S i - 1)%nat with i in * by lia. apply qlt_spec in HM.
  rewrite A2, A3, A4, A5, A6, A7, A8, A9, HM. cbn [andb].
  replace (S i + 1)%nat with (S (S i)) by lia. replace (S (S i) - 1)%nat with (S i) by lia.
  assert (Z.max 5 freq = if (freq <? 5)%Z then 5 else freq)%Z as -> by (destruct (Z.ltb_spec freq 5); lia).
  unfold d. replace (S i - 1)%nat with i by lia. destruct m; reflexivity.
Qed.

Lemma shown_full : forall i, shown freq s i <-> full i /\ 0 < most (map u (seq i n)).
Proof.
  intros i. destruct (window_reach freq) as (_ & _ & Hn2). destruct reach_facts as (E1 & E2 & E3). unfold shown. fold R. fold n.
  assert (map u (seq i n) <> []) as N1 by (unfold n, R; destruct (size (reach_of freq)); [lia | discriminate]).
  destruct (most_spec _ N1) as [_ [HMi HMl]]. split.
  - intros (H1 & H2 & lo' & j & q & Hlo' & Hj & Hq & HLq). rewrite (is_min_unique _ _ _ Hlo' Hlo) in HLq. split.
    + split; [exact H1 |]. intros k Hk. unfold c. apply has_number; auto.
    + apply Qclt_le_trans with (u j); [apply (u_above j q Hq); exact HLq |]. apply HMl, in_map, in_seq. exact Hj.
  - intros [[H1 H2] HM]. split; [exact H1 |]. assert (forall j, (i - back R <= j <= i + on R)%nat -> exists q, number_at s j q) as H3.
    { intros j Hj. apply has_number; [exact HI |]. apply H2, Hj. }
    split; [exact H3 |]. apply in_map_iff in HMi. destruct HMi as (j & Ej & Hj). apply in_seq in Hj.
    destruct (H3 j) as [q Hq]; [lia |]. exists lo, j, q. split; [exact Hlo |]. split; [exact Hj |]. split; [exact Hq |].
    apply (u_above j q Hq). rewrite Ej. exact HM.
Qed.
End Row.

(** ** The frame *)

Lemma combine_index : forall A B (T : list A) (g : nat -> B) k, 
  combine T (map g (seq k (length T))) = map (fun p => (snd p, g (fst p))) (combine (seq k (length T)) T).
Proof.
  intros A B T. induction T as [| t T IH]; intros g k; [reflexivity |]. cbn [length seq map combine fst snd]. f_equal. apply IH.
Qed.

Lemma indexed : forall A (T : list A) k i t, In (i, t) (combine (seq k (length T)) T) <-> (k <= i)%nat /\ nth_error T (i - k) = Some t.
Proof.
  intros A T. induction T as [| x T IH]; intros k i t; cbn [length seq combine In].
  - split; [intros [] |]. intros [_ H]. destruct (i - k)%nat; discriminate.
  - rewrite IH. split.
    + intros [E | [H1 H2]]; [injection E as -> ->; split; [lia |]; rewrite Nat.sub_diag; reflexivity |].
      split; [lia |]. replace (i - k)%nat with (S (i - S k)) by lia. exact H2.
    + intros [H1 H2]. destruct (Nat.eq_dec i k) as [-> | N]; [left; rewrite Nat.sub_diag in H2; cbn in H2; congruence |].
      right. split; [lia |]. replace (i - k)%nat with (S (i - S k)) in H2 by lia. exact H2.
Qed.

Lemma indexed_sorted : forall A (T : list A) k (f : nat * A -> bool), StronglySorted lt (map fst (filter f (combine (seq k (length T)) T))).
Proof.
  intros A T. induction T as [| x T IH]; intros k f; [constructor |]. cbn [length seq combine filter]. destruct (f (k, x)); [| apply IH].
  cbn [map fst]. constructor; [apply IH |]. apply Forall_forall. intros j Hj. apply in_map_iff in Hj. destruct Hj as ([j' t] & <- & Hj).
  apply filter_In in Hj. destruct Hj as [Hj _]. apply indexed in Hj. cbn. lia.
Qed.

(** The frame of a given series. *)
Definition frame_of (freq : Z) (m : mounting) (s : series) : list (Z * list fl) :=
  map (fun r => (fst r, firstn 4 (snd r) ++ [fz (if (freq <? 5)%Z then 5%Z else freq); match m with Tracking => fz 1 | _ => fz 0 end] ++ skipn 4 (snd r)))
      (filter (fun r => forallb notnan (snd r)) (combine (times s) (features freq s))).

Lemma filter_map : forall A B (g : A -> B) p l, filter p (map g l) = map g (filter (fun y => p (g y)) l).
Proof. intros A B g p l. induction l as [| y l IH]; [reflexivity |]. cbn. destruct (p (g y)); cbn; rewrite IH; reflexivity. Qed.

Lemma frame_spec : forall freq m s, noinf (vals s) ->
  exists rows, StronglySorted lt rows /\ (forall i, In i rows <-> shown freq s i) /\
    Forall2 (fun i r => nth_error (times s) i = Some (fst r) /\ numbers_shown freq m s i (fst r) (snd r)) rows (frame_of freq m s).
Proof.
  intros freq m s HI. unfold frame_of. rewrite features_rows.
  assert (length s = length (times s)) as -> by (unfold times; rewrite map_length; reflexivity).
  rewrite combine_index, filter_map. cbn [snd].
  set (I := filter _ (combine (seq 0 (length (times s))) (times s))).
  exists (map fst I). split; [apply indexed_sorted |].
  assert (forall i t, In (i, t) I <-> nth_error (times s) i = Some t /\ forallb notnan (row_at freq s i) = true) as HIn.
  { intros i t. unfold I. rewrite filter_In, indexed. cbn [fst snd]. rewrite Nat.sub_0_r. intuition lia. }
  destruct (fminimum_spec (vals s) HI) as [[E _] | (lo & Hlo & _)].
  - assert (forall i, ~ shown freq s i) as K1.
    { intros i (_ & _ & lo & j & q & [Hlo _] & _). rewrite E in Hlo. destruct Hlo. }
    assert (I = []) as ->; [| split; [intros i; split; [intros [] | intros K; destruct (K1 i K)] | constructor]].
    destruct I as [| [i t] I'] eqn:EI; [reflexivity | exfalso]. destruct (proj1 (HIn i t) (or_introl eq_refl)) as [_ K].
    unfold row_at, columns in K. cbn [map forallb] in K. rewrite !andb_true_iff in K. destruct K as (_ & _ & _ & _ & K & _).
    rewrite scaled_none in K; [discriminate | exact HI |]. intros lo hi [Hl _] _. rewrite E in Hl. destruct Hl.
  - destruct (fmaximum_spec (vals s) HI) as [[E _] | (hi & Hhi & _)]; [destruct Hlo as [K _]; rewrite E in K; destruct K |].
    destruct (qlt lo hi) eqn:EL.
    + apply qlt_spec in EL. split.
      * intros i. rewrite (shown_full freq s lo hi HI Hlo EL). split.
        -- intros Hi. apply in_map_iff in Hi. destruct Hi as ([i' t] & <- & Hi). apply HIn in Hi. destruct Hi as [Ht Hr].
           apply (row_full freq s lo hi HI Hlo Hhi EL i' t Ht). exact Hr.
        -- intros HF. assert (exists t, nth_error (times s) i = Some t) as [t Ht].
           { destruct (full_all freq s lo hi i (proj1 HF)) as (_ & _ & A3 & _). apply (has_number s i HI) in A3. destruct A3 as [q Hq].
             unfold number_at, vals in Hq. rewrite nth_error_map in Hq. unfold times. rewrite nth_error_map. destruct (nth_error s i); [eexists; reflexivity | discriminate]. }
           apply in_map_iff. exists (i, t). split; [reflexivity |]. apply HIn. split; [exact Ht |]. apply (row_full freq s lo hi HI Hlo Hhi EL i t Ht). exact HF.
      * assert (forall i t, In (i, t) I -> nth_error (times s) i = Some t /\ forallb notnan (row_at freq s i) = true) as HI1 by (intros i t; apply HIn).
        clear HIn. clearbody I. induction I as [| [i t] I' IH]; [constructor |]. cbn [map fst snd]. constructor.
        -- destruct (HI1 i t (or_introl eq_refl)) as [Ht Hr]. cbn [fst snd]. split; [exact Ht |].
           apply (row_full freq s lo hi HI Hlo Hhi EL i t Ht) in Hr. destruct Hr as [HF HM]. exact (row_numbers freq s lo hi HI Hlo Hhi EL m i t Ht HF HM).
        -- apply IH. intros i' t' H. apply HI1. right. exact H.
    + apply qlt_false in EL. assert (forall lo' hi', is_min (finvals (vals s)) lo' -> is_max (finvals (vals s)) hi' -> ~ lo' < hi') as NF.
      { intros lo' hi' H1 H2. rewrite (is_min_unique _ _ _ H1 Hlo), (is_max_unique _ _ _ H2 Hhi). apply Qcle_not_lt, EL. }
      assert (forall i, ~ shown freq s i) as K1.
      { intros i (_ & _ & lo' & j & q & Hlo' & _ & Hq & K). apply (NF lo' hi Hlo' Hhi). apply Qclt_le_trans with q; [exact K |].
        apply Hhi, (number_In _ _ _ Hq). }
      assert (I = []) as ->; [| split; [intros i; split; [intros [] | intros K; destruct (K1 i K)] | constructor]].
      destruct I as [| [i t] I'] eqn:EI; [reflexivity | exfalso]. destruct (proj1 (HIn i t) (or_introl eq_refl)) as [_ K].
      unfold row_at, columns in K. cbn [map forallb] in K. rewrite !andb_true_iff in K. destruct K as (_ & _ & _ & _ & K & _).
      rewrite (scaled_none s i HI NF) in K. discriminate.
Qed.
