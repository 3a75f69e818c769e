(** The error distributions, continued. *)

From Coq Require Import QArith Qcanon List ZArith Bool Arith Lia Permutation Sorted.
From Verif.Base Require Import QcExtra ISort Quantile Fl TimeSeries Rolling Segments.
From Verif.Spec Require Import Stats Energy Availability.
From Verif.Model Require Import Energy Clipping Availability.
From Verif.Proofs Require Import StatsP FiltersP EnergyP6 EnergyP7 ClipP4 AvailP AvailP2 AvailP3 AvailP4 AvailP5 AvailP6 AvailP7 AvailP9.
Import ListNotations.
Open Scope list_scope.
Open Scope Qc_scope.

Lemma map_nth_seq : forall A (d : A) l, map (fun i => nth i l d) (seq 0 (length l)) = l.
Proof. intros. rewrite <- (firstn_nth_seq A d) by lia. apply firstn_all. Qed.

Lemma normal_code : forall n loss power expected, length loss = n -> length power = n -> length expected = n ->
  noinf loss -> noinf power -> noinf expected ->
  normal_rows loss power expected = map (normal_row loss power expected) (seq 0 n).
Proof.
  intros n loss power expected L1 L2 L3 N1 N2 N3. apply nth_error_ext. intros i. unfold normal_rows. rewrite zip_nth, nth_error_combine, nth_error_map_some, nth_error_seq.
  destruct (Nat.ltb_spec i n) as [L | L].
  - rewrite (nth_error_nth' loss NaN) by lia. rewrite (nth_error_nth' power NaN) by lia. rewrite (nth_error_nth' expected NaN) by lia. cbn [option_map Nat.add fst snd]. f_equal. unfold normal_row.
    destruct (N1 (nth i loss NaN) ltac:(apply nth_In; lia)). destruct (N2 (nth i power NaN) ltac:(apply nth_In; lia)). destruct (N3 (nth i expected NaN) ltac:(apply nth_In; lia)).
    destruct (nth i loss NaN); try contradiction; [reflexivity |]. destruct (nth i power NaN); try contradiction.
    + unfold fgt. cbn [flt fz feq]. rewrite andb_false_r. reflexivity.
    + destruct (nth i expected NaN); try contradiction; unfold fgt; cbn [flt fz feq]; [apply andb_false_r | reflexivity].
  - rewrite (proj2 (nth_error_None loss i)) by lia. reflexivity.
Qed.

Lemma energy_values : forall t0 w v, (0 < w)%Z -> noinf v ->
  values_on (evenly t0 w (length v)) (combine (tl (grid t0 w (length v))) (zip (step_value (hours w)) v (tl v))) =
  map (fun i => shown (row_energy (hours w) v i)) (seq 0 (length v)).
Proof.
  intros t0 w v Hw Hv. set (n := length v). apply nth_error_ext. intros i. unfold values_on, evenly. rewrite !nth_error_map_some, !nth_error_seq.
  destruct (Nat.ltb_spec i n) as [L | L]; [| reflexivity]. cbn [option_map Nat.add]. f_equal. set (s := combine _ _).
  assert (length (zip (step_value (hours w)) v (tl v)) = n - 1)%nat as Lz by (rewrite zip_length; unfold n; destruct v; cbn [tl length]; lia).
  assert (tl (grid t0 w n) = map (fun k => (t0 + w * Z.of_nat k)%Z) (seq 1 (n - 1))) as Etl.
  { unfold grid. destruct n as [| n']; [lia |]. cbn [seq map tl]. replace (S n' - 1)%nat with n' by lia. reflexivity. }
  assert (times s = tl (grid t0 w n)) as Ts by (apply InterpP.combine_times; rewrite Etl, map_length, seq_length; exact Lz).
  destruct i as [| i].
  - cbn [row_energy shown]. apply lookup_none. rewrite Ts, Etl, in_map_iff. intros (k & K & Hk). apply in_seq in Hk. nia.
  - apply lookup_In.
    + unfold sorted_index. rewrite Ts, Etl. apply EnergyP2.grid_sorted. exact Hw.
    + apply nth_error_In with (n := i). unfold s. rewrite nth_error_combine, Etl, nth_error_map_some, nth_error_seq. destruct (Nat.ltb_spec i (n - 1)); [| lia]. cbn [option_map Nat.add].
      rewrite zip_nth. assert (nth_error (tl v) i = nth_error v (S i)) as -> by (destruct v; [destruct i; reflexivity | reflexivity]).
      rewrite (nth_error_nth' v NaN) by (fold n; lia). rewrite (nth_error_nth' v NaN) by (fold n; lia). do 2 f_equal. unfold row_energy, step_value.
      destruct (nth i v NaN); destruct (nth (S i) v NaN); reflexivity.
Qed.

Lemma row_energy_ext : forall h l l' i, (forall j, (j <= i)%nat -> nth j l NaN = nth j l' NaN) -> row_energy h l i = row_energy h l' i.
Proof. intros h l l' [| i] H; [reflexivity |]. unfold row_energy. rewrite (H i), (H (S i)) by lia. reflexivity. Qed.

Section Errors.
Variables (freq : option Z) (t0 w : Z) (n : nat) (loss power expected : list fl).
Hypothesis w_pos : (0 < w)%Z.
Hypothesis n_two : (2 <= n)%nat.
Hypothesis loss_length : length loss = n.
Hypothesis power_length : length power = n.
Hypothesis expected_length : length expected = n.
Hypothesis loss_noinf : noinf loss.
Hypothesis power_noinf : noinf power.
Hypothesis expected_noinf : noinf expected.
Let rows := normal_at loss power expected.

Lemma rows_spec : forall i, In i rows -> (i < n)%nat /\ exists p e, nth i power NaN = Fin p /\ 0 < p /\ nth i expected NaN = Fin e /\ 0 < e.
Proof.
  intros i Hi. unfold rows, normal_at in Hi. apply filter_In in Hi. destruct Hi as [Hi Hn]. apply in_seq in Hi. split; [lia |]. unfold normal_row in Hn.
  destruct (nth i loss NaN) as [| | x |]; try discriminate. destruct (nth i power NaN) as [| | p |]; try discriminate. destruct (nth i expected NaN) as [| | e |]; try discriminate.
  apply andb_true_iff in Hn. destruct Hn as [Hn H2]. apply andb_true_iff in Hn. destruct Hn as [_ H1]. apply qlt_spec in H1. apply qlt_spec in H2. exists p, e. auto.
Qed.

Lemma total_pos : forall l, (forall i, In i rows -> exists x, nth i l NaN = Fin x /\ 0 < x) -> rows <> [] -> 0 < total_over l rows.
Proof.
  intros l H N. unfold total_over. revert H N. generalize rows as r. intros r. induction r as [| i r IH]; intros H N; [contradiction |].
  cbn [map]. rewrite qsum_cons. destruct (H i (or_introl eq_refl)) as (x & E & P). unfold known_at at 1. rewrite E. cbn [known_or_0].
  destruct r as [| j r]; [cbn; qlra |]. assert (0 < qsum (map (known_at l) (j :: r))) by (apply IH; [intros k Hk; apply H; right; exact Hk | discriminate]). qlra.
Qed.
Lemma power_total_pos : rows <> [] -> 0 < total_over power rows.
Proof. apply total_pos. intros i Hi. destruct (rows_spec i Hi) as (_ & p & e & E & P & _). eauto. Qed.
Lemma expected_total_pos : rows <> [] -> 0 < total_over expected rows.
Proof. apply total_pos. intros i Hi. destruct (rows_spec i Hi) as (_ & p & e & _ & _ & E & P). eauto. Qed.

Lemma normal_eq : normal_rows loss power expected = map (normal_row loss power expected) (seq 0 n).
Proof. apply normal_code; assumption. Qed.
Lemma pick_eq : forall l, length l = n -> pick (normal_rows loss power expected) l = map (fun i => nth i l NaN) rows.
Proof. intros l Hl. rewrite normal_eq, <- Hl. rewrite (pick_rows _ NaN). unfold rows, normal_at. rewrite Hl, power_length. reflexivity. Qed.

Lemma fsum_pick : forall l, length l = n -> noinf l -> fsum (pick (normal_rows loss power expected) l) = Fin (total_over l rows).
Proof.
  intros l Hl Nl. rewrite pick_eq by exact Hl. rewrite fsum_noinf.
  - f_equal. unfold total_over. generalize rows as r. induction r as [| i r IH]; [reflexivity |]. cbn [map]. rewrite qsum_cons, <- IH. unfold known_at.
    destruct (nth i l NaN); cbn [finvals known_or_0]; rewrite ?qsum_cons; try (rewrite Qcplus_0_l); reflexivity.
  - intros x Hx. apply in_map_iff in Hx. destruct Hx as (i & <- & Hi). apply Nl. apply nth_In. destruct (rows_spec i Hi) as [L _]. lia.
Qed.

Lemma scaled_none : rows = [] -> rescaled (normal_rows loss power expected) power expected = map (fun _ => NaN) expected.
Proof.
  intros E. unfold rescaled. rewrite !fsum_pick by assumption. rewrite E. apply map_ext. intros x. unfold total_over. cbn [map].
  change (fdiv (Fin (qsum [])) (Fin (qsum []))) with NaN. destruct x; reflexivity.
Qed.
Lemma scaled_code : rows <> [] -> rescaled (normal_rows loss power expected) power expected = map (calibrated rows power expected) (seq 0 n).
Proof.
  intros N. unfold rescaled. rewrite !fsum_pick by assumption. pose proof (power_total_pos N) as P. pose proof (expected_total_pos N) as Q.
  rewrite <- (map_nth_seq _ NaN expected) at 1. rewrite map_map, expected_length. apply map_ext_in. intros i Hi. apply in_seq in Hi. unfold calibrated, fdiv.
  assert (qeq (total_over power rows) 0 = false) as -> by (apply qeq_false, Qc_pos_neq, P).
  assert (0 < total_over expected rows / total_over power rows) as PQ by (apply Qc_lt_div; [exact P | qlra]).
  destruct (expected_noinf (nth i expected NaN) ltac:(apply nth_In; lia)). destruct (nth i expected NaN); try contradiction; [reflexivity |].
  assert (qeq (total_over expected rows / total_over power rows) 0 = false) as -> by (apply qeq_false, Qc_pos_neq, PQ). f_equal. field. split; apply Qc_pos_neq; assumption.
Qed.

Lemma some_row : rows <> [] -> exists i, In i rows.
Proof. destruct rows as [| i r]; [contradiction | exists i; left; reflexivity]. Qed.

Lemma errors_none : forall quantiles, rows = [] ->
  calc_error_distributions freq (evenly t0 w n) loss power expected quantiles = Raise IndexError.
Proof.
  intros quantiles E. unfold calc_error_distributions. rewrite (scaled_none E). set (v := map (fun _ => NaN) expected).
  assert (length v = n) as Lv by (unfold v; rewrite map_length; exact expected_length).
  change (evenly t0 w n) with (grid t0 w n). rewrite <- Lv. rewrite energy_regular_none; [reflexivity | exact w_pos | lia | |].
  - intros x Hx. unfold v in Hx. apply in_map_iff in Hx. destruct Hx as (y & <- & _). split; discriminate.
  - unfold v. clear. induction expected as [| x l IH]; [reflexivity | exact IH].
Qed.

Lemma errors_spec : forall q1 q2, 0 <= q1 -> q1 <= 1 -> 0 <= q2 -> q2 <= 1 -> rows <> [] ->
  ((length rows < 4)%nat -> calc_error_distributions freq (evenly t0 w n) loss power expected (q1, q2) = Raise ValueError) /\
  ((4 <= length rows)%nat -> exists e, calc_error_distributions freq (evenly t0 w n) loss power expected (q1, q2) = Ok e /\
     e_power e = map (calibrated rows power expected) (seq 0 n) /\
     e_energy e = map (fun i => shown (row_energy (hours w) (e_power e) i)) (seq 0 n) /\
     error_points q1 (row_energy (hours w) power) (row_energy (hours w) (e_power e)) rows (e_lower e) /\
     error_points q2 (row_energy (hours w) power) (row_energy (hours w) (e_power e)) rows (e_upper e)).
Proof.
  intros q1 q2 H1 H2 H3 H4 N. unfold calc_error_distributions. rewrite (scaled_code N). set (v := map (calibrated rows power expected) (seq 0 n)).
  assert (length v = n) as Lv by (unfold v; rewrite map_length; apply seq_length).
  assert (noinf v) as Nv.
  { intros x Hx. unfold v in Hx. apply in_map_iff in Hx. destruct Hx as (i & <- & _). unfold calibrated. destruct (nth i expected NaN); split; discriminate. }
  destruct (some_row N) as [i0 Hi0]. destruct (rows_spec i0 Hi0) as (L0 & p0 & e0 & P1 & P2 & P3 & P4).
  assert (forall i, (i < n)%nat -> nth i v NaN = calibrated rows power expected i) as Hv.
  { intros i Hi. apply nth_error_nth. unfold v. rewrite nth_error_map_some, nth_error_seq. destruct (Nat.ltb_spec i n); [reflexivity | lia]. }
  assert (finvals v <> []) as Fv.
  { intros E. assert (In (e0 * (total_over power rows / total_over expected rows)) (finvals v)) as K.
    { apply finvals_In. pose proof (Hv i0 L0) as K. unfold calibrated in K. rewrite P3 in K. rewrite <- K. apply nth_In. lia. }
    rewrite E in K. destruct K. }
  assert (finvals power <> []) as Fp.
  { intros E. assert (In p0 (finvals power)) as K by (apply finvals_In; rewrite <- P1; apply nth_In; lia). rewrite E in K. destruct K. }
  pose proof (energy_regular freq t0 w v w_pos ltac:(lia) Nv Fv) as E1. rewrite Lv in E1. change (grid t0 w n) with (evenly t0 w n) in E1. rewrite E1. cbn [bind].
  pose proof (energy_regular freq t0 w power w_pos ltac:(lia) power_noinf Fp) as E2. rewrite power_length in E2. change (grid t0 w n) with (evenly t0 w n) in E2. rewrite E2. cbn [bind].
  pose proof (energy_values t0 w v w_pos Nv) as V1. rewrite Lv in V1. change (grid t0 w n) with (evenly t0 w n) in V1. rewrite V1.
  pose proof (energy_values t0 w power w_pos power_noinf) as V2. rewrite power_length in V2. change (grid t0 w n) with (evenly t0 w n) in V2. rewrite V2.
  assert (forall (f : nat -> fl), pick (normal_rows loss power expected) (map f (seq 0 n)) = map f rows) as HP.
  { intros f. rewrite pick_eq by (rewrite map_length; apply seq_length). apply map_ext_in. intros i Hi. apply nth_error_nth. rewrite nth_error_map_some, nth_error_seq.
    destruct (rows_spec i Hi) as [L _]. destruct (Nat.ltb_spec i n); [reflexivity | lia]. }
  rewrite !HP. set (A := map (fun i => shown (row_energy (hours w) power i)) rows). set (X := map (fun i => shown (row_energy (hours w) v i)) rows).
  assert (length A = length rows) as LA by (unfold A; apply map_length).
  destruct A as [| a0 A'] eqn:EA; [destruct rows; [contradiction | discriminate] |]. rewrite <- EA in *. clear a0 A' EA.
  assert (0 < length rows)%nat as LR by (destruct rows; [contradiction | cbn; lia]).
  assert (forall i y, In i rows -> row_energy (hours w) v i = Some y -> 0 < y) as Pos.
  { intros i y Hi Hy. destruct (rows_spec i Hi) as (Li & p & e & _ & _ & Ee & Pe). destruct i as [| j]; [discriminate |]. unfold row_energy in Hy.
    rewrite (Hv (S j) Li) in Hy. unfold calibrated in Hy. rewrite Ee in Hy. destruct (nth j v NaN); try discriminate. injection Hy as <-.
    apply Qc_mul_pos; [| unfold hours; apply Qc_lt_div; [reflexivity |]; rewrite Qcmult_0_l; apply qz_pos; exact w_pos].
    apply Qc_mul_pos; [exact Pe |]. apply Qc_lt_div; [apply expected_total_pos; exact N |]. rewrite Qcmult_0_l. apply power_total_pos. exact N. }
  split.
  - intros L4. rewrite LA. assert (window_lengths (length rows) = []) as ->; [| reflexivity].
    unfold window_lengths. assert (Nat.log2 (length rows) < 2)%nat as K by (apply Nat.log2_lt_pow2; [exact LR | exact L4]). replace (Nat.log2 (length rows) - 1)%nat with 0%nat by lia. reflexivity.
  - intros L4. rewrite LA. assert (window_lengths (length rows) <> []) as NW.
    { assert (In 2%nat (window_lengths (length rows))) as K by (apply lengths_In; [exact LR |]; exists 1%nat; split; [lia |]; split; [exact L4 | reflexivity]). intros E. rewrite E in K. destruct K. }
    destruct (window_lengths (length rows)) as [| w0 wl]; [contradiction |]. eexists. split; [reflexivity |]. cbn [e_power e_energy e_lower e_upper fst snd].
    split; [reflexivity |]. split; [reflexivity |]. split; apply points_spec; assumption.
Qed.

(** The calibration makes the totals agree. *)
Lemma calibration : rows <> [] -> total_over (map (calibrated rows power expected) (seq 0 n)) rows = total_over power rows.
Proof.
  intros N. pose proof (expected_total_pos N) as Q. set (c := total_over power rows / total_over expected rows).
  assert (total_over (map (calibrated rows power expected) (seq 0 n)) rows = c * total_over expected rows) as ->.
  { unfold total_over at 1. rewrite (qsum_map_ext _ _ (fun i => c * known_at expected i)).
    - rewrite qsum_map_scale. reflexivity.
    - intros i Hi. destruct (rows_spec i Hi) as (Li & p & e & _ & _ & Ee & _). unfold known_at.
      assert (nth i (map (calibrated rows power expected) (seq 0 n)) NaN = calibrated rows power expected i) as ->.
      { apply nth_error_nth. rewrite nth_error_map_some, nth_error_seq. destruct (Nat.ltb_spec i n); [reflexivity | lia]. }
      unfold calibrated. rewrite Ee. cbn [known_or_0]. fold c. ring. }
  unfold c. field. apply Qc_pos_neq. exact Q.
Qed.
End Errors.
