(** Monthly soiling rates. *)

From Coq Require Import QArith Qcanon List ZArith Bool Arith Lia Sorted String.
From Verif.Base Require Import QcExtra ISort Quantile Fl TimeSeries Calendar Rolling Segments.
From Verif.Spec Require Import Stats Filters Soiling.
From Verif.Model Require Import Soiling SoilingSummary.
From Verif.Spec Require Import SoilingTable SoilingSummary.
From Verif.Proofs Require Import StatsP FiltersP2 SoilP3 SoilP4 SoilP5 SoilP8 SoilP9 SoilP10 SoilP11.
Import ListNotations.
Open Scope list_scope.
Open Scope Qc_scope.

(** ** Days *)

Lemma range_In : forall i t, In t (date_range (i_start i) (i_end i)) <-> day_of i t.
Proof.
  intros i t. unfold date_range, day_of. assert (0 < ns_day)%Z as ND by (unfold ns_day; lia). rewrite in_map_iff. split.
  - intros (k & <- & Hk). apply in_seq in Hk. exists (Z.of_nat k). split; [lia |]. split; [reflexivity |]. assert (Z.of_nat k <= (i_end i - i_start i) / ns_day)%Z as L by lia.
    pose proof (Z.mul_div_le (i_end i - i_start i) ns_day ND). nia.
  - intros (k & Hk & -> & HL). exists (Z.to_nat k). split; [rewrite Z2Nat.id by exact Hk; reflexivity |]. apply in_seq. assert (k <= (i_end i - i_start i) / ns_day)%Z by (apply Z.div_le_lower_bound; lia). lia.
Qed.
Lemma range_nodup : forall a b, NoDup (date_range a b).
Proof.
  intros a b. unfold date_range. apply FinFun.Injective_map_NoDup; [| apply seq_NoDup]. intros x y E. assert (0 < ns_day)%Z by (unfold ns_day; lia). nia.
Qed.
Lemma has_days_unique : forall i P n n', has_days i P n -> has_days i P n' -> n = n'.
Proof.
  intros i P n n' (l & N & <- & H) (l' & N' & <- & H'). f_equal. apply Nat.le_antisymm; apply NoDup_incl_length; auto; intros t Ht; [apply H', H | apply H, H']; exact Ht.
Qed.
Theorem count_month_spec : forall i m, has_days i (fun t => ts_month t = m) (count_month_days (i_start i) (i_end i) m).
Proof.
  intros i m. unfold count_month_days. exists (filter (fun t => (ts_month t =? m)%Z) (date_range (i_start i) (i_end i))). split; [apply NoDup_filter, range_nodup |]. split; [reflexivity |].
  intros t. rewrite filter_In, range_In, Z.eqb_eq. reflexivity.
Qed.
Lemma zsum_app : forall a b, zsum (a ++ b) = (zsum a + zsum b)%Z.
Proof. induction a as [| x a IH]; intros b; [reflexivity |]. unfold zsum in *. cbn. rewrite IH. lia. Qed.
Lemma zsum_add : forall A (f g : A -> Z) l, zsum (map (fun x => f x + g x)%Z l) = (zsum (map f l) + zsum (map g l))%Z.
Proof. induction l as [| x l IH]; [reflexivity |]. unfold zsum in *. cbn. rewrite IH. lia. Qed.
Theorem month_days_total : forall i, exists n, has_days i (fun _ => True) n /\ zsum (map (fun m => count_month_days (i_start i) (i_end i) (Z.of_nat m)) (seq 1 12)) = n.
Proof.
  intros i. exists (Z.of_nat (List.length (date_range (i_start i) (i_end i)))). split.
  - exists (date_range (i_start i) (i_end i)). split; [apply range_nodup |]. split; [reflexivity |]. intros t. rewrite range_In. tauto.
  - unfold count_month_days. induction (date_range (i_start i) (i_end i)) as [| t l IH]; [reflexivity |].
    transitivity (zsum (map (fun m => (if (ts_month t =? Z.of_nat m)%Z then 1 else 0) + Z.of_nat (List.length (filter (fun t0 => (ts_month t0 =? Z.of_nat m)%Z) l)))%Z (seq 1 12))).
    + f_equal. apply map_ext. intros m. cbn [filter]. destruct (ts_month t =? Z.of_nat m)%Z; [cbn [List.length]; lia | lia].
    + rewrite zsum_add, IH. cbn [List.length]. assert (zsum (map (fun m => if (ts_month t =? Z.of_nat m)%Z then 1%Z else 0%Z) (seq 1 12)) = 1%Z) as ->; [| lia].
      pose proof (ts_month_range t) as R. set (m := ts_month t) in *. clearbody m. assert (m = 1 \/ m = 2 \/ m = 3 \/ m = 4 \/ m = 5 \/ m = 6 \/ m = 7 \/ m = 8 \/ m = 9 \/ m = 10 \/ m = 11 \/ m = 12)%Z as C by lia.
      repeat (destruct C as [-> | C]; [reflexivity |]). rewrite C. reflexivity.
Qed.

(** ** Samples *)

Lemma qz_zsum : forall l, qz (zsum l) = qsum (map qz l).
Proof. induction l as [| x l IH]; [reflexivity |]. change (zsum (x :: l)) with (x + zsum l)%Z. cbn [map]. rewrite qz_add, qsum_cons, IH. reflexivity. Qed.

Section Samples.
Variables (reps : Z) (A : Type) (ivs : list A) (ds : list Z).
Hypothesis len : List.length ds = List.length ivs.
Hypothesis nonneg : forall d, In d ds -> (0 <= d)%Z.
Let over := filter (fun p => (0 <? snd p)%Z) (combine ivs ds).
Let total := zsum ds.

Lemma total_over : zsum (map snd over) = total.
Proof.
  unfold over, total. clear over total. revert ds len nonneg. induction ivs as [| i l IH]; intros [| d ds] L N; try discriminate; [reflexivity |]. cbn [combine filter snd].
  specialize (IH ds ltac:(cbn in L; lia) (fun x Hx => N x (or_intror Hx))). specialize (N d (or_introl eq_refl)). change (zsum (d :: ds)) with (d + zsum ds)%Z. destruct (0 <? d)%Z eqn:E.
  - cbn [map snd]. change (zsum (d :: ?l)) with (d + zsum l)%Z. rewrite <- IH. reflexivity.
  - apply Z.ltb_ge in E. rewrite IH. lia.
Qed.

Definition share (d : Z) : Z := qceil (qz d / qz total * qz reps).

Lemma share_pos : (0 < total)%Z -> (0 < reps)%Z -> forall d, (0 <= d)%Z -> (0 <? share d)%Z = (0 <? d)%Z.
Proof.
  intros HT HR d Hd. unfold share. assert (0 < qz total) as T by (apply qz_pos; exact HT). assert (0 < qz reps) as R by (apply qz_pos; exact HR). destruct (Z.ltb_spec 0 d) as [P | P].
  - apply Z.ltb_lt. apply qz_lt_e. rewrite qz_0. pose proof (qceil_ge (qz d / qz total * qz reps)). assert (0 < qz d / qz total * qz reps); [| qlra]. apply Qc_mul_pos; [| exact R]. apply Qc_lt_div; [exact T |]. pose proof (qz_pos d P). qlra.
  - replace d with 0%Z by lia. apply Z.ltb_ge. apply qz_le_e. rewrite qz_0. pose proof (qceil_lt (0 / qz total * qz reps)) as C. replace (0 / qz total * qz reps) with 0 in * by (unfold Qcdiv; ring).
    assert (qceil 0 = 0%Z) as ->; [reflexivity | rewrite qz_0; apply Qcle_refl].
Qed.
Lemma share_nonpos : (0 < total)%Z -> (reps <= 0)%Z -> forall d, (0 <= d)%Z -> (0 <? share d)%Z = false.
Proof.
  intros HT HR d Hd. unfold share. apply Z.ltb_ge. assert (qz d / qz total * qz reps <= 0) as N.
  { assert (0 < qz total) as T by (apply qz_pos; exact HT). assert (0 <= qz d / qz total) as D by (apply Qc_div_nonneg; [apply qz_nonneg; exact Hd | exact T]).
    assert (0 <= qz d / qz total * (- qz reps)) by (apply Qc_mul_nonneg; [exact D |]; pose proof (qz_le_i _ _ HR) as Q; rewrite qz_0 in Q; qlra). replace (qz d / qz total * - qz reps) with (- (qz d / qz total * qz reps)) in H by ring. qlra. }
  pose proof (qceil_lt (qz d / qz total * qz reps)) as L. set (z := qceil _) in *. assert (qz z < qz 1) as L' by (rewrite qz_1; qlra). apply qz_lt_e in L'. lia.
Qed.

(** Shares of the overlapping intervals. *)
Lemma relevant_spec : (0 < total)%Z -> (0 < reps)%Z ->
  filter (fun p => (0 <? snd p)%Z) (combine ivs (map share ds)) = map (fun p => (fst p, share (snd p))) over.
Proof.
  intros HT HR. unfold over. pose proof (share_pos HT HR) as SP. clear over. set (sh := share) in *. clearbody sh. clear HT. clear total. revert ds len nonneg. induction ivs as [| i l IH]; intros [| d ds] L N; try discriminate; [reflexivity |]. cbn [combine map filter snd].
  rewrite (SP d (N d (or_introl eq_refl))), (IH ds ltac:(cbn in L; lia) (fun x Hx => N x (or_intror Hx))). destruct (0 <? d)%Z; reflexivity.
Qed.
Lemma relevant_none : (reps <= 0)%Z \/ ~ (0 < total)%Z ->
  filter (fun p => (0 <? snd p)%Z) (combine ivs (month_samples reps ds)) = [].
Proof.
  intros H. apply filter_none. intros [i n] Hin. apply in_combine_r in Hin. cbn [snd]. unfold month_samples in Hin. cbv zeta in Hin. fold (zsum ds) in Hin. fold total in Hin. destruct (Z.ltb_spec 0 total) as [P | P].
  - destruct H as [H | H]; [| contradiction]. apply in_map_iff in Hin. destruct Hin as (d & <- & Hd). apply (share_nonpos P H). apply nonneg. exact Hd.
  - apply in_map_iff in Hin. destruct Hin as (d & <- & _). reflexivity.
Qed.
Lemma total_pos : (0 < total)%Z <-> over <> [].
Proof.
  rewrite <- total_over. unfold over. split.
  - intros H C. rewrite C in H. cbn in H. lia.
  - intros H. assert (forall p, In p (filter (fun p : A * Z => (0 <? snd p)%Z) (combine ivs ds)) -> (0 < snd p)%Z) as K by (intros p Hp; apply filter_In in Hp; apply Z.ltb_lt; apply Hp). revert H K. clear. generalize (filter (fun p : A * Z => (0 <? snd p)%Z) (combine ivs ds)) as l.
    intros [| p l] H K; [contradiction |]. clear H. pose proof (K p (or_introl eq_refl)) as P. cbn [map]. change (zsum (snd p :: map snd l)) with (snd p + zsum (map snd l))%Z. assert (0 <= zsum (map snd l))%Z; [| lia].
    assert (forall q, In q l -> (0 < snd q)%Z) as K' by (intros q Hq; apply K; right; exact Hq). clear -K'. induction l as [| q l IH]; [cbn; lia |]. cbn [map]. change (zsum (snd q :: map snd l)) with (snd q + zsum (map snd l))%Z. pose proof (K' q (or_introl eq_refl)). specialize (IH (fun z Hz => K' z (or_intror Hz))). lia.
Qed.

Lemma share_bounds : forall d, qz d / qz total * qz reps <= qz (share d) /\ qz (share d) < qz d / qz total * qz reps + 1.
Proof. intros d. unfold share. split; [apply qceil_ge | apply qceil_lt]. Qed.
Lemma share_total : (0 < total)%Z -> over <> [] -> (reps <= zsum (map share (map snd over)) < reps + Z.of_nat (List.length over))%Z.
Proof.
  intros HT NE. assert (qsum (map (fun d => qz d / qz total * qz reps) (map snd over)) = qz reps) as ES.
  { transitivity (qsum (map qz (map snd over)) / qz total * qz reps).
    - generalize (map snd over) as l. induction l as [| d l IH]; [cbn; unfold Qcdiv; ring |]. cbn [map]. rewrite !qsum_cons, IH. unfold Qcdiv. ring.
    - rewrite <- qz_zsum, total_over. rewrite Qcmult_comm. unfold Qcdiv. rewrite Qcmult_inv_r by (apply qz_neq0; lia). ring. }
  assert (forall l, l <> [] -> qsum (map (fun d => qz d / qz total * qz reps) l) <= qz (zsum (map share l)) /\
    qz (zsum (map share l)) < qsum (map (fun d => qz d / qz total * qz reps) l) + qz (Z.of_nat (List.length l))) as K.
  { induction l as [| d l IH]; intros NEl; [contradiction |]. destruct (share_bounds d) as [B1 B2]. cbn [map List.length]. change (zsum (share d :: map share l)) with (share d + zsum (map share l))%Z. rewrite qsum_cons, qz_add. replace (qz (Z.of_nat (S (List.length l)))) with (1 + qz (Z.of_nat (List.length l))) by (rewrite Nat2Z.inj_succ, <- Z.add_1_l, qz_add; reflexivity).
    destruct l as [| d' l]; [cbn [map List.length]; change (zsum []) with 0%Z; change (Z.of_nat 0) with 0%Z; rewrite qsum_nil, qz_0; set (t := qz d / qz total * qz reps) in *; clearbody t; split; qlra |].
    destruct (IH ltac:(discriminate)) as [I1 I2]. set (t := qz d / qz total * qz reps) in *. set (r := qsum _) in *. clearbody t r. split; qlra. }
  destruct (K (map snd over)) as [K1 K2]; [destruct over; [contradiction | discriminate] |]. rewrite ES, map_length in *. split; [apply qz_le_e; exact K1 |]. apply qz_lt_e. rewrite qz_add. exact K2.
Qed.
End Samples.

(** ** Rates *)

Lemma draw_some : forall (u : nat -> Qc) low high n b, low = Fin (fst b) -> high = Fin (snd b) ->
  forall o, map_result (fun k => uniform (u k) low high) (seq o n) = Ok (map Fin (map (fun j => between b (u j)) (seq o n))).
Proof. intros u low high n b -> ->. induction n as [| n IH]; intros o; [reflexivity |]. cbn [seq map_result uniform bind]. rewrite IH. reflexivity. Qed.

Lemma rates_spec : forall u (l : list (interval * Z)) (b : nat -> Qc * Qc),
  (forall k i n, nth_error l k = Some (i, n) -> i_slope_low i = Fin (fst (b k)) /\ i_slope_high i = Fin (snd (b k))) ->
  month_rates u l = Ok (map Fin (List.concat (map (fun k => samples u k (b k) (snd (nth k l (Interval 0 0 0 0 NaN NaN NaN NaN NaN NaN false, 0%Z)))) (seq 0 (List.length l))))).
Proof.
  intros u l b H. unfold month_rates. set (df := (Interval 0 0 0 0 NaN NaN NaN NaN NaN NaN false, 0%Z)).
  assert (forall o (l : list (interval * Z)), (forall k i n, nth_error l k = Some (i, n) -> i_slope_low i = Fin (fst (b (o + k)%nat)) /\ i_slope_high i = Fin (snd (b (o + k)%nat))) ->
    map_result (fun p => map_result (fun k => uniform (u (fst p) k) (i_slope_low (fst (snd p))) (i_slope_high (fst (snd p)))) (seq 0 (Z.to_nat (snd (snd p))))) (combine (seq o (List.length l)) l) =
    Ok (map (map Fin) (map (fun k => samples u (o + k)%nat (b (o + k)%nat) (snd (nth k l df))) (seq 0 (List.length l))))) as K.
  { clear l H. intros o l. revert o. induction l as [| [i n] l IH]; intros o H; [reflexivity |]. cbn [List.length seq combine map_result fst snd]. destruct (H 0%nat i n eq_refl) as [E1 E2]. rewrite Nat.add_0_r in E1, E2.
    rewrite (draw_some (u o) _ _ _ _ E1 E2). cbn [bind]. rewrite (IH (S o)); [| intros k i' n' Hk; replace (S o + k)%nat with (o + S k)%nat by lia; apply (H (S k) i' n' Hk)]. cbn [bind map]. f_equal. f_equal.
    - unfold samples. rewrite Nat.add_0_r. reflexivity.
    - rewrite <- seq_shift, !map_map. apply map_ext. intros k. rewrite Nat.add_succ_r. reflexivity. }
  rewrite (K 0%nat l H). cbn [bind]. rewrite concat_map. reflexivity.
Qed.

Lemma samples_between : forall u k b n q, in_unit (u k) -> fst b <= snd b -> In q (samples u k b n) -> fst b <= q /\ q <= snd b.
Proof.
  intros u k [lo hi] n q HU HB Hq. unfold samples in Hq. apply in_map_iff in Hq. destruct Hq as (j & <- & _). destruct (HU j) as [U0 U1]. unfold between. cbn [fst snd] in *.
  assert (0 <= (hi - lo) * u k j) by (apply Qc_mul_nonneg; qlra). assert (0 <= (hi - lo) * (1 - u k j)) by (apply Qc_mul_nonneg; qlra). replace ((hi - lo) * (1 - u k j)) with (hi - lo - (hi - lo) * u k j) in H0 by ring. split; qlra.
Qed.

Theorem month_spec : forall u c reps ivs ds m, Forall2 (fun i d => has_days i (fun t => ts_month t = m) d) ivs ds ->
  let over := filter (fun p => (0 <? snd p)%Z) (combine ivs ds) in
  ((reps <= 0)%Z \/ over = [] -> month_row u c reps ivs m = Ok (Monthly m NaN NaN NaN 0)) /\
  ((0 < reps)%Z -> over <> [] -> forall bs, Forall2 (fun p b => i_slope_low (fst p) = Fin (fst b) /\ i_slope_high (fst p) = Fin (snd b)) over bs ->
     (c < - qz 100 \/ qz 100 < c -> month_row u c reps ivs m = Raise ValueError) /\
     (- qz 100 <= c -> c <= qz 100 -> exists ns md lo hi,
        month_row u c reps ivs m = Ok (Monthly m (Fin md) (Fin lo) (Fin hi) (List.length over)) /\
        Forall2 (fun p n => qz (snd p) / qz (zsum ds) * qz reps <= qz n /\ qz n < qz (snd p) / qz (zsum ds) * qz reps + 1 /\ (0 < n)%Z) over ns /\
        (reps <= zsum ns < reps + Z.of_nat (List.length over))%Z /\
        let rates := List.concat (map (fun k => samples u k (nth k bs (0, 0)) (nth k ns 0%Z)) (seq 0 (List.length over))) in
        Z.of_nat (List.length rates) = zsum ns /\
        is_median rates md /\ is_percentile (qz 50 - c / qz 2) rates lo /\ is_percentile (qz 50 + c / qz 2) rates hi /\ (0 <= c -> lo <= md /\ md <= hi) /\
        ((forall k, in_unit (u k)) -> (forall b, In b bs -> fst b <= snd b) -> forall x y, (forall b, In b bs -> x <= fst b /\ snd b <= y) ->
         (x <= md /\ md <= y) /\ (x <= lo /\ lo <= y) /\ (x <= hi /\ hi <= y)))).
Proof.
  intros u c reps ivs ds m HD over.
  assert (ds = map (fun i => count_month_days (i_start i) (i_end i) m) ivs) as ED.
  { clear over. induction HD as [| i d l l' Hd HD IH]; [reflexivity |]. cbn [map]. rewrite <- IH. f_equal. apply (has_days_unique i (fun t => ts_month t = m)); [exact Hd | apply count_month_spec]. }
  assert (List.length ds = List.length ivs) as LEN by (rewrite ED, map_length; reflexivity).
  assert (forall d, In d ds -> (0 <= d)%Z) as NN by (intros d Hd; rewrite ED in Hd; apply in_map_iff in Hd; destruct Hd as (i & <- & _); unfold count_month_days; lia).
  unfold month_row. rewrite <- ED. cbv zeta. split.
  - intros H. rewrite (relevant_none reps _ ivs ds LEN NN); [reflexivity |]. destruct H as [H | H]; [left; exact H | right]. intros C. apply (total_pos _ ivs ds LEN NN) in C. contradiction.
  - intros HR NE bs FB. assert (0 < zsum ds)%Z as TP by (apply (total_pos _ ivs ds LEN NN); exact NE).
    assert (month_samples reps ds = map (share reps ds) ds) as EM.
    { unfold month_samples. cbv zeta. fold (zsum ds). assert ((0 <? zsum ds)%Z = true) as -> by (apply Z.ltb_lt; exact TP). reflexivity. }
    rewrite EM, (relevant_spec reps _ ivs ds LEN NN TP HR). fold over. set (ns := map (share reps ds) (map snd over)). set (rel := map (fun p => (fst p, share reps ds (snd p))) over).
    assert (List.length rel = List.length over) as LR by (unfold rel; apply map_length). assert (List.length bs = List.length over) as LB by (symmetry; apply (Forall2_len _ _ _ _ _ FB)).
    assert (forall k p, nth_error over k = Some p -> i_slope_low (fst p) = Fin (fst (nth k bs (0, 0))) /\ i_slope_high (fst p) = Fin (snd (nth k bs (0, 0)))) as HB.
    { clear -FB. induction FB as [| p b l l' Hb FB IH]; intros k q Hk; [destruct k; discriminate |]. destruct k as [| k]; [cbn in Hk; injection Hk as <-; exact Hb | apply (IH k q Hk)]. }
    rewrite (rates_spec u rel (fun k => nth k bs (0, 0))).
    2:{ intros k i n Hk. unfold rel in Hk. rewrite nth_error_map_some in Hk. destruct (nth_error over k) as [p |] eqn:Ep; [| discriminate]. cbn in Hk. injection Hk as <- <-. apply (HB k p Ep). }
    cbn [bind]. rewrite LR.
    assert (map (fun k => samples u k (nth k bs (0, 0)) (snd (nth k rel (Interval 0 0 0 0 NaN NaN NaN NaN NaN NaN false, 0%Z)))) (seq 0 (List.length over)) =
            map (fun k => samples u k (nth k bs (0, 0)) (nth k ns 0%Z)) (seq 0 (List.length over))) as ER.
    { apply map_ext_in. intros k Hk. apply in_seq in Hk. f_equal. destruct (nth_error over k) as [p |] eqn:Ep; [| apply nth_error_None in Ep; lia].
      rewrite (nth_error_nth rel k _ (x := (fst p, share reps ds (snd p)))) by (unfold rel; rewrite nth_error_map_some, Ep; reflexivity). symmetry. apply nth_error_nth. unfold ns. rewrite !nth_error_map_some, Ep. reflexivity. }
    rewrite ER. set (rates := List.concat _).
    assert (Forall2 (fun p n => qz (snd p) / qz (zsum ds) * qz reps <= qz n /\ qz n < qz (snd p) / qz (zsum ds) * qz reps + 1 /\ (0 < n)%Z) over ns) as FN.
    { assert (forall p, In p over -> (0 < snd p)%Z) as OP by (intros p Hp; unfold over in Hp; apply filter_In in Hp; apply Z.ltb_lt, Hp). unfold ns. clear -OP TP HR LEN. induction over as [| p l IH]; [constructor |]. cbn [map]. constructor; [| apply IH; intros q Hq; apply OP; right; exact Hq].
      destruct (share_bounds reps ds (snd p)) as [B1 B2]. split; [exact B1 |]. split; [exact B2 |]. pose proof (OP p (or_introl eq_refl)) as P. apply Z.ltb_lt. rewrite (share_pos reps _ ivs ds LEN TP HR) by lia. apply Z.ltb_lt. exact P. }
    pose proof (share_total reps _ ivs ds LEN NN TP NE) as ST. fold over in ST. fold ns in ST.
    assert (List.length ns = List.length over) as LN by (unfold ns; rewrite !map_length; reflexivity).
    assert (Z.of_nat (List.length rates) = zsum ns) as LRATE.
    { unfold rates. clear rates ER. rewrite <- LN. assert (forall n, In n ns -> (0 < n)%Z) as NP by (intros n Hn; destruct (Forall2_in_right _ _ _ _ _ n FN Hn) as (p & _ & _ & _ & P); exact P).
      assert (forall o l, (forall n, In n l -> (0 < n)%Z) -> Z.of_nat (List.length (List.concat (map (fun k => samples u (o + k)%nat (nth (o + k)%nat bs (0, 0)) (nth k l 0%Z)) (seq 0 (List.length l))))) = zsum l) as K.
      { intros o l. revert o. induction l as [| n l IH]; intros o P; [reflexivity |]. cbn [List.length seq map List.concat nth]. rewrite app_length, Nat2Z.inj_add. unfold samples at 1. rewrite map_length, seq_length, Z2Nat.id by (pose proof (P n (or_introl eq_refl)); lia).
        change (zsum (n :: l)) with (n + zsum l)%Z. f_equal. rewrite <- (IH (S o)) by (intros z Hz; apply P; right; exact Hz). rewrite <- seq_shift, map_map. do 3 f_equal. apply map_ext. intros k. rewrite Nat.add_succ_r. reflexivity. }
      apply (K 0%nat ns NP). }
    assert (rates <> []) as NR by (intros C; rewrite C in LRATE; cbn in LRATE; lia). pose proof (level_test c) as LT. pose proof (three_levels c rates NR) as T. destruct (quantile_levels c) as [low high].
    assert (exists x l, map Fin rates = x :: l) as (x0 & l0 & EX) by (destruct rates; [contradiction | cbn; eauto]). split.
    + intros C. rewrite EX, (proj2 LT C). reflexivity.
    + intros C0 C1. rewrite EX, (proj1 LT C0 C1), <- EX. destruct (T C0 C1) as (md & lo & hi & E1 & E2 & E3 & M & P1 & P2 & O & _ & RG). rewrite E1, E2, E3. exists ns, md, lo, hi.
      split; [reflexivity |]. split; [exact FN |]. split; [exact ST |]. split; [exact LRATE |]. split; [exact M |]. split; [exact P1 |]. split; [exact P2 |]. split; [exact O |].
      intros HU HLE x y HX. apply RG. intros q Hq. unfold rates in Hq. apply in_concat in Hq. destruct Hq as (s & Hs & Hq). apply in_map_iff in Hs. destruct Hs as (k & <- & Hk). apply in_seq in Hk.
      assert (In (nth k bs (0, 0)) bs) as Hb by (apply nth_In; lia). destruct (samples_between _ _ _ _ _ (HU k) (HLE _ Hb) Hq). destruct (HX _ Hb). split; qlra.
Qed.

(** ** All months *)

Theorem monthly_spec : forall u summary minimum limit reps c out, monthly_soiling_rates u summary minimum limit reps c = Ok out ->
  List.length out = 12%nat /\
  forall k, (k < 12)%nat -> exists row, nth_error out k = Some row /\ m_month row = (Z.of_nat k + 1)%Z /\
    month_row (u (S k)) c reps (filter (of_interest minimum limit) summary) (Z.of_nat k + 1) = Ok row.
Proof.
  intros u summary minimum limit reps c out H. unfold monthly_soiling_rates in H. cbv zeta in H. apply map_result_F2 in H. split; [symmetry; apply (Forall2_len _ _ _ _ _ H) |].
  intros k Hk. assert (nth_error (seq 1 12) k = Some (S k)) as EK by (rewrite nth_error_seq; assert (k <? 12 = true)%nat as -> by (apply Nat.ltb_lt; exact Hk); reflexivity).
  assert (exists row, nth_error out k = Some row /\ month_row (u (S k)) c reps (filter (of_interest minimum limit) summary) (Z.of_nat (S k)) = Ok row) as (row & E1 & E2).
  { clear Hk. revert EK. generalize (S k) as m0. revert k. induction H as [| m row l out E H IH]; intros k m0 EK; [destruct k; discriminate |]. destruct k as [| k']; [cbn in EK; injection EK as <-; exists row; auto | apply (IH k' m0); exact EK]. }
  replace (Z.of_nat k + 1)%Z with (Z.of_nat (S k)) by lia. exists row. split; [exact E1 |]. split; [| exact E2].
  unfold month_row in E2. cbv zeta in E2. destruct (month_rates _ _) as [rates |]; [| discriminate]. cbn [bind] in E2. destruct rates; [injection E2 as <-; reflexivity |]. destruct (quantile_levels c). destruct (_ && _); [injection E2 as <-; reflexivity | discriminate].
Qed.

Theorem interest_spec : forall minimum limit i slope low high, i_slope i = Fin slope -> i_slope_low i = Fin low -> i_slope_high i = Fin high ->
  (of_interest minimum (Fin limit) i = true <-> (minimum <= i_length i)%Z /\ i_valid i = true /\ slope <> 0 /\ qz 100 * qabs (high - low) <= limit * qabs slope).
Proof.
  intros minimum limit i slope low high E1 E2 E3. unfold of_interest. rewrite E1, E2, E3, !andb_true_iff, Z.leb_le. cbn [fsub fneg fadd]. replace (high + - low) with (high - low) by reflexivity. cbn [fdiv].
  destruct (qeq slope 0) eqn:E; qb.
  - split; [| intros (_ & _ & C & _); contradiction]. intros [_ C]. exfalso. unfold inf_sgn in C. destruct (qlt 0 (high - low)); [vm_compute in C; discriminate |]. destruct (qlt (high - low) 0); vm_compute in C; discriminate.
  - assert (0 < qabs slope) as P by (destruct (Qclt_le_dec 0 (qabs slope)) as [L | L]; [exact L |]; exfalso; apply E; apply qabs_le in L; destruct L; apply Qcle_antisym; qlra). unfold fz. cbn [fabs fmul fle]. rewrite qle_spec. assert (qabs ((high - low) / slope) * qabs slope = qabs (high - low)) as EA by (rewrite <- qabs_mul, Qc_div_mul by exact E; reflexivity).
    set (a := qabs ((high - low) / slope)) in *. set (s := qabs slope) in *. clearbody a s. rewrite <- EA. split.
    + intros [[H1 H2] H3]. split; [exact H1 |]. split; [exact H2 |]. split; [exact E |]. assert (0 <= (limit - qz 100 * a) * s) by (apply Qc_mul_nonneg; qlra). replace ((limit - qz 100 * a) * s) with (limit * s - qz 100 * (a * s)) in H by ring. qlra.
    + intros (H1 & H2 & _ & H3). split; [split; [exact H1 | exact H2] |]. destruct (Qclt_le_dec limit (qz 100 * a)) as [C | C]; [| exact C]. exfalso. assert (0 < (qz 100 * a - limit) * s) by (apply Qc_mul_pos; qlra). replace ((qz 100 * a - limit) * s) with (qz 100 * (a * s) - limit * s) in H by ring. qlra.
Qed.

Lemma month_total : forall u c reps ivs m, (forall i, In i ivs -> exists low high, i_slope_low i = Fin low /\ i_slope_high i = Fin high) -> - qz 100 <= c -> c <= qz 100 ->
  exists row, month_row u c reps ivs m = Ok row.
Proof.
  intros u c reps ivs m HF C0 C1. assert (Forall2 (fun i d => has_days i (fun t => ts_month t = m) d) ivs (map (fun i => count_month_days (i_start i) (i_end i) m) ivs)) as HD.
  { clear HF. induction ivs as [| i l IH]; constructor; [apply count_month_spec | exact IH]. }
  destruct (month_spec u c reps ivs _ m HD) as [E0 E1]. set (over := filter _ _) in *. destruct (Z.leb_spec reps 0) as [R | R]; [eexists; apply E0; left; exact R |].
  destruct over as [| p l] eqn:EO; [eexists; apply E0; right; reflexivity |]. assert (forall q, In q (p :: l) -> In (fst q) ivs) as HI.
  { intros q Hq. rewrite <- EO in Hq. unfold over in Hq. apply filter_In in Hq. destruct q as [i d]. exact (in_combine_l _ _ i d (proj1 Hq)). }
  assert (exists bs, Forall2 (fun p b => i_slope_low (fst p) = Fin (fst b) /\ i_slope_high (fst p) = Fin (snd b)) (p :: l) bs) as (bs & FB).
  { clear -HI HF. induction (p :: l) as [| q r IH]; [exists []; constructor |]. destruct IH as (bs & FB); [intros z Hz; apply HI; right; exact Hz |]. destruct (HF (fst q)) as (lo & hi & A & B); [apply HI; left; reflexivity |]. exists ((lo, hi) :: bs). constructor; [split; assumption | exact FB]. }
  destruct (proj2 (E1 R ltac:(discriminate) bs FB) C0 C1) as (ns & md & lo & hi & E & _). eexists; exact E.
Qed.
Theorem monthly_total : forall u summary minimum limit reps c,
  (forall i, In i summary -> of_interest minimum limit i = true -> exists low high, i_slope_low i = Fin low /\ i_slope_high i = Fin high) -> - qz 100 <= c -> c <= qz 100 ->
  exists out, monthly_soiling_rates u summary minimum limit reps c = Ok out.
Proof.
  intros u summary minimum limit reps c HF C0 C1. unfold monthly_soiling_rates. cbv zeta. set (ivs := filter _ _).
  assert (forall i, In i ivs -> exists low high, i_slope_low i = Fin low /\ i_slope_high i = Fin high) as HI by (intros i Hi; unfold ivs in Hi; apply filter_In in Hi; apply HF; apply Hi).
  clearbody ivs. induction (seq 1 12) as [| m l IH]; [eexists; reflexivity |]. destruct IH as [out E]. destruct (month_total (u m) c reps ivs (Z.of_nat m) HI C0 C1) as [row ER]. cbn [map_result]. rewrite ER. cbn [bind]. rewrite E. eexists. reflexivity.
Qed.
