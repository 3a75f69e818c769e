(** Classical decomposition. *)

From Coq Require Import QArith Qcanon List ZArith Bool Permutation Sorted Lia Arith.
From Verif.Base Require Import QcExtra ISort Quantile Fl Calendar.
From Verif.Spec Require Import Regression.
From Verif.Model Require Import Bootstrap Regression.
From Verif.Proofs Require Import FlP RegressionP.
Import ListNotations.
Open Scope Qc_scope.

(** ** The frequency check *)

Lemma kept_In : forall s i, In i (kept_positions s) <-> available_at s i.
Proof.
  intros s i. unfold kept_positions, available_at. rewrite filter_In, in_seq. split.
  - intros [[_ H] E]. destruct (nth_error s i) as [[t e] |] eqn:N.
    + exists t, e. split; [reflexivity |]. rewrite (nth_error_nth _ _ (0%Z, NaN) N) in E.
      cbn in E. intros ->. discriminate.
    + apply nth_error_None in N. lia.
  - intros (t & e & N & He). assert (i < length s)%nat by (apply nth_error_Some; congruence).
    split; [lia |]. rewrite (nth_error_nth _ _ (0%Z, NaN) N). cbn. destruct e; [contradiction | reflexivity ..].
Qed.

Lemma seq_sorted : forall n a, StronglySorted lt (seq a n).
Proof.
  induction n as [| n IH]; intros a; cbn; constructor; auto.
  apply Forall_forall. intros x H. apply in_seq in H. lia.
Qed.

Lemma ss_filter : forall A (R : A -> A -> Prop) f l, StronglySorted R l -> StronglySorted R (filter f l).
Proof.
  intros A R f l H. induction H as [| a l H IH F]; cbn; [constructor |].
  destruct (f a); [constructor; [exact IH |] | exact IH].
  apply Forall_forall. intros x Hx. apply filter_In in Hx. rewrite Forall_forall in F. apply F. tauto.
Qed.

Lemma kept_sorted : forall s, StronglySorted lt (kept_positions s).
Proof. intros s. apply ss_filter, seq_sorted. Qed.

Lemma map_seq_S : forall A (f : nat -> A) n, map f (seq 0 (S n)) = f 0%nat :: map (fun k => f (S k)) (seq 0 n).
Proof. intros A f n. cbn [seq map]. rewrite <- seq_shift, map_map. reflexivity. Qed.

Lemma progression_spec : forall l a d, StronglySorted lt (a :: l) ->
  (progression d (a :: l) = true <-> a :: l = map (fun k => (a + k * d)%nat) (seq 0 (S (length l)))).
Proof.
  induction l as [| b l IH]; intros a d HS.
  - cbn. split; [intros _; f_equal; lia | reflexivity].
  - apply StronglySorted_inv in HS. destruct HS as [HS HF]. inversion HF as [| ? ? Hab HF']; subst.
    change (progression d (a :: b :: l)) with ((b - a =? d)%nat && progression d (b :: l)).
    rewrite andb_true_iff, Nat.eqb_eq, IH by exact HS.
    cbn [length]. rewrite (map_seq_S _ (fun k => (a + k * d)%nat)).
    split.
    + intros [E1 E2]. f_equal; [lia |]. etransitivity; [exact E2 |]. apply map_ext. intros k. lia.
    + intros E. apply (f_equal (@tl nat)) in E. cbn [tl] in E. assert (b = a + d)%nat as -> by (apply (f_equal (hd 0%nat)) in E; cbn in E; lia).
      split; [lia |]. etransitivity; [exact E |]. apply map_ext. intros k. lia.
Qed.

Lemma sorted_same_elements : forall l1 l2 : list nat,
  StronglySorted lt l1 -> StronglySorted lt l2 -> (forall i, In i l1 <-> In i l2) -> l1 = l2.
Proof.
  induction l1 as [| a l1 IH]; intros l2 H1 H2 HE.
  - destruct l2 as [| b l2]; [reflexivity | exfalso; apply (HE b); left; reflexivity].
  - destruct l2 as [| b l2]; [exfalso; apply (HE a); left; reflexivity |].
    apply StronglySorted_inv in H1. apply StronglySorted_inv in H2.
    destruct H1 as [H1 F1], H2 as [H2 F2]. rewrite Forall_forall in F1, F2.
    assert (a = b) as ->.
    { destruct (proj1 (HE a) (or_introl eq_refl)) as [E | I]; [auto |].
      destruct (proj2 (HE b) (or_introl eq_refl)) as [E | J]; [auto |].
      specialize (F1 _ J). specialize (F2 _ I). lia. }
    f_equal. apply IH; auto. intros i. split; intros Hi.
    + destruct (proj1 (HE i) (or_intror Hi)) as [E | I]; [| exact I]. specialize (F1 _ Hi). lia.
    + destruct (proj2 (HE i) (or_intror Hi)) as [E | I]; [| exact I]. specialize (F2 _ Hi). lia.
Qed.

Lemma map_seq_sorted : forall a d n, (1 <= d)%nat -> StronglySorted lt (map (fun k => (a + k * d)%nat) (seq 0 n)).
Proof.
  intros a d n Hd. generalize 0%nat. induction n as [| n IH]; intros m; cbn; constructor; auto.
  apply Forall_forall. intros x H. apply in_map_iff in H. destruct H as (k & <- & Hk). apply in_seq in Hk.
  assert (m * d < k * d)%nat by (apply Nat.mul_lt_mono_pos_r; lia). lia.
Qed.

Lemma freq_kept_iff : forall hf s, freq_lost hf s = false <-> hf = true /\ evenly_spaced s.
Proof.
  intros hf s. unfold freq_lost. destruct hf; cbn [negb orb]; [| split; [discriminate | intros [H _]; discriminate]].
  pose proof (kept_In s) as HI. pose proof (kept_sorted s) as HS. unfold evenly_spaced. split.
  - intros H. split; [reflexivity |]. destruct (kept_positions s) as [| a [| b l]] eqn:K; [discriminate | |].
    + exists a, 1%nat, 1%nat. split; [lia |]. split; [lia |]. intros i. rewrite <- HI. cbn. split.
      * intros [-> | []]. exists 0%nat. lia.
      * intros (k & Hk & ->). left. lia.
    + apply negb_false_iff in H. apply progression_spec in H; [| exact HS].
      exists a, (b - a)%nat, (S (length (b :: l))).
      inversion HS as [| ? ? _ F]; subst. inversion F; subst.
      split; [lia |]. split; [lia |]. intros i. rewrite <- HI. rewrite H at 1. rewrite in_map_iff.
      split; intros (k & E & Hk); exists k; rewrite in_seq in *; cbn [length] in *; lia.
  - intros [_ (a & d & n & Hd & Hn & HA)].
    assert (kept_positions s = map (fun k => (a + k * d)%nat) (seq 0 n)) as E.
    { apply sorted_same_elements; [exact HS | apply map_seq_sorted; exact Hd |].
      intros i. rewrite HI, HA, in_map_iff. split.
      - intros (k & Hk & ->). exists k. rewrite in_seq. lia.
      - intros (k & <- & Hk). apply in_seq in Hk. exists k. lia. }
    destruct n as [| [| n]]; [lia | |].
    + rewrite E. reflexivity.
    + destruct (kept_positions s) as [| x [| y l]] eqn:K; try discriminate E.
      assert (length l = n) as EL.
      { apply (f_equal (@length nat)) in E. rewrite map_length, seq_length in E. cbn in E. lia. }
      apply negb_false_iff. apply progression_spec; [exact HS |].
      assert (x = a)%nat as -> by (apply (f_equal (hd 0%nat)) in E; cbn in E; lia).
      assert (y = a + d)%nat as -> by (apply (f_equal (fun l => hd 0%nat (tl l))) in E; cbn in E; lia).
      etransitivity; [exact E |]. cbn [length]. rewrite EL. apply map_ext. intros k. f_equal. f_equal. lia.
Qed.

(** A missing row between available ones is noticed as soon as two consecutive rows
    are available. *)
Lemma gap_rejected : forall draws z cl hf s i j g k,
  available_at s i -> available_at s (S i) -> available_at s j -> available_at s k ->
  (j < g < k)%nat -> ~ available_at s g ->
  classical_decomposition draws z cl hf s = Raise ValueError.
Proof.
  intros draws z cl hf s i j g k Hi Hi' Hj Hk Hg Hn. unfold classical_decomposition.
  destruct (freq_lost hf s) eqn:E; [reflexivity | exfalso].
  apply freq_kept_iff in E. destruct E as [_ (a & d & n & Hd & Hn1 & HA)].
  apply HA in Hi, Hi', Hj, Hk. destruct Hi as (x & Hx & Ex), Hi' as (y & Hy & Ey), Hj as (u & Hu & Eu), Hk as (v & Hv & Ev).
  assert (d = 1)%nat as ->.
  { assert (x < y)%nat by nia. assert (y * d = x * d + 1)%nat by lia. nia. }
  apply Hn, HA. exists (g - a)%nat. lia.
Qed.

Lemma lost_rejected : forall draws z cl hf s, (hf = false \/ ~ evenly_spaced s) ->
  classical_decomposition draws z cl hf s = Raise ValueError.
Proof.
  intros draws z cl hf s H. unfold classical_decomposition.
  destruct (freq_lost hf s) eqn:E; [reflexivity | exfalso].
  apply freq_kept_iff in E. destruct E as [-> E]. destruct H as [H | H]; [discriminate | contradiction].
Qed.

(** ** The moving average *)

Lemma year_ns_eq : (365 * ns_day)%Z = year_ns.
Proof. reflexivity. Qed.

Lemma half_year_lo : forall t0 t, qle (years_since t0 t0 + qf 1 2) (years_since t0 t) = true <-> (year_ns <= 2 * (t - t0))%Z.
Proof.
  intros t0 t. rewrite !years_eq. unfold years_between. fold year_ns.
  assert (0 < qz year_ns) as P by (apply qz_pos; reflexivity).
  assert (qz year_ns <> 0) as P' by (apply Qc_pos_neq; exact P).
  rewrite Z.sub_diag, qz_0. rewrite qle_spec. split; intros H.
  - apply qz_le_e. rewrite qz_mul. 
    assert (qf 1 2 <= qz (t - t0) / qz year_ns) as H' by (replace (qf 1 2) with (0 / qz year_ns + qf 1 2) by (unfold Qcdiv; ring); exact H).
    apply (Qcmult_le_compat_r _ _ (qz year_ns)) in H'; [| qlra].
    rewrite Qc_div_mul in H' by exact P'. assert (qf 1 2 = / qz 2) as E by qc_canon.
    assert (qz 2 * / qz 2 = 1) as E2 by qc_canon. rewrite E in H'. set (y := qz year_ns) in *. set (w := qz (t - t0)) in *.
    assert (y = qz 2 * (/ qz 2 * y)) as -> by (rewrite Qcmult_assoc, E2; ring).
    assert (0 < qz 2) by (apply qz_pos; lia). set (u := / qz 2 * y) in *. qnra.
  - apply qz_le_i in H. rewrite qz_mul in H. replace (0 / qz year_ns + qf 1 2) with (qf 1 2) by (unfold Qcdiv; ring).
    apply Qc_le_div; [exact P |]. assert (qf 1 2 = / qz 2) as E by qc_canon.
    assert (qz 2 * / qz 2 = 1) as E2 by qc_canon. rewrite E.
    assert (qz (t - t0) = / qz 2 * (qz 2 * qz (t - t0))) as ->.
    { rewrite Qcmult_assoc, (Qcmult_comm (/ qz 2)), E2. ring. }
    assert (0 < / qz 2) as I by (apply Qc_inv_pos, qz_pos; lia). set (h := / qz 2) in *. set (w := qz 2 * qz (t - t0)) in *. qnra.
Qed.

Lemma half_year_hi : forall t0 last t,
  qle (years_since t0 t) (years_since t0 last - qf 1 2) = true <-> (year_ns <= 2 * (last - t))%Z.
Proof.
  intros t0 last t. rewrite <- (half_year_lo t last), !qle_spec, !years_eq. unfold years_between. fold year_ns.
  rewrite Z.sub_diag, qz_0, !qz_sub. unfold Qcdiv. set (i := / qz year_ns).
  replace (0 * i + qf 1 2) with (qf 1 2) by ring.
  set (u := qz last) in *. set (v := qz t) in *. set (w := qz t0) in *.
  replace ((u - v) * i) with (u * i - v * i) by ring. replace ((v - w) * i) with (v * i - w * i) by ring.
  replace ((u - w) * i) with (u * i - w * i) by ring. split; intros H; qlra.
Qed.

(** The rows reported. *)
Lemma energy_ma_nth : forall t0 e0 s i t e, let s0 := (t0, e0) :: s in
  let tl := fst (List.last s0 (t0, NaN)) in
  nth_error s0 i = Some (t, e) ->
  exists v, nth_error (energy_ma s0) i = Some (t, v) /\
    (inside t0 tl t -> v = rolling_year s0 t) /\ (~ inside t0 tl t -> v = NaN).
Proof.
  intros t0 e0 s i t e s0 tl H.
  change (energy_ma s0) with (map (fun r =>
      (fst r,
       if qle (years_since t0 t0 + qf 1 2) (years_since t0 (fst r)) &&
          qle (years_since t0 (fst r)) (years_since t0 tl - qf 1 2)
       then rolling_year s0 (fst r) else NaN)) s0).
  eexists. rewrite nth_error_map, H. cbn [option_map fst]. split; [reflexivity |].
  unfold inside. destruct (_ && _) eqn:E.
  - apply andb_true_iff in E. rewrite half_year_lo, half_year_hi in E. split; [reflexivity | intros N; contradiction].
  - split; [intros [N1 N2] | reflexivity].
    apply half_year_lo in N1. apply (half_year_hi t0) in N2. rewrite N1, N2 in E. discriminate.
Qed.

Lemma rolling_window : forall s t, rolling_year s t =
  fmean (vals (filter (fun r => ((- year_ns <? 2 * (fst r - t)) && (2 * (fst r - t) <=? year_ns))%Z) s)).
Proof. reflexivity. Qed.

(** ** Regular lines *)

Lemma filter_range : forall n a b (p : nat -> bool), (a <= b)%nat -> (b < n)%nat ->
  (forall k, (k < n)%nat -> (p k = true <-> (a <= k <= b)%nat)) -> filter p (seq 0 n) = seq a (S b - a).
Proof.
  intros n a b p Hab Hb Hp.
  replace n with (a + ((S b - a) + (n - S b)))%nat at 1 by lia. rewrite !seq_app, !filter_app. cbn [Nat.add].
  assert (forall c m, (forall k, (c <= k < c + m)%nat -> p k = false) -> filter p (seq c m) = []) as F.
  { intros c m H. rewrite (proj2 (filter_ext_in_iff p (fun _ => false) (seq c m))).
    - clear. induction (seq c m); auto.
    - intros k Hk. apply in_seq in Hk. apply H. lia. }
  assert (forall c m, (forall k, (c <= k < c + m)%nat -> p k = true) -> filter p (seq c m) = seq c m) as T.
  { intros c m H. rewrite (proj2 (filter_ext_in_iff p (fun _ => true) (seq c m))).
    - clear. induction (seq c m) as [| x l IH]; cbn; [auto | rewrite IH; reflexivity].
    - intros k Hk. apply in_seq in Hk. apply H. lia. }
  rewrite (F 0%nat a), (T a), F; [rewrite app_nil_r; reflexivity | | |].
  - intros k Hk. destruct (p k) eqn:E; [| reflexivity]. apply Hp in E; lia.
  - intros k Hk. apply Hp; lia.
  - intros k Hk. destruct (p k) eqn:E; [| reflexivity]. apply Hp in E; lia.
Qed.

Lemma qsum_ramp : forall m a u w,
  (1 + 1) * qsum (map (fun k => u + w * qz (Z.of_nat k)) (seq a m)) =
  qz (Z.of_nat m) * ((1 + 1) * u + w * qz (2 * Z.of_nat a + Z.of_nat m - 1)).
Proof.
  induction m as [| m IH]; intros a u w.
  { cbn [seq map]. change (Z.of_nat 0) with 0%Z. rewrite qsum_nil, qz_0. ring. }
  cbn [seq map]. rewrite qsum_cons, Qcmult_plus_distr_r, IH.
  rewrite !Nat2Z.inj_succ. unfold Z.succ. rewrite !qz_sub, !qz_add, !qz_mul, !qz_add.
  replace (qz 2) with (1 + 1) by qc_canon. rewrite qz_1. ring.
Qed.

Lemma finvals_fin : forall l, finvals (map Fin l) = l.
Proof. induction l as [| x l IH]; [reflexivity |]. cbn. rewrite IH. reflexivity. Qed.

Lemma vals_map_fin : forall A (f : A -> Z) (g : A -> Qc) l, vals (map (fun k => (f k, Fin (g k))) l) = map Fin (map g l).
Proof. intros A f g l. unfold vals. rewrite !map_map. reflexivity. Qed.

Section RegularLine.
  Variables (t0 step : Z) (n : nat) (a c : Qc).
  Hypothesis Hstep : (0 < step)%Z.
  Let line (t : Z) : Qc := a + c * years_between t0 t.
  Let s := regular_line t0 step n a c.
  Let tk (k : nat) : Z := (t0 + Z.of_nat k * step)%Z.
  (* steps to the right / to the left inside a window *)
  Let right : Z := (year_ns / (2 * step))%Z.
  Let left : Z := ((year_ns - 1) / (2 * step))%Z.

  Lemma right_spec : forall j, (2 * j * step <= year_ns)%Z <-> (j <= right)%Z.
  Proof.
    intros j. unfold right. pose proof (Z.div_mod year_ns (2 * step) ltac:(lia)) as D.
    pose proof (Z.mod_pos_bound year_ns (2 * step) ltac:(lia)) as M.
    set (q := (year_ns / (2 * step))%Z) in *. set (r := (year_ns mod (2 * step))%Z) in *. split; nia.
  Qed.
  Lemma left_spec : forall j, (2 * j * step < year_ns)%Z <-> (j <= left)%Z.
  Proof.
    intros j. unfold left. pose proof (Z.div_mod (year_ns - 1) (2 * step) ltac:(lia)) as D.
    pose proof (Z.mod_pos_bound (year_ns - 1) (2 * step) ltac:(lia)) as M.
    set (q := ((year_ns - 1) / (2 * step))%Z) in *. set (r := ((year_ns - 1) mod (2 * step))%Z) in *. split; nia.
  Qed.

  Lemma left_right : left = if (year_ns mod (2 * step) =? 0)%Z then (right - 1)%Z else right.
  Proof.
    unfold left, right. pose proof (Z.div_mod year_ns (2 * step) ltac:(lia)) as D.
    pose proof (Z.mod_pos_bound year_ns (2 * step) ltac:(lia)) as M.
    set (q := (year_ns / (2 * step))%Z) in *. set (r := (year_ns mod (2 * step))%Z) in *.
    destruct (r =? 0)%Z eqn:E.
    - apply Z.eqb_eq in E. symmetry. apply (Z.div_unique _ _ _ (2 * step - 1)); lia.
    - apply Z.eqb_neq in E. symmetry. apply (Z.div_unique _ _ _ (r - 1)); lia.
  Qed.

  Lemma line_ma : forall i, (year_ns <= 2 * (Z.of_nat i * step))%Z ->
    (year_ns <= 2 * ((Z.of_nat n - 1 - Z.of_nat i) * step))%Z ->
    rolling_year s (tk i) =
    Fin (a + c * (years_between t0 (tk i) +
         (if (year_ns mod (2 * step) =? 0)%Z then qz step / qz year_ns / (1 + 1) else 0))).
  Proof.
    intros i H1 H2.
    assert (0 <= left)%Z as L0.
    { unfold left. apply Z.div_pos; [cbn; lia | lia]. }
    assert (left <= right)%Z as LR.
    { rewrite left_right. destruct (_ =? _)%Z; lia. }
    assert (right <= Z.of_nat i)%Z as Ri.
    { apply Z.nlt_ge. intros K. assert (Z.of_nat i + 1 <= right)%Z as K' by lia. apply right_spec in K'. lia. }
    assert (right <= Z.of_nat n - 1 - Z.of_nat i)%Z as Rn.
    { apply Z.nlt_ge. intros K. assert (Z.of_nat n - 1 - Z.of_nat i + 1 <= right)%Z as K' by lia. apply right_spec in K'. lia. }
    rewrite rolling_window. unfold s, regular_line. rewrite filter_map_comm.
    match goal with |- context [filter ?q (seq 0 n)] => set (p := q) end.
    assert (filter p (seq 0 n) = seq (i - Z.to_nat left) (S (i + Z.to_nat right) - (i - Z.to_nat left))) as ->.
    { apply filter_range; try lia. intros k Hk. unfold p. cbn [fst]. fold (tk k).
      rewrite andb_true_iff, Z.ltb_lt, Z.leb_le. unfold tk.
      pose proof (left_spec (Z.of_nat i - Z.of_nat k)) as LS. pose proof (right_spec (Z.of_nat k - Z.of_nat i)) as RS.
      split; intros [K1 K2].
      - assert (2 * (Z.of_nat i - Z.of_nat k) * step < year_ns)%Z as K3 by lia. apply LS in K3.
        assert (2 * (Z.of_nat k - Z.of_nat i) * step <= year_ns)%Z as K4 by lia. apply RS in K4. lia.
      - assert (Z.of_nat i - Z.of_nat k <= left)%Z as K3 by lia. apply LS in K3.
        assert (Z.of_nat k - Z.of_nat i <= right)%Z as K4 by lia. apply RS in K4. lia. }
    set (m := (S (i + Z.to_nat right) - (i - Z.to_nat left))%nat).
    set (lo := (i - Z.to_nat left)%nat).
    rewrite (map_ext _ (fun k => (tk k, Fin (a + c * (qz step / qz year_ns) * qz (Z.of_nat k))))).
    2:{ intros k. cbv zeta. fold (tk k). do 3 f_equal. unfold years_between, tk. fold year_ns.
        replace (t0 + Z.of_nat k * step - t0)%Z with (Z.of_nat k * step)%Z by lia. rewrite qz_mul. unfold Qcdiv. ring. }
    rewrite vals_map_fin.
    assert (0 < Z.of_nat m)%Z as Hm by (unfold m; lia).
    rewrite fmean_noinf.
    2:{ intros x Hx. apply in_map_iff in Hx. destruct Hx as (q & <- & _). split; discriminate. }
    2:{ rewrite finvals_fin. intros K. apply (f_equal (@length Qc)) in K. rewrite map_length, seq_length in K. cbn [length] in K. clearbody m. lia. }
    rewrite finvals_fin. unfold qlen. rewrite map_length, seq_length. f_equal.
    assert (qz (Z.of_nat m) <> 0) as Nm by (apply qz_neq0; lia).
    assert (qz year_ns <> 0) as Ny by (apply qz_neq0; discriminate).
    assert ((1 + 1 : Qc) <> 0) as N2 by (intro K; discriminate K).
    pose proof (qsum_ramp m lo a (c * (qz step / qz year_ns))) as S2.
    set (S := qsum _) in *.
    assert (S = qz (Z.of_nat m) * ((1 + 1) * a + c * (qz step / qz year_ns) * qz (2 * Z.of_nat lo + Z.of_nat m - 1)) / (1 + 1)) as ->.
    { rewrite <- S2. field. exact N2. }
    replace (2 * Z.of_nat lo + Z.of_nat m - 1)%Z with (2 * Z.of_nat i + (right - left))%Z by (unfold lo, m; lia).
    unfold years_between, tk. fold year_ns. replace (t0 + Z.of_nat i * step - t0)%Z with (Z.of_nat i * step)%Z by lia.
    rewrite left_right. replace (1 + 1) with (qz 2) in * by qc_canon. destruct (_ =? _)%Z.
    - replace (2 * Z.of_nat i + (right - (right - 1)))%Z with (2 * Z.of_nat i + 1)%Z by lia.
      rewrite qz_add, !qz_mul, qz_1. field. auto.
    - replace (2 * Z.of_nat i + (right - right))%Z with (2 * Z.of_nat i)%Z by lia.
      rewrite !qz_mul. field. auto.
  Qed.
End RegularLine.

Lemma regress_line : forall draws cl l o a c, regress draws cl l = Ok o -> sxx l <> 0 ->
  (forall p, In p l -> snd p = a + c * fst p) ->
  o_slope o = c /\ o_intercept o = a /\ o_mse o = 0 /\
  (a <> 0 -> o_rate o = Fin (qz 100 * c / a)).
Proof.
  intros draws cl l o a c H Hx HP. apply regress_Ok in H. destruct H as (Hl & Hr & F & ER & _ & EM & EC).
  destruct (fit_line _ Hl a c HP Hx) as [F' Z]. rewrite F' in F. injection F as Ea Ec.
  split; [auto |]. split; [auto |]. split.
  - rewrite EM. unfold ols_mse. rewrite F', Z. unfold Qcdiv. ring.
  - intros Ha. rewrite ER, <- Ea, <- Ec. cbn [fdiv]. destruct (qeq a 0) eqn:E1; [qb; contradiction | reflexivity].
Qed.

(** How far the window is off centre, in years. *)
Definition window_shift (step : Z) : Qc :=
  if (year_ns mod (2 * step) =? 0)%Z then qz step / qz year_ns / (1 + 1) else 0.

Lemma regular_nth : forall t0 step n a c k, (k < n)%nat ->
  nth_error (regular_line t0 step n a c) k =
  Some (t0 + Z.of_nat k * step, Fin (a + c * years_between t0 (t0 + Z.of_nat k * step)))%Z.
Proof.
  intros t0 step n a c k Hk. unfold regular_line. rewrite nth_error_map.
  rewrite (nth_error_nth' _ 0%nat) by (rewrite seq_length; exact Hk). rewrite seq_nth by exact Hk. reflexivity.
Qed.

Lemma regular_even : forall t0 step n a c, (1 <= n)%nat -> evenly_spaced (regular_line t0 step n a c).
Proof.
  intros t0 step n a c Hn. exists 0%nat, 1%nat, n. split; [lia |]. split; [exact Hn |].
  intros i. split.
  - intros (t & e & H & _). assert (i < length (regular_line t0 step n a c))%nat as L by (apply nth_error_Some; congruence).
    unfold regular_line in L. rewrite map_length, seq_length in L. exists i. lia.
  - intros (k & Hk & ->). replace (0 + k * 1)%nat with k by lia. eexists _, _. split; [apply regular_nth, Hk | discriminate].
Qed.

Lemma last_regular : forall t0 step n a c d, (1 <= n)%nat ->
  fst (List.last (regular_line t0 step n a c) d) = (t0 + (Z.of_nat n - 1) * step)%Z.
Proof.
  intros t0 step n a c d Hn. destruct n as [| n]; [lia |]. unfold regular_line. rewrite seq_S, map_app. cbn [map].
  rewrite List.last_last. cbv zeta. cbn [fst]. lia.
Qed.

Lemma classical_line : forall draws z cl t0 step n a c, (0 < step)%Z -> 0 <= cl -> cl <= qz 100 ->
  (exists i, inside t0 (t0 + (Z.of_nat n - 1) * step) (t0 + Z.of_nat i * step) /\
             inside t0 (t0 + (Z.of_nat n - 1) * step) (t0 + Z.of_nat (i + 2) * step)) ->
  exists o, classical_decomposition draws z cl true (regular_line t0 step n a c) = Ok o /\
    o_slope (cd_ols o) = c /\ o_intercept (cd_ols o) = a + c * window_shift step /\ o_mse (cd_ols o) = 0 /\
    (a + c * window_shift step <> 0 -> o_rate (cd_ols o) = Fin (qz 100 * c / (a + c * window_shift step))) /\
    (forall k, (k < n)%nat -> let t := (t0 + Z.of_nat k * step)%Z in
      exists v, nth_error (cd_series o) k = Some (t, v) /\
        (inside t0 (t0 + (Z.of_nat n - 1) * step) t -> v = Fin (a + c * (years_between t0 t + window_shift step))) /\
        (~ inside t0 (t0 + (Z.of_nat n - 1) * step) t -> v = NaN)).
Proof.
  intros draws z cl t0 step n a c Hs Hc0 Hc1 (i & Hi & Hi2).
  assert (forall k, inside t0 (t0 + (Z.of_nat n - 1) * step) (t0 + Z.of_nat k * step) -> (k < n)%nat) as Hin.
  { intros k [_ H]. assert (0 < year_ns)%Z by reflexivity. destruct (Nat.lt_ge_cases k n) as [L | L]; [exact L | exfalso].
    assert (0 < (Z.of_nat n - 1 - Z.of_nat k) * step)%Z as K by lia. nia. }
  pose proof (Hin _ Hi) as Li. pose proof (Hin _ Hi2) as Li2.
  assert (1 <= n)%nat as Hn by lia.
  set (s := regular_line t0 step n a c).
  assert (exists e0 s', s = (t0, e0) :: s') as (e0 & s' & Es).
  { unfold s, regular_line. destruct n as [| n']; [lia |]. rewrite map_seq_S. eexists _, _.
    cbn [fst]. cbv zeta. rewrite Z.mul_0_l, Z.add_0_r. reflexivity. }
  assert (forall k, (k < n)%nat -> let t := (t0 + Z.of_nat k * step)%Z in
      exists v, nth_error (energy_ma s) k = Some (t, v) /\
        (inside t0 (t0 + (Z.of_nat n - 1) * step) t -> v = Fin (a + c * (years_between t0 t + window_shift step))) /\
        (~ inside t0 (t0 + (Z.of_nat n - 1) * step) t -> v = NaN)) as HMA.
  { intros k Hk t. pose proof (regular_nth t0 step n a c k Hk) as N. fold s in N. rewrite Es in N.
    destruct (energy_ma_nth _ _ _ _ _ _ N) as (v & N' & V1 & V2). rewrite <- Es in N', V1, V2.
    unfold s in V1 at 1, V2 at 1. rewrite last_regular in V1, V2 by exact Hn. exists v.
    split; [exact N' |]. split; [| exact V2]. intros [I1 I2]. unfold t. rewrite V1 by (split; assumption).
    unfold s. rewrite line_ma; [reflexivity | exact Hs | unfold t in I1; lia | unfold t in I2; lia]. }
  assert (length (energy_ma s) = n) as EL.
  { rewrite Es. cbn [energy_ma]. rewrite map_length, <- Es. unfold s, regular_line. rewrite map_length, seq_length. reflexivity. }
  assert (forall k, (k < n)%nat -> inside t0 (t0 + (Z.of_nat n - 1) * step) (t0 + Z.of_nat k * step) ->
    In (t0 + Z.of_nat k * step, Fin (a + c * (years_between t0 (t0 + Z.of_nat k * step) + window_shift step)))%Z (energy_ma s)) as HIn.
  { intros k Hk Hk'. destruct (HMA k Hk) as (v & N & V & _). rewrite V in N by exact Hk'. apply nth_error_In in N. exact N. }
  assert (sxx (ols_points t0 (energy_ma s)) <> 0) as Hx.
  { eapply two_times_sxx; [exact (HIn i Li Hi) | exact (HIn (i + 2)%nat Li2 Hi2) | lia]. }
  assert (forall p, In p (ols_points t0 (energy_ma s)) -> snd p = (a + c * window_shift step) + c * fst p) as HL.
  { intros [x y] Hp. apply ols_points_In in Hp. destruct Hp as (t & Ht & ->). cbn [fst snd].
    apply In_nth_error in Ht. destruct Ht as (k & Ht).
    assert (k < n)%nat as Hk by (rewrite <- EL; apply nth_error_Some; congruence).
    destruct (HMA k Hk) as (v & N & V1 & V2). cbv zeta in *. rewrite Ht in N. injection N as -> <-.
    assert (inside t0 (t0 + (Z.of_nat n - 1) * step) (t0 + Z.of_nat k * step) \/
            ~ inside t0 (t0 + (Z.of_nat n - 1) * step) (t0 + Z.of_nat k * step)) as [D | D].
    { unfold inside. lia. }
    - specialize (V1 D). injection V1 as ->. ring.
    - specialize (V2 D). discriminate. }
  assert (ols_rank (ols_points t0 (energy_ma s)) < length (ols_points t0 (energy_ma s)))%nat as HR.
  { assert (3 <= length (ols_points t0 (energy_ma s)))%nat; [| unfold ols_rank; destruct (qeq _ _); lia].
    assert (inside t0 (t0 + (Z.of_nat n - 1) * step) (t0 + Z.of_nat (i + 1) * step)) as Hi1 by (unfold inside in *; lia).
    assert (i + 1 < n)%nat as Li1 by lia.
    assert (forall k, (k < n)%nat -> inside t0 (t0 + (Z.of_nat n - 1) * step) (t0 + Z.of_nat k * step) ->
      exists y, In (years_between t0 (t0 + Z.of_nat k * step), y) (ols_points t0 (energy_ma s))) as HP.
    { intros k Hk Hk'. eexists. apply ols_points_In. eexists. split; [apply HIn; eassumption | reflexivity]. }
    destruct (HP i Li Hi) as (y0 & P0), (HP (i + 1)%nat Li1 Hi1) as (y1 & P1), (HP (i + 2)%nat Li2 Hi2) as (y2 & P2).
    assert (forall j k, j <> k -> years_between t0 (t0 + Z.of_nat j * step) <> years_between t0 (t0 + Z.of_nat k * step)) as NE.
    { intros j k Hjk K. apply years_between_inj in K. apply Hjk.
      assert (Z.of_nat j * step = Z.of_nat k * step)%Z as K' by lia. apply Z.mul_reg_r in K'; lia. }
    assert (NoDup [(years_between t0 (t0 + Z.of_nat i * step), y0); (years_between t0 (t0 + Z.of_nat (i + 1) * step), y1);
                   (years_between t0 (t0 + Z.of_nat (i + 2) * step), y2)]) as ND.
    { assert (forall j k (u v : Qc), j <> k -> (years_between t0 (t0 + Z.of_nat j * step), u) <>
        (years_between t0 (t0 + Z.of_nat k * step), v)) as NE' by (intros j k u v Hjk K; exact (NE _ _ Hjk (f_equal fst K))).
      constructor; [| constructor; [| constructor; [intros [] | constructor]]].
      - intros [K | [K | []]]; revert K; apply NE'; lia.
      - intros [K | []]; revert K; apply NE'; lia. }
    apply (NoDup_incl_length ND). intros p [<- | [<- | [<- | []]]]; assumption. }
  apply (regress_ok_iff draws cl _ Hc0 Hc1) in HR. destruct HR as (o & HO).
  exists (mk_cd_out o (energy_ma s) (mk_test z (finvals (vals (energy_ma s))))). split.
  - unfold classical_decomposition. fold s.
    assert (freq_lost true s = false) as -> by (apply freq_kept_iff; split; [reflexivity | apply regular_even; exact Hn]).
    rewrite Es at 1. rewrite HO. reflexivity.
  - cbn [cd_ols cd_series]. destruct (regress_line draws cl _ o _ _ HO Hx HL) as (A & B & C & D). auto.
Qed.

(** Daily data. *)
Lemma classical_daily : forall draws z cl t0 n a c, 0 <= cl -> cl <= qz 100 -> (369 <= Z.of_nat n)%Z -> a <> 0 ->
  exists o, classical_decomposition draws z cl true (regular_line t0 (86400 * 1000000000) n a c) = Ok o /\
    o_rate (cd_ols o) = Fin (qz 100 * c / a) /\ o_mse (cd_ols o) = 0 /\
    (forall k, (k < n)%nat -> let t := (t0 + Z.of_nat k * (86400 * 1000000000))%Z in
      exists v, nth_error (cd_series o) k = Some (t, v) /\
        ((183 <= Z.of_nat k <= Z.of_nat n - 184)%Z -> v = Fin (a + c * years_between t0 t)) /\
        (~ (183 <= Z.of_nat k <= Z.of_nat n - 184)%Z -> v = NaN)).
Proof.
  intros draws z cl t0 n a c H0 H1 Hn Ha.
  assert (window_shift (86400 * 1000000000) = 0) as W by reflexivity.
  assert (forall k : nat, inside t0 (t0 + (Z.of_nat n - 1) * (86400 * 1000000000)) (t0 + Z.of_nat k * (86400 * 1000000000)) <->
    (183 <= Z.of_nat k <= Z.of_nat n - 184)%Z) as HI.
  { intros k. unfold inside, year_ns. lia. }
  destruct (classical_line draws z cl t0 (86400 * 1000000000) n a c) as (o & HO & _ & _ & M & R & V); try assumption.
  - reflexivity.
  - exists (Z.to_nat 183). rewrite !HI. lia.
  - rewrite W in R, V. exists o. split; [exact HO |].
    replace (a + c * 0) with a in R by ring. split; [apply R; exact Ha |]. split; [exact M |].
    intros k Hk t. destruct (V k Hk) as (v & N & V1 & V2). exists v. split; [exact N |].
    rewrite HI in V1, V2. split; [intros K; rewrite (V1 K); do 2 f_equal; fold t; ring | exact V2].
Qed.

Lemma cd_series_nth : forall draws z cl has_freq t0 e0 s o i t e,
  let s0 := (t0, e0) :: s in let last := fst (List.last s0 (t0, NaN)) in
  classical_decomposition draws z cl has_freq s0 = Ok o ->
  nth_error s0 i = Some (t, e) ->
  exists v, nth_error (cd_series o) i = Some (t, v) /\
    (inside t0 last t ->
      v = fmean (vals (filter (fun r => ((- year_ns <? 2 * (fst r - t)) && (2 * (fst r - t) <=? year_ns))%Z) s0))) /\
    (~ inside t0 last t -> v = NaN).
Proof.
  intros draws z cl hf t0 e0 s o i t e s0 last H N. unfold classical_decomposition in H.
  destruct (freq_lost hf s0); [discriminate |]. unfold s0 in H at 1.
  destruct (regress _ _ _) as [r |]; [| discriminate]. cbn [bind] in H. injection H as <-. cbn [cd_series].
  exact (energy_ma_nth t0 e0 s i t e N).
Qed.
