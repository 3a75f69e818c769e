(** Classification of outages. *)

From Coq Require Import QArith Qcanon List ZArith Bool Arith Lia Permutation Sorted.
From Verif.Base Require Import QcExtra ISort Quantile Fl TimeSeries Rolling.
From Verif.Spec Require Import Stats Availability.
From Verif.Model Require Import Availability.
From Verif.Proofs Require Import AvailP AvailP2 AvailP3.
Import ListNotations.
Open Scope list_scope.
Open Scope Qc_scope.

(** ** Slices *)

Lemma firstn_nth_seq : forall A (d : A) n l, (n <= length l)%nat -> firstn n l = map (fun i => nth i l d) (seq 0 n).
Proof.
  intros A d n. induction n as [| n IH]; intros l H; [reflexivity |]. destruct l as [| x l]; [cbn in H; lia |].
  cbn [firstn seq map nth]. f_equal. rewrite IH by (cbn in H; lia). rewrite <- seq_shift, map_map. reflexivity.
Qed.

Lemma slice_rows : forall A (d : A) a b l, (b < length l)%nat -> slice a b l = map (fun i => nth i l d) (rows_from a b).
Proof.
  intros A d a b l H. unfold slice, rows_from. destruct (Nat.le_gt_cases a b) as [L | L].
  - rewrite (firstn_nth_seq A d) by (rewrite skipn_length; lia).
    assert (map (fun i => (a + i)%nat) (seq 0 (S b - a)) = seq a (S b - a)) as <-.
    { generalize (S b - a)%nat as m. intros m. replace (seq a m) with (seq (a + 0) m) by (f_equal; lia). generalize 0%nat as s. induction m as [| m IH]; intros s; [reflexivity |].
      cbn [seq map]. f_equal. rewrite IH. f_equal. lia. }
    rewrite !map_map. apply map_ext. intros i. rewrite <- (firstn_skipn a l) at 2. rewrite app_nth2; rewrite firstn_length_le by lia; [f_equal; lia | lia].
  - replace (S b - a)%nat with 0%nat by lia. reflexivity.
Qed.

Lemma slice_length : forall A a b (l : list A), (b < length l)%nat -> length (slice a b l) = (S b - a)%nat.
Proof. intros. unfold slice. rewrite firstn_length, skipn_length. lia. Qed.

Lemma fsum_rows : forall l a b, noinf l -> (b < length l)%nat -> fsum (slice a b l) = Fin (sum_rows (known_at l) a b).
Proof.
  intros l a b H L. rewrite (slice_rows _ NaN) by exact L.
  assert (noinf (map (fun i => nth i l NaN) (rows_from a b))) as N.
  { intros x Hx. apply in_map_iff in Hx. destruct Hx as (i & <- & _). destruct (nth_in_or_default i l NaN) as [K | ->]; [apply H; exact K | split; discriminate]. }
  rewrite fsum_noinf by exact N. f_equal. unfold sum_rows.
  induction (rows_from a b) as [| i k IH]; [reflexivity |]. cbn [map]. rewrite qsum_cons. rewrite <- IH.
  - unfold known_at, known_or_0. destruct (nth i l NaN); cbn [finvals]; rewrite ?qsum_cons; try ring.
  - intros x Hx. apply N. right. exact Hx.
Qed.

Lemma filter_map_length : forall A B (f : A -> B) p l, length (filter p (map f l)) = length (filter (fun x => p (f x)) l).
Proof. intros A B f p l. induction l as [| x l IH]; [reflexivity |]. cbn [map filter]. destruct (p (f x)); cbn [length]; rewrite IH; reflexivity. Qed.

Lemma daylight_count : forall l a b, (b < length l)%nat ->
  length (filter (fun x => fgt x (fz 0)) (slice a b l)) = daylight_rows l a b.
Proof.
  intros l a b H. rewrite (slice_rows _ NaN) by exact H. rewrite filter_map_length. reflexivity.
Qed.

(** ** Interpolation of the error *)

Lemma chord_fin : forall y0 y1 d e, d <> 0%Z ->
  fadd (Fin y0) (fmul (fdiv (fsub (Fin y1) (Fin y0)) (fz d)) (fz e)) = Fin (y0 + (y1 - y0) * (qz e / qz d)).
Proof.
  intros y0 y1 d e H. unfold fdiv. cbn [fsub fneg fadd fz]. assert (qz d <> 0) as N by (apply qz_neq0; exact H).
  assert (qeq (qz d) 0 = false) as -> by (apply qeq_false; exact N). cbn [fmul fadd fz]. f_equal. field. exact N.
Qed.

Lemma interp_from_spec : forall k x0 y0 x, StronglySorted Z.lt (x0 :: map fst k) -> exists y,
  interp_from x0 (Fin y0) (map (fun p => (fst p, Fin (snd p))) k) x = Fin y /\ clamped ((x0, y0) :: k) x y.
Proof.
  induction k as [| [x1 y1] k IH]; intros x0 y0 x HS.
  - exists y0. split; [reflexivity |]. destruct (Z.le_gt_cases x x0) as [L | L].
    + apply clamped_low with (x0 := x0) (l' := []); [reflexivity | exact L].
    + apply clamped_high with (x0 := x0) (l' := []); [reflexivity | lia].
  - cbn [map interp_from fst snd]. destruct (Z.leb_spec x x0) as [L | L].
    + exists y0. split; [reflexivity |]. apply clamped_low with (x0 := x0) (l' := (x1, y1) :: k); [reflexivity | exact L].
    + apply StronglySorted_inv in HS. destruct HS as [HS F]. rewrite Forall_forall in F. pose proof (F x1 (or_introl eq_refl)) as Lx. destruct (Z.ltb_spec x x1) as [M | M].
      * eexists. split.
        -- apply chord_fin. lia.
        -- apply clamped_between with (x1 := x0) (y1 := y0) (x2 := x1) (y2 := y1) (l1 := []) (l2 := k); [reflexivity | lia].
      * destruct (IH x1 y1 x HS) as (y & E & C). exists y. split; [exact E |]. inversion C as [xa ya l' El Hl | xa ya l' El Hl | xa ya xb yb l1 l2 El Hl]; subst.
        -- injection El as <- <- <-. assert (x = x1) as -> by lia.
           assert (clamped ((x0, y0) :: (x1, y1) :: k) x1 (y0 + (y1 - y0) * (qz (x1 - x0) / qz (x1 - x0)))) as K
             by (apply clamped_between with (l1 := []) (l2 := k); [reflexivity | lia]).
           replace (y0 + (y1 - y0) * (qz (x1 - x0) / qz (x1 - x0))) with y1 in K by (field; apply qz_neq0; lia). exact K.
        -- apply clamped_high with (x0 := xa) (l' := (x0, y0) :: l'); [cbn; rewrite <- El; reflexivity | exact Hl].
        -- apply clamped_between with (l1 := (x0, y0) :: l1) (l2 := l2); [cbn; rewrite <- El; reflexivity | exact Hl].
Qed.

Lemma interp_from_clamped : forall k x0 y0 x y, StronglySorted Z.lt (x0 :: map fst k) -> clamped ((x0, y0) :: k) x y ->
  interp_from x0 (Fin y0) (map (fun p => (fst p, Fin (snd p))) k) x = Fin y.
Proof.
  induction k as [| [x1 y1] k IH]; intros x0 y0 x y HS C.
  - cbn. inversion C as [xa ya l' El Hl | xa ya l' El Hl | xa ya xb yb l1 l2 El Hl]; subst.
    + injection El as -> ->. reflexivity.
    + destruct l' as [| ? [| ? ?]]; [injection El as -> ->; reflexivity | discriminate | discriminate].
    + destruct l1 as [| ? [| ? ?]]; discriminate.
  - apply StronglySorted_inv in HS. destruct HS as [HS F]. rewrite Forall_forall in F. pose proof (F x1 (or_introl eq_refl)) as Lx.
    assert (forall p q r, (x1, y1) :: k = p ++ (q, r) :: [] \/ (exists u t, (x1, y1) :: k = p ++ (q, r) :: u :: t) -> (x1 <= q)%Z) as Hq.
    { intros p q r H. apply StronglySorted_inv in HS. destruct HS as [_ F2]. rewrite Forall_forall in F2.
      assert (In (q, r) ((x1, y1) :: k)) as K by (destruct H as [-> | (u & t & ->)]; apply in_elt).
      destruct K as [K | K]; [injection K as -> ->; lia |]. apply (in_map fst) in K. apply F2 in K. cbn in K. lia. }
    cbn [map interp_from fst snd]. inversion C as [xa ya l' El Hl | xa ya l' El Hl | xa ya xb yb l1 l2 El Hl]; subst.
    + injection El as -> -> <-. destruct (Z.leb_spec x xa); [reflexivity | lia].
    + destruct l' as [| p l']; [discriminate |]. injection El as <- El. pose proof (Hq l' xa y (or_introl El)).
      destruct (Z.leb_spec x x0); [lia |]. destruct (Z.ltb_spec x x1); [lia |]. apply IH; [exact HS |]. apply clamped_high with (x0 := xa) (l' := l'); [exact El | exact Hl].
    + destruct l1 as [| p l1].
      * injection El as -> -> -> -> ->. destruct (Z.leb_spec x xa) as [L | L].
        -- assert (x = xa) as -> by lia. f_equal. replace (xa - xa)%Z with 0%Z by lia. change (qz 0) with 0. field. apply qz_neq0. lia.
        -- destruct (Z.ltb_spec x xb) as [M | M].
           ++ apply chord_fin. lia.
           ++ assert (x = xb) as -> by lia. rewrite (IH xb yb xb yb HS); [f_equal; field; apply qz_neq0; lia |]. apply clamped_low with (x0 := xb) (l' := l2); [reflexivity | lia].
      * injection El as <- El. pose proof (Hq l1 xa ya (or_intror (ex_intro _ (xb, yb) (ex_intro _ l2 El)))).
        destruct (Z.leb_spec x x0); [lia |]. destruct (Z.ltb_spec x x1); [lia |]. apply IH; [exact HS |]. rewrite El. apply clamped_between with (l1 := l1) (l2 := l2); [reflexivity | exact Hl].
Qed.

Lemma bound_interp : forall l x y, bound_at l x y -> interp1d l x = Fin y.
Proof.
  intros l x y (k & -> & HS & C). destruct k as [| [x0 y0] k].
  - exfalso. inversion C as [xa ya l' El Hl | xa ya l' El Hl | xa ya xb yb l1 l2 El Hl]; [discriminate | destruct l'; discriminate | destruct l1; discriminate].
  - cbn [map interp1d fst snd]. apply interp_from_clamped; assumption.
Qed.

(** ** One outage *)

Lemma before_spec : forall meter a, (a < length meter)%nat ->
  meter_before meter a (nth (match a with O => (length meter - 1)%nat | S a' => a' end) meter NaN).
Proof.
  intros meter a H. destruct a as [| a].
  - right. split; [reflexivity |]. exists (length meter - 1)%nat. split; [lia |]. apply nth_error_nth'. lia.
  - left. exists a. split; [reflexivity |]. apply nth_error_nth'. lia.
Qed.
Lemma before_unique : forall meter a x y, meter_before meter a x -> meter_before meter a y -> x = y.
Proof.
  intros meter a x y [(k & -> & X) | (-> & k & K & X)] [(k' & E & Y) | (E & k' & K' & Y)]; try discriminate.
  - injection E as ->. congruence.
  - assert (k = k') as -> by lia. congruence.
Qed.

Lemma outage_info_spec : forall e meter a b expected start stop err up,
  noinf meter -> noinf (e_energy e) -> length (e_energy e) = length meter -> length (e_power e) = length meter ->
  (a <= b < length meter)%nat ->
  expected = sum_rows (known_at (e_energy e)) a b ->
  meter_before meter a start -> nth_error meter b = Some stop ->
  bound_at (e_lower e) (Z.of_nat (daylight_rows (e_power e) a b)) err ->
  bound_at (e_upper e) (Z.of_nat (daylight_rows (e_power e) a b)) up ->
  let o := outage_info e meter (a, b) in
  o_start o = a /\ o_end o = b /\ o_daylight o = Z.of_nat (daylight_rows (e_power e) a b) /\
  o_expected o = Fin expected /\ o_energy_start o = start /\ o_energy_end o = stop /\
  o_ci_lower o = Fin ((1 + err) * expected) /\ o_ci_upper o = Fin ((1 + up) * expected) /\
  ((unknown_outage expected start stop /\ o_type o = Unknown /\ o_actual o = NaN /\ o_loss o = NaN) \/
   (exists x, real_outage expected err start stop x /\ o_type o = Real /\ o_actual o = Fin x /\ o_loss o = Fin (expected - x)) \/
   (exists x, comms_outage expected err start stop x /\ o_type o = Comms /\ o_actual o = Fin x /\ o_loss o = Fin 0)).
Proof.
  intros e meter a b expected start stop err up Nm Ne Le Lp Hab -> Hst Hsp Hlo Hup o.
  assert (o = outage_info e meter (a, b)) as Eo by reflexivity. unfold outage_info in Eo. cbv zeta in Eo.
  rewrite (before_unique _ _ _ _ (before_spec meter a ltac:(lia)) Hst) in Eo. rewrite (nth_error_nth _ _ NaN Hsp) in Eo.
  rewrite fsum_rows in Eo by (try assumption; lia). rewrite daylight_count in Eo by lia.
  rewrite (bound_interp _ _ _ Hlo), (bound_interp _ _ _ Hup) in Eo. set (E := sum_rows (known_at (e_energy e)) a b) in *.
  rewrite Eo. clearbody o E. clear o Eo. cbn [o_start o_end o_daylight o_expected o_energy_start o_energy_end o_ci_lower o_ci_upper o_type o_actual o_loss].
  do 8 (split; [reflexivity |]).
  assert (start <> PInf /\ start <> NInf) as [S1 S2].
  { apply Nm. destruct Hst as [(k & _ & K) | (_ & k & _ & K)]; apply nth_error_In in K; exact K. }
  destruct (Nm stop (nth_error_In _ _ Hsp)) as [T1 T2].
  destruct start as [| | s |]; try contradiction.
  - left. split; [left; intros x (s & t & K & _); discriminate | repeat split; destruct stop; reflexivity].
  - destruct stop as [| | t |]; try contradiction.
    + left. split; [left; intros x (s' & t & _ & K & _); discriminate | repeat split; reflexivity].
    + assert (metered (Fin s) (Fin t) (t - s)) as HM by (exists s, t; auto).
      assert (fmul (ff (-5) 100) (Fin E) = Fin (- (qf 5 100 * E))) as -> by (cbn [fmul ff]; f_equal; replace (qf (-5) 100) with (- qf 5 100) by (apply Qc_is_canon; reflexivity); ring).
      change (fsub (Fin t) (Fin s)) with (Fin (t - s)). cbn [flt]. destruct (qlt (t - s) (- (qf 5 100 * E))) eqn:Q1.
      * apply qlt_spec in Q1. left. split; [right; exists (t - s); split; [exact HM | exact Q1] | repeat split; reflexivity].
      * apply qlt_false in Q1. right. cbn [isnan flt fmul fadd fz]. change (qz 1) with 1. destruct (qlt (t - s) ((1 + err) * E)) eqn:Q2.
        -- apply qlt_spec in Q2. left. exists (t - s). split; [split; [exact HM | split; assumption] | repeat split; reflexivity].
        -- apply qlt_false in Q2. right. exists (t - s). split; [split; [exact HM | split; assumption] | repeat split; reflexivity].
Qed.
