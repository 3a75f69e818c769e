(** A system that gives exactly what is expected of it, or nothing. *)

From Coq Require Import QArith Qcanon List ZArith Bool Arith Lia Permutation Sorted.
From Verif.Base Require Import QcExtra ISort Quantile Fl TimeSeries Rolling Segments.
From Verif.Spec Require Import Stats Energy Availability Available Outages.
From Verif.Model Require Import Energy Availability.
From Verif.Proofs Require Import ClipP4 CodsP3 AvailP AvailP2 AvailP3 AvailP4 AvailP5 AvailP6 AvailP7 AvailP8 AvailP9 AvailP10 AvailP12 AvailP14.
Import ListNotations.
Open Scope list_scope.
Open Scope Qc_scope.

(** ** Error bounds without errors *)

Lemma clamped_zero : forall k x y, (forall p, In p k -> snd p = 0) -> clamped k x y -> y = 0.
Proof.
  intros k x y H C. inversion C as [x0 y0 l' E L | x0 y0 l' E L | x1 y1 x2 y2 l1 l2 E L]; subst.
  - exact (H (x0, y) (or_introl eq_refl)).
  - apply (H (x0, y)). apply in_or_app. right. left. reflexivity.
  - assert (y1 = 0) as -> by (apply (H (x1, y1)), in_or_app; right; left; reflexivity).
    assert (y2 = 0) as -> by (apply (H (x2, y2)), in_or_app; right; right; left; reflexivity). ring.
Qed.

Lemma zero_points : forall l, l <> [] -> StronglySorted Z.lt (map fst l) -> (forall p, In p l -> snd p = Fin 0) -> forall x, bound_at l x 0.
Proof.
  intros l N S H x. exists (map (fun p => (fst p, 0)) l). rewrite !map_map. cbn [fst snd]. split; [| split].
  - rewrite <- (map_id l) at 1. apply map_ext_in. intros [a b] Hp. specialize (H _ Hp). cbn in H |- *. congruence.
  - exact S.
  - destruct l as [| [x0 y0] l]; [contradiction |]. cbn [map fst] in *.
    destruct (interp_from_spec (map (fun p => (fst p, 0)) l) x0 0 x) as (y & _ & C); [rewrite map_map; exact S |].
    assert (y = 0) as -> ; [| exact C]. apply (clamped_zero _ x y) in C; [exact C |]. intros p [<- | Hp]; [reflexivity |]. apply in_map_iff in Hp. destruct Hp as (? & <- & _). reflexivity.
Qed.

Lemma bound_zero : forall l, (forall p, In p l -> snd p = Fin 0) -> forall x y, bound_at l x y -> y = 0.
Proof.
  intros l H x y (k & -> & _ & C). apply (clamped_zero k x y); [| exact C]. intros p Hp.
  assert (Fin (snd p) = Fin 0) as E by (apply (H (fst p, Fin (snd p))); apply in_map_iff; exists p; auto). congruence.
Qed.

Lemma total_same : forall f g rows, (forall i, In i rows -> f i = g i) -> window_total f rows = window_total g rows.
Proof.
  induction rows as [| i rows IH]; intros H; [reflexivity |]. cbn. rewrite (H i (or_introl eq_refl)), IH; [reflexivity |]. intros j Hj. apply H. right. exact Hj.
Qed.
Lemma total_some : forall f rows, (forall i, In i rows -> f i <> None) -> window_total f rows <> None.
Proof.
  induction rows as [| i rows IH]; intros H; [discriminate |]. cbn. pose proof (H i (or_introl eq_refl)). destruct (f i); [| contradiction].
  assert (window_total f rows <> None) as K by (apply IH; intros j Hj; apply H; right; exact Hj). destruct (window_total f rows); [discriminate | contradiction].
Qed.
Lemma total_positive : forall f rows x, rows <> [] -> (forall i v, In i rows -> f i = Some v -> 0 < v) -> window_total f rows = Some x -> 0 < x.
Proof.
  induction rows as [| i rows IH]; intros x N H E; [contradiction |]. cbn in E. destruct (f i) as [u |] eqn:F; [| discriminate]. destruct (window_total f rows) as [v |] eqn:W; [| discriminate].
  injection E as <-. pose proof (H i u (or_introl eq_refl) F) as U. destruct rows as [| j rows]; [cbn in W; injection W as <-; qlra |].
  assert (0 < v) by (apply IH; [discriminate | intros k w Hk; apply H; right; exact Hk | reflexivity]). qlra.
Qed.

Lemma window_rows : forall k rows win, (0 < k)%nat -> (k <= length rows)%nat -> In win (windows k rows) -> win <> [] /\ forall i, In i win -> In i rows.
Proof.
  intros k rows win Hk L H. unfold windows in H. apply in_map_iff in H. destruct H as (s & <- & Hs). apply in_seq in Hs. split.
  - intros E. apply (f_equal (@length nat)) in E. rewrite firstn_length, skipn_length in E. cbn in E. lia.
  - intros i Hi. rewrite <- (firstn_skipn s rows). apply in_or_app. right. rewrite <- (firstn_skipn k (skipn s rows)). apply in_or_app. left. exact Hi.
Qed.
Lemma last_window : forall k rows, (k <= length rows)%nat -> In (skipn (length rows - k) rows) (windows k rows).
Proof.
  intros k rows L. unfold windows. apply in_map_iff. exists (length rows - k)%nat. split; [| apply in_seq; lia].
  apply firstn_all2. rewrite skipn_length. lia.
Qed.
Lemma knowns_in : forall l x, In x (knowns l) <-> In (Some x) l.
Proof.
  induction l as [| [y |] l IH]; intros x; cbn; [tauto | |].
  - rewrite IH. split; intros [A | A]; [left; congruence | right; exact A | left; congruence | right; exact A].
  - rewrite IH. split; [intros A; right; exact A | intros [A | A]; [discriminate | exact A]].
Qed.

(** With equal energies in all rows the bounds are zero; a row other than the first has a known energy. *)
Lemma exact_points : forall q f g rows l, (4 <= length rows)%nat -> (forall i, In i rows -> f i = g i) ->
  (forall i v, In i rows -> f i = Some v -> 0 < v) -> (forall i, In i (tl rows) -> f i <> None) ->
  error_points q f g rows l -> 0 <= q -> q <= 1 -> l <> [] /\ StronglySorted Z.lt (map fst l) /\ forall p, In p l -> snd p = Fin 0.
Proof.
  intros q f g rows l L E P K (S & H) Q1 Q2.
  assert (forall k x, (1 <= k)%nat -> (2 ^ Datatypes.S k <= length rows)%nat -> In x (knowns (map (window_error f g) (windows (2 ^ k) rows))) -> x = 0) as Z.
  { intros k x Hk Lk Hx. apply knowns_in in Hx. apply in_map_iff in Hx. destruct Hx as (win & Ew & Hw).
    assert (0 < 2 ^ k)%nat as Pk by (apply Nat.neq_0_lt_0, Nat.pow_nonzero; discriminate). rewrite Nat.pow_succ_r' in Lk.
    destruct (window_rows (2 ^ k) rows win Pk ltac:(lia) Hw) as [Wn Wi]. unfold window_error in Ew. rewrite <- (total_same f g win) in Ew by (intros i Hi; apply E, Wi, Hi).
    destruct (window_total f win) as [v |] eqn:V; [| discriminate]. injection Ew as <-.
    assert (0 < v) by (apply (total_positive f win v Wn); [intros i u Hi; apply P, Wi, Hi | exact V]). field. apply Qc_pos_neq. assumption. }
  assert (forall k, (1 <= k)%nat -> (2 ^ Datatypes.S k <= length rows)%nat -> exists win v, In win (windows (2 ^ k) rows) /\ window_total f win = Some v /\ window_error f g win <> None) as W.
  { intros k Hk Lk. assert (0 < 2 ^ k)%nat as Pk by (apply Nat.neq_0_lt_0, Nat.pow_nonzero; discriminate). rewrite Nat.pow_succ_r' in Lk.
    set (win := skipn (length rows - 2 ^ k) rows). assert (In win (windows (2 ^ k) rows)) as Hw by (apply last_window; lia).
    assert (forall i, In i win -> In i (tl rows)) as T.
    { intros i Hi. unfold win in Hi. destruct rows as [| r rows]; [cbn in L; lia |]. replace (length (r :: rows) - 2 ^ k)%nat with (Datatypes.S (length rows - 2 ^ k)) in Hi by (cbn [length] in *; lia).
      cbn [skipn tl] in *. rewrite <- (firstn_skipn (length rows - 2 ^ k) rows). apply in_or_app. right. exact Hi. }
    assert (window_total f win <> None) as F by (apply total_some; intros i Hi; apply K, T, Hi).
    destruct (window_total f win) as [v |] eqn:V; [| contradiction]. exists win, v. split; [exact Hw |]. split; [exact V |].
    unfold window_error. rewrite V. rewrite <- (total_same f g win) by (intros i Hi; apply E; destruct rows; [destruct (T i Hi) | right; apply T; exact Hi]). rewrite V. discriminate. }
  split; [| split; [exact S |]].
  - destruct (W 1%nat ltac:(lia) L) as (win & v & Hw & V & We). set (errors := knowns (map (window_error f g) (windows (2 ^ 1) rows))).
    assert (errors <> []) as Ne.
    { destruct (window_error f g win) as [x |] eqn:X; [| contradiction]. assert (In x errors) as I by (apply knowns_in, in_map_iff; exists win; auto). intros N. rewrite N in I. exact I. }
    intros N. assert (In (Z.of_nat (2 ^ 1), Fin (qquantile q errors)) l) as I; [| rewrite N in I; exact I].
    apply H. exists 1%nat. split; [lia |]. split; [exact L |]. split; [reflexivity |]. split.
    + exists win. split; [exact Hw |]. left. rewrite V. discriminate.
    + right. split; [exact Ne |]. exists (qquantile q errors). split; [| reflexivity]. apply FiltersP.quantile_is; assumption.
  - intros [x y] I. apply H in I. destruct I as (k & Hk & Lk & _ & _ & [[N _] | (_ & v & Pv & ->)]).
    + exfalso. destruct (W k Hk Lk) as (win & v & Hw & _ & We). destruct (window_error f g win) as [u |] eqn:X; [| contradiction].
      assert (In u (knowns (map (window_error f g) (windows (2 ^ k) rows)))) as I by (apply knowns_in, in_map_iff; exists win; auto). rewrite N in I. exact I.
    + cbn [snd]. f_equal. apply (percentile_const _ _ _ 0 (fun u => Z k u Hk Lk) Pv).
Qed.

(** ** The run around a row *)

Lemma run_left : forall (f : nat -> bool) i, f i = true -> exists a, (a <= i)%nat /\ (forall j, (a <= j <= i)%nat -> f j = true) /\ forall j, S j = a -> f j = false.
Proof.
  intros f. induction i as [| i IH]; intros H.
  - exists 0%nat. split; [lia |]. split; [intros j Hj; assert (j = 0%nat) as -> by lia; exact H | discriminate].
  - destruct (f i) eqn:F.
    + destruct (IH eq_refl) as (a & L & A & B). exists a. split; [lia |]. split; [| exact B]. intros j Hj. destruct (Nat.eq_dec j (S i)) as [-> | D]; [exact H | apply A; lia].
    + exists (S i). split; [lia |]. split; [intros j Hj; assert (j = S i) as -> by lia; exact H |]. intros j E. injection E as ->. exact F.
Qed.
Lemma run_right : forall (f : nat -> bool) n d i, (i + d = n)%nat -> (i < n)%nat -> f i = true ->
  exists b, (i <= b < n)%nat /\ (forall j, (i <= j <= b)%nat -> f j = true) /\ ((S b < n)%nat -> f (S b) = false).
Proof.
  intros f n. induction d as [| d IH]; intros i E L H; [lia |]. destruct (Nat.eq_dec (S i) n) as [N | N].
  - exists i. split; [lia |]. split; [intros j Hj; assert (j = i) as -> by lia; exact H | lia].
  - destruct (f (S i)) eqn:F.
    + destruct (IH (S i) ltac:(lia) ltac:(lia) F) as (b & Lb & A & B). exists b. split; [lia |]. split; [| exact B]. intros j Hj. destruct (Nat.eq_dec j i) as [-> | D]; [exact H | apply A; lia].
    + exists i. split; [lia |]. split; [intros j Hj; assert (j = i) as -> by lia; exact H | intros _; exact F].
Qed.
Lemma run_around : forall l i, (i < length l)%nat -> in_outage l i -> exists a b, (a <= i <= b)%nat /\ maximal_run (length l) (in_outage l) a b.
Proof.
  intros l i L H. apply full_outage_spec in H; [| exact L].
  destruct (run_left _ i H) as (a & La & A1 & A2). destruct (run_right _ (length l) (length l - i) i ltac:(lia) L H) as (b & Lb & B1 & B2).
  exists a, b. split; [lia |]. split; [lia |]. split; [| split].
  - intros j Hj. apply full_outage_spec; [lia |]. destruct (Nat.le_gt_cases j i); [apply A1 | apply B1]; lia.
  - intros j E K. apply full_outage_spec in K; [| lia]. rewrite (A2 j E) in K. discriminate.
  - intros Lb' K. apply full_outage_spec in K; [| lia]. rewrite (B2 Lb') in K. discriminate.
Qed.

Section Exact.
Variables (freq : option Z) (t0 w : Z) (n k : nat) (low sizes limits : option (list fl)) (power cum expected : list fl) (rows : list (list fl)) (thr : list Qc)
  (c : Qc) (q : nat -> Qc) (q1 q2 : Qc) (period : Z -> Z).
Hypothesis w_pos : (0 < w)%Z.
Hypothesis n_two : (2 <= n)%nat.
Hypothesis k_pos : (0 < k)%nat.
Hypothesis rows_frame : frame k rows.
Hypothesis rows_length : length rows = n.
Hypothesis power_length : length power = n.
Hypothesis cum_length : length cum = n.
Hypothesis expected_length : length expected = n.
Hypothesis limits_length : match limits with Some l => length l = n | None => True end.
Hypothesis cum_noinf : noinf cum.
Hypothesis expected_is : forall i, (i < n)%nat -> nth_error expected i = Some (Fin (q i)).
Hypothesis q_nonneg : forall i, (i < n)%nat -> 0 <= q i.
Hypothesis q1_0 : 0 <= q1.
Hypothesis q1_1 : q1 <= 1.
Hypothesis q2_0 : 0 <= q2.
Hypothesis q2_1 : q2 <= 1.
Hypothesis thr_length : length thr = k.
Hypothesis thr_spec : is_threshold low (data rows) thr.
Hypothesis c_pos : 0 < c.
Hypothesis exact : exactly_or_not thr rows c q power.
Hypothesis enough : (4 <= producing power expected)%nat.

Let zeros := map (fun _ : fl => Fin 0) power.
Let normal := normal_at zeros power expected.
Let masks := masks_of rows thr.
Let l := daylight_offline masks expected.

Lemma row_at : forall i, (i < n)%nat -> exists row p, nth_error rows i = Some row /\ nth_error power i = Some (Fin p) /\
  ((all_on thr row /\ 0 < q i /\ p = c * q i) \/ (all_off thr row /\ p <= 0)).
Proof.
  intros i Hi. destruct (nth_error rows i) as [row |] eqn:E; [| apply nth_error_None in E; lia]. destruct (exact i row E) as (p & P & H). exists row, p. auto.
Qed.

Lemma power_noinf : noinf power.
Proof.
  intros x Hx. apply In_nth_error in Hx. destruct Hx as [i Hi]. destruct (row_at i) as (row & p & _ & P & _); [rewrite <- power_length; apply nth_error_Some; congruence |].
  assert (x = Fin p) as -> by congruence. split; discriminate.
Qed.
Lemma expected_noinf : noinf expected.
Proof.
  intros x Hx. apply In_nth_error in Hx. destruct Hx as [i Hi]. assert (i < n)%nat as L by (rewrite <- expected_length; apply nth_error_Some; congruence).
  rewrite (expected_is i L) in Hi. injection Hi as <-. split; discriminate.
Qed.

Lemma subsystem_zero : calc_loss_subsystem k low sizes limits power rows = (masks, zeros).
Proof.
  apply (losses_zero k low sizes limits power (map (fun _ => NaN) rows) rows thr rows_frame); try assumption; try congruence.
  - intros ->. cbn in rows_length. lia.
  - destruct limits; [congruence | exact I].
  - intros i row E. destruct (exact i row E) as (p & _ & [(A & _) | (A & _)]); [left; exact A | right; split; [exact A |]].
    exists NaN. split; [rewrite nth_error_map_some, E; reflexivity |]. split; discriminate.
Qed.

Lemma zeros_length : length zeros = n.
Proof. unfold zeros. rewrite map_length. exact power_length. Qed.

Lemma normal_row_at : forall i, In i normal -> (i < n)%nat /\ 0 < q i /\ nth i power NaN = Fin (c * q i) /\ nth i expected NaN = Fin (q i).
Proof.
  intros i Hi. destruct (rows_spec n zeros power expected n_two zeros_length power_length expected_length i Hi) as (L & p & e & Ep & Pp & Ee & Pe). split; [exact L |].
  destruct (row_at i L) as (row & p' & _ & P & H). pose proof (nth_error_nth power i NaN P) as Np. pose proof (nth_error_nth expected i NaN (expected_is i L)) as Nq.
  assert (p = p') as -> by congruence. destruct H as [(_ & A & ->) | (_ & A)]; [auto | exfalso; qlra].
Qed.

Lemma normal_length : length normal = producing power expected.
Proof. unfold normal, zeros, producing. rewrite produces_normal by congruence. reflexivity. Qed.
Lemma normal_some : normal <> [].
Proof. intros E. pose proof normal_length as L. rewrite E in L. cbn in L. lia. Qed.

Lemma scale_exact : total_over power normal / total_over expected normal = c.
Proof.
  assert (total_over power normal = c * total_over expected normal) as ->.
  { unfold total_over. assert (forall i, In i normal -> known_at power i = c * known_at expected i) as H.
    { intros i Hi. destruct (normal_row_at i Hi) as (_ & _ & A & B). unfold known_at. rewrite A, B. reflexivity. }
    revert H. generalize normal as r. induction r as [| i r IH]; intros H; [cbn; ring |]. cbn [map]. rewrite !qsum_cons, IH by (intros j Hj; apply H; right; exact Hj). rewrite (H i (or_introl eq_refl)). ring. }
  pose proof (expected_total_pos n zeros power expected n_two zeros_length power_length expected_length normal_some) as P. fold normal in P. field. apply Qc_pos_neq. exact P.
Qed.

Lemma calibrated_exact : map (calibrated normal power expected) (seq 0 n) = map (fun i => Fin (c * q i)) (seq 0 n).
Proof.
  apply map_ext_in. intros i Hi. apply in_seq in Hi. unfold calibrated. rewrite (nth_error_nth expected i NaN (expected_is i ltac:(lia))). f_equal. rewrite scale_exact. ring.
Qed.

Lemma rate_at : forall i, (i < n)%nat -> nth i (map (fun i => Fin (c * q i)) (seq 0 n)) NaN = Fin (c * q i).
Proof. intros i Hi. apply nth_error_nth. rewrite nth_error_map_some, nth_error_seq. destruct (Nat.ltb_spec i n); [reflexivity | lia]. Qed.

Lemma hours_pos : 0 < hours w.
Proof. unfold hours. apply Qc_lt_div; [apply qz_pos; reflexivity |]. rewrite Qcmult_0_l. apply qz_pos. exact w_pos. Qed.

Lemma normal_increasing : StronglySorted lt normal.
Proof.
  unfold normal, normal_at. generalize (normal_row zeros power expected) as f. generalize 0%nat as s. generalize (length power) as m. induction m as [| m IH]; intros s f; [constructor |].
  cbn [seq filter]. destruct (f s); [| apply IH]. constructor; [apply IH |]. apply Forall_forall. intros x Hx. apply filter_In in Hx. destruct Hx as [Hx _]. apply in_seq in Hx. lia.
Qed.

Lemma energies : forall i, In i normal ->
  row_energy (hours w) power i = row_energy (hours w) (map (fun i => Fin (c * q i)) (seq 0 n)) i /\
  (forall v, row_energy (hours w) power i = Some v -> 0 < v) /\ (i <> 0%nat -> row_energy (hours w) power i <> None).
Proof.
  intros i Hi. destruct (normal_row_at i Hi) as (L & Q & P & _). destruct i as [| j]; [split; [reflexivity |]; split; [discriminate | contradiction] |].
  unfold row_energy. rewrite !rate_at, P by lia. destruct (row_at j ltac:(lia)) as (row & p & _ & Pj & _). rewrite (nth_error_nth power j NaN Pj). split; [reflexivity |].
  split; [| discriminate]. intros v E. injection E as <-. apply Qc_mul_pos; [apply Qc_mul_pos; assumption | exact hours_pos].
Qed.

Lemma errors_exact : exists e, calc_error_distributions freq (evenly t0 w n) zeros power expected (q1, q2) = Ok e /\
  e_power e = map (fun i => Fin (c * q i)) (seq 0 n) /\
  e_energy e = map (fun i => if (i =? 0)%nat then NaN else Fin (c * q i * hours w)) (seq 0 n) /\
  (forall x, bound_at (e_lower e) x 0) /\ (forall x, bound_at (e_upper e) x 0).
Proof.
  destruct (errors_spec freq t0 w n zeros power expected w_pos n_two zeros_length power_length expected_length (zeros_noinf _ _) power_noinf expected_noinf q1 q2 q1_0 q1_1 q2_0 q2_1 normal_some) as [_ H].
  fold normal in H. rewrite normal_length in H. destruct (H enough) as (e & E & A & B & L & U). clear H. rewrite calibrated_exact in A. exists e. rewrite A in *. split; [exact E |]. split; [reflexivity |]. split.
  - rewrite B. apply map_ext_in. intros i Hi. apply in_seq in Hi. unfold row_energy. destruct i as [| j]; [reflexivity |]. rewrite !rate_at by lia. reflexivity.
  - assert (forall i, In i (tl normal) -> row_energy (hours w) power i <> None) as T.
    { intros i Hi. pose proof normal_increasing as SS. assert (In i normal) as I by (destruct normal; [destruct Hi | right; exact Hi]). apply energies; [exact I |]. intros ->.
      destruct normal as [| j r]; [destruct Hi |]. apply StronglySorted_inv in SS. destruct SS as [_ F]. rewrite Forall_forall in F. specialize (F _ Hi). lia. }
    assert (4 <= length normal)%nat as L4 by (rewrite normal_length; exact enough).
    split.
    + destruct (exact_points q1 _ _ normal _ L4 (fun i Hi => proj1 (energies i Hi)) (fun i v Hi => proj1 (proj2 (energies i Hi)) v) T L q1_0 q1_1) as (N & S & Z). apply zero_points; assumption.
    + destruct (exact_points q2 _ _ normal _ L4 (fun i Hi => proj1 (energies i Hi)) (fun i v Hi => proj1 (proj2 (energies i Hi)) v) T U q2_0 q2_1) as (N & S & Z). apply zero_points; assumption.
Qed.

(** ** Where nothing runs *)

Lemma masks_length : length masks = n.
Proof. unfold masks, masks_of. rewrite map_length. exact rows_length. Qed.

Lemma report_at : forall i row, nth_error rows i = Some row -> nth_error l i = Some (if qlt 0 (q i) then Some (negb (existsb (fun b => b) (looks_online (map Fin thr) (map Fin (map known_or_0 row))))) else None).
Proof.
  intros i row E. assert (i < n)%nat as L by (rewrite <- rows_length; apply nth_error_Some; congruence).
  unfold l, daylight_offline. rewrite zip_nth. unfold masks, masks_of. rewrite nth_error_map_some, E. cbn [option_map]. rewrite (expected_is i L). reflexivity.
Qed.
Lemma on_off : forall row, In row rows -> all_on thr row -> existsb (fun b : bool => b) (looks_online (map Fin thr) (map Fin (map known_or_0 row))) = true.
Proof.
  intros row Hr A. apply on_some; [apply on_mask; exact A |]. intros E. apply (f_equal (@length bool)) in E. unfold looks_online in E. rewrite zip_length, !map_length in E.
  destruct (rows_frame row Hr) as [Lr _]. cbn [length] in E. lia.
Qed.
Lemma report_true : forall i, nth_error l i = Some (Some true) <-> failed thr rows q i.
Proof.
  intros i. split.
  - intros H. destruct (nth_error rows i) as [row |] eqn:E.
    + rewrite (report_at i row E) in H. destruct (qlt 0 (q i)) eqn:Q; [| discriminate]. apply qlt_spec in Q. split; [exact Q |]. exists row. split; [exact E |].
      destruct (exact i row E) as (p & _ & [(A & _) | (A & _)]); [| exact A]. rewrite (on_off row (nth_error_In _ _ E) A) in H. discriminate.
    + assert (nth_error l i = None) as N; [| congruence]. apply nth_error_None. unfold l, daylight_offline. rewrite zip_length, masks_length, expected_length. apply nth_error_None in E. lia.
  - intros (Q & row & E & A). rewrite (report_at i row E). apply qlt_spec in Q. rewrite Q, (off_mask thr row A). reflexivity.
Qed.
Lemma report_none : forall i, nth_error l i = Some None <-> (i < n)%nat /\ q i <= 0.
Proof.
  intros i. split.
  - intros H. assert (i < n)%nat as L.
    { assert (i < length l)%nat as L by (apply nth_error_Some; congruence). unfold l, daylight_offline in L. rewrite zip_length, masks_length, expected_length in L. lia. }
    split; [exact L |]. destruct (row_at i L) as (row & p & E & _). rewrite (report_at i row E) in H. destruct (qlt 0 (q i)) eqn:Q; [discriminate |]. apply qlt_false in Q. exact Q.
  - intros [L Q]. destruct (row_at i L) as (row & p & E & _). rewrite (report_at i row E). apply qlt_false in Q. rewrite Q. reflexivity.
Qed.

Lemma down_iff : forall i, (i < n)%nat -> in_outage l i <-> down thr rows q i.
Proof.
  intros i Hi. split.
  - intros [(j & L & T & N) | (j & L & T & N)]; exists j; (split; [apply report_true; exact T |]); intros m Hm; apply (report_none m), N; lia.
  - intros (j & F & N). assert (j < n)%nat as Lj by (destruct F as (_ & row & E & _); rewrite <- rows_length; apply nth_error_Some; congruence).
    destruct (Nat.le_gt_cases j i) as [L | L]; [left | right]; exists j; (split; [lia |]); (split; [apply report_true; exact F |]); intros m Hm; apply report_none; (split; [lia | apply N; lia]).
Qed.

Lemma run_iff : forall P R m a b, (forall i, (i < m)%nat -> (P i <-> R i)) -> maximal_run m P a b <-> maximal_run m R a b.
Proof.
  intros P R m a b H. unfold maximal_run. split; intros (L & A & B & C); (split; [exact L |]); (split; [intros i Hi; apply H; [lia | apply A; exact Hi] |]); split.
  - intros i Hi K. apply (B i Hi), H; [lia | exact K].
  - intros Lb K. apply (C Lb), H; [lia | exact K].
  - intros i Hi K. apply (B i Hi), H; [lia | exact K].
  - intros Lb K. apply (C Lb), H; [lia | exact K].
Qed.
Lemma outage_iff : forall a b, maximal_run n (in_outage l) a b <-> down_from_to thr rows q a b.
Proof. intros a b. unfold down_from_to. rewrite rows_length. apply run_iff. exact down_iff. Qed.

(** A row that works is not down. *)
Lemma working_up : forall i, In i normal -> ~ down thr rows q i.
Proof.
  intros i Hi (j & F & N). destruct (normal_row_at i Hi) as (L & Q & P & _). destruct (Nat.eq_dec j i) as [-> | D].
  - destruct F as (_ & row & E & A). destruct (exact i row E) as (p & Ep & _). rewrite (nth_error_nth power i NaN Ep) in P. injection P as ->.
    destruct (exact i row E) as (p & Ep' & [(B & _) | (_ & B)]).
    + pose proof (on_off row (nth_error_In _ _ E) B) as X. rewrite (off_mask thr row A) in X. discriminate.
    + assert (p = c * q i) as -> by congruence. pose proof (Qc_mul_pos _ _ c_pos Q). qlra.
  - assert (q i <= 0) by (apply N; lia). qlra.
Qed.
Lemma some_up : exists i, (i < n)%nat /\ ~ in_outage l i.
Proof.
  destruct normal as [| i r] eqn:E; [destruct (normal_some E) |]. exists i. assert (In i normal) as I by (rewrite E; left; reflexivity).
  assert (i < n)%nat as L by (apply normal_row_at; exact I). split; [exact L |]. rewrite (down_iff i L). apply working_up. exact I.
Qed.

(** ** What is reported *)

Hypothesis later : forall a b, down_from_to thr rows q a b -> exists i, (a < i <= b)%nat /\ 0 < q i.
Hypothesis period_mono : forall s t, (s <= t)%Z -> (period s <= period t)%Z.

Lemma sum_rows_nonneg : forall f a b, (forall i, (a <= i <= b)%nat -> 0 <= f i) -> 0 <= sum_rows f a b.
Proof.
  intros f a b H. unfold sum_rows, rows_from. assert (forall i, In i (seq a (S b - a)) -> 0 <= f i) as K by (intros i Hi; apply in_seq in Hi; apply H; lia).
  revert K. generalize (seq a (S b - a)) as r. induction r as [| i r IH]; intros K; [cbn; qlra |]. cbn [map]. rewrite qsum_cons.
  pose proof (K i (or_introl eq_refl)). assert (0 <= qsum (map f r)) by (apply IH; intros j Hj; apply K; right; exact Hj). qlra.
Qed.
Lemma sum_rows_pos : forall f a b i, (forall i, (a <= i <= b)%nat -> 0 <= f i) -> (a <= i <= b)%nat -> 0 < f i -> 0 < sum_rows f a b.
Proof.
  intros f a b i H L P. unfold sum_rows, rows_from. assert (forall i, In i (seq a (S b - a)) -> 0 <= f i) as K by (intros j Hj; apply in_seq in Hj; apply H; lia).
  assert (In i (seq a (S b - a))) as I by (apply in_seq; lia).
  revert K I. generalize (seq a (S b - a)) as r. induction r as [| j r IH]; intros K I; [destruct I |]. cbn [map]. rewrite qsum_cons.
  pose proof (K j (or_introl eq_refl)). assert (forall x, In x r -> 0 <= f x) as K' by (intros x Hx; apply K; right; exact Hx). destruct I as [-> | I].
  - assert (0 <= qsum (map f r)); [| qlra]. clear - K'. induction r as [| x r IH]; [cbn; qlra |]. cbn [map]. rewrite qsum_cons. pose proof (K' x (or_introl eq_refl)).
    assert (0 <= qsum (map f r)) by (apply IH; intros y Hy; apply K'; right; exact Hy). qlra.
  - specialize (IH K' I). qlra.
Qed.

Lemma after_pos : forall a b, down_from_to thr rows q a b -> 0 < energy_after (hours w) q a b.
Proof.
  intros a b H. destruct (later a b H) as (i & L & P). destruct H as ((_ & Lb) & _). rewrite rows_length in Lb. unfold energy_after. apply (sum_rows_pos _ _ _ i); [| lia |].
  - intros j Hj. apply Qc_mul_nonneg; [apply q_nonneg; lia | apply Qclt_le_weak, hours_pos].
  - apply Qc_mul_pos; [exact P | exact hours_pos].
Qed.
Lemma missed_pos : forall a b, down_from_to thr rows q a b -> 0 < missed (hours w) c q a b.
Proof.
  intros a b H. destruct (later a b H) as (i & L & P). destruct H as ((_ & Lb) & _). rewrite rows_length in Lb. unfold missed. apply (sum_rows_pos _ _ _ i); [| lia |].
  - intros j Hj. destruct (j =? 0)%nat; [qlra |]. apply Qc_mul_nonneg; [apply Qc_mul_nonneg; [apply Qclt_le_weak; exact c_pos | apply q_nonneg; lia] | apply Qclt_le_weak, hours_pos].
  - destruct (Nat.eqb_spec i 0); [lia |]. apply Qc_mul_pos; [apply Qc_mul_pos; [exact c_pos | exact P] | exact hours_pos].
Qed.

Lemma exact_outages : exists r, run freq (evenly t0 w n) k power rows cum expected low sizes limits (q1, q2) period = Ok r /\
  r_loss_subsystem r = map (fun _ => Fin 0) power /\
  e_power (r_expectation r) = map (fun i => Fin (c * q i)) (seq 0 n) /\
  (let places := map (fun o => (o_start o, o_end o)) (r_outages r) in
   in_order places /\ forall a b, In (a, b) places <-> down_from_to thr rows q a b) /\
  length (r_loss_system r) = n /\ length (r_corrected r) = n /\ noinf (r_loss_system r) /\ noinf (r_corrected r) /\
  (forall i, (i < n)%nat -> ~ down thr rows q i -> nth_error (r_loss_system r) i = Some (Fin 0) /\ nth_error (r_corrected r) i = nth_error cum i) /\
  forall o, In o (r_outages r) -> let a := o_start o in let b := o_end o in let E := missed (hours w) c q a b in
    forall start stop, meter_before cum a start -> nth_error cum b = Some stop ->
    0 < E /\ o_expected o = Fin E /\ o_ci_lower o = Fin E /\ o_ci_upper o = Fin E /\
    ((unknown_outage E start stop /\ o_type o = Unknown /\ o_loss o = NaN /\ blank a b (r_loss_system r) (r_corrected r)) \/
     (exists s t, start = Fin s /\ stop = Fin t /\ - (qf 5 100 * E) <= t - s /\ t - s < E /\ o_type o = Real /\ o_loss o = Fin (E - (t - s)) /\
        rebuilt (hours w) q a b (E - (t - s)) (t - s) s (r_loss_system r) (r_corrected r)) \/
     (exists s t, start = Fin s /\ stop = Fin t /\ E <= t - s /\ o_type o = Comms /\ o_loss o = Fin 0 /\
        rebuilt (hours w) q a b 0 (t - s) s (r_loss_system r) (r_corrected r))).
Proof.
  destruct errors_exact as (e & Ee & Ep & En & Lo & Up).
  assert (length l = n) as Ll by (unfold l, daylight_offline; rewrite zip_length, masks_length, expected_length; lia).
  assert (length (e_energy e) = n) as Le by (rewrite En, map_length, seq_length; reflexivity).
  assert (length (e_power e) = n) as Lp by (rewrite Ep, map_length, seq_length; reflexivity).
  assert (noinf (e_energy e)) as Ne.
  { intros x Hx. rewrite En in Hx. apply in_map_iff in Hx. destruct Hx as (i & <- & _). destruct (i =? 0)%nat; split; discriminate. }
  assert (forall a b, (b < n)%nat -> sum_rows (known_at (e_energy e)) a b = missed (hours w) c q a b) as SM.
  { intros a b Lb. unfold missed, sum_rows. f_equal. apply map_ext_in. intros i Hi. unfold rows_from in Hi. apply in_seq in Hi. unfold known_at. rewrite En.
    assert (nth i (map (fun i => if (i =? 0)%nat then NaN else Fin (c * q i * hours w)) (seq 0 n)) NaN = if (i =? 0)%nat then NaN else Fin (c * q i * hours w)) as ->; [| destruct (i =? 0)%nat; reflexivity].
    apply nth_error_nth. rewrite nth_error_map_some, nth_error_seq. destruct (Nat.ltb_spec i n); [reflexivity | lia]. }
  destruct (loss_system_spec freq t0 w n masks e expected q cum l w_pos masks_length expected_length expected_is cum_length cum_noinf Le Ne Lp (fun x => ex_intro _ 0 (Lo x)) (fun x => ex_intro _ 0 (Up x)))
    as (os & lost & corrected & Es & L1 & L2 & Out & In_); [apply daylight_offline_reports; rewrite masks_length; symmetry; exact expected_length | exact some_up | |].
  { intros a b H. apply outage_iff in H. destruct (later a b H) as (i & Li & _). split; [lia |]. apply Qc_pos_neq, after_pos. exact H. }
  assert (forall a b, down_from_to thr rows q a b -> exists start stop, meter_before cum a start /\ nth_error cum b = Some stop) as MB.
  { intros a b ((La & Lb) & _). rewrite rows_length in Lb. exists (nth (match a with O => (length cum - 1)%nat | S a' => a' end) cum NaN), (nth b cum NaN). split; [| apply nth_error_nth'; lia].
    destruct a as [| a]; [right; split; [reflexivity |]; exists (length cum - 1)%nat; split; [lia | apply nth_error_nth'; lia] | left; exists a; split; [reflexivity | apply nth_error_nth'; lia]]. }
  assert (forall a b start stop, down_from_to thr rows q a b -> meter_before cum a start -> nth_error cum b = Some stop -> let E := missed (hours w) c q a b in
    (unknown_outage E start stop -> blank a b lost corrected) /\
    (forall s t, start = Fin s -> stop = Fin t -> - (qf 5 100 * E) <= t - s -> t - s < E -> rebuilt (hours w) q a b (E - (t - s)) (t - s) s lost corrected) /\
    (forall s t, start = Fin s -> stop = Fin t -> E <= t - s -> rebuilt (hours w) q a b 0 (t - s) s lost corrected)) as R.
  { intros a b start stop H B1 B2 E. pose proof (missed_pos a b H) as PE. fold E in PE. assert (b < n)%nat as Lb by (destruct H as ((_ & Lb) & _); lia).
    destruct (In_ a b start stop 0 (proj2 (outage_iff a b) H) B1 B2 (Lo _)) as (X1 & X2 & X3). rewrite (SM a b Lb) in X1, X2, X3. fold E in X1, X2, X3. split; [exact X1 |]. split.
    - intros s t Hs Ht A1 A2. apply (X2 s (t - s) Hs). split; [exists s, t; auto |]. split; [exact A1 |]. rewrite Qcplus_0_r, Qcmult_1_l. exact A2.
    - intros s t Hs Ht A1. apply (X3 s (t - s) Hs). split; [exists s, t; auto |]. split; [| rewrite Qcplus_0_r, Qcmult_1_l; exact A1].
      assert (0 <= qf 5 100 * E) by (apply Qc_mul_nonneg; [discriminate | apply Qclt_le_weak; exact PE]). qlra. }
  assert (forall a b start stop, down_from_to thr rows q a b -> meter_before cum a start -> nth_error cum b = Some stop -> let E := missed (hours w) c q a b in
    unknown_outage E start stop \/ (exists s t, start = Fin s /\ stop = Fin t /\ - (qf 5 100 * E) <= t - s /\ t - s < E) \/ (exists s t, start = Fin s /\ stop = Fin t /\ E <= t - s)) as Cases.
  { intros a b start stop H B1 B2 E.
    assert (forall x, In x cum -> x = NaN \/ exists s, x = Fin s) as K by (intros x Hx; destruct (cum_noinf x Hx); destruct x; try contradiction; eauto).
    assert (In start cum) as I1 by (destruct B1 as [(j & _ & B) | (_ & j & _ & B)]; apply nth_error_In in B; exact B). pose proof (nth_error_In _ _ B2) as I2.
    destruct (K start I1) as [-> | (s & ->)]; [left; left; intros x (u & v & A & _); discriminate |]. destruct (K stop I2) as [-> | (t & ->)]; [left; left; intros x (u & v & _ & A & _); discriminate |].
    destruct (Qclt_le_dec (t - s) (- (qf 5 100 * E))) as [A | A]; [left; right; exists (t - s); split; [exists s, t; auto | exact A] |].
    destruct (Qclt_le_dec (t - s) E) as [B | B]; right; [left | right]; exists s, t; auto. }
  assert (forall i, (i < n)%nat -> (exists x y, nth_error lost i = Some x /\ x <> PInf /\ x <> NInf /\ nth_error corrected i = Some y /\ y <> PInf /\ y <> NInf)) as Fin_.
  { intros i Hi. destruct (flag (full_outage l) i) eqn:F.
    - apply full_outage_spec in F; [| lia]. destruct (run_around l i ltac:(lia) F) as (a & b & Lab & H). rewrite Ll in H. apply outage_iff in H. destruct (MB a b H) as (start & stop & B1 & B2).
      destruct (R a b start stop H B1 B2) as (R1 & R2 & R3). destruct (Cases a b start stop H B1 B2) as [U | [(s & t & -> & -> & A1 & A2) | (s & t & -> & -> & A1)]].
      + destruct (R1 U i Lab) as [E1 E2]. rewrite E1, E2. exists NaN, NaN. repeat split; discriminate.
      + destruct (R2 s t eq_refl eq_refl A1 A2 i Lab) as [E1 E2]. rewrite E1, E2. do 2 eexists. do 2 (split; [reflexivity || discriminate |]). split; [discriminate |]. split; [reflexivity |]. destruct (i =? a)%nat; split; discriminate.
      + destruct (R3 s t eq_refl eq_refl A1 i Lab) as [E1 E2]. rewrite E1, E2. do 2 eexists. do 2 (split; [reflexivity || discriminate |]). split; [discriminate |]. split; [reflexivity |]. destruct (i =? a)%nat; split; discriminate.
    - assert (~ in_outage l i) as N by (intros N; apply full_outage_spec in N; [congruence | lia]). destruct (Out i Hi N) as [E1 E2]. rewrite E1, E2. exists (Fin 0), (nth i cum NaN).
      split; [reflexivity |]. split; [discriminate |]. split; [discriminate |]. split; [apply nth_error_nth'; lia |]. apply cum_noinf, nth_In. lia. }
  assert (noinf lost) as N1.
  { intros x Hx. apply In_nth_error in Hx. destruct Hx as [i Hi]. destruct (Fin_ i) as (u & v & A & B & C & _); [rewrite <- L1; apply nth_error_Some; congruence |]. assert (x = u) as -> by congruence. auto. }
  assert (noinf corrected) as N2.
  { intros x Hx. apply In_nth_error in Hx. destruct Hx as [i Hi]. destruct (Fin_ i) as (u & v & _ & _ & _ & A & B & C); [rewrite <- L2; apply nth_error_Some; congruence |]. assert (x = v) as -> by congruence. auto. }
  destruct (combine_losses_spec freq t0 w n period lost zeros corrected w_pos n_two period_mono L1 zeros_length L2 N1 (zeros_noinf _ _) N2) as (res & Cr & _).
  { destruct some_up as (i & Li & Ni). exists i, 0. split; [exact Li |]. destruct (Out i Li Ni) as [E1 _]. unfold total_at. rewrite (nth_error_nth lost i NaN E1).
    unfold zeros. rewrite nth_const by (rewrite power_length; exact Li). f_equal. }
  exists (AvailabilityResult masks zeros e os lost corrected res). split.
  { unfold run. rewrite subsystem_zero, Ee. cbn [bind]. rewrite Es. cbn [bind fst snd]. rewrite Cr. reflexivity. }
  cbn [r_loss_subsystem r_expectation r_outages r_loss_system r_corrected]. split; [reflexivity |]. split; [exact Ep |].
  assert (daylight_reports masks expected l) as DR by (apply daylight_offline_reports; rewrite masks_length; symmetry; exact expected_length).
  destruct (reported_outages freq (evenly t0 w n) masks e expected cum os (lost, corrected) l) as [RO _]; [rewrite masks_length; symmetry; exact expected_length | exact DR | exact Es |].
  rewrite masks_length in RO. destruct (RO some_up) as [RO1 RO2].
  assert (forall a b, In (a, b) (map (fun o => (o_start o, o_end o)) os) <-> down_from_to thr rows q a b) as RO3 by (intros a b; rewrite RO2; apply outage_iff).
  split; [split; [exact RO1 | exact RO3] |]. split; [exact L1 |]. split; [exact L2 |]. split; [exact N1 |]. split; [exact N2 |]. split.
  { intros i Hi D. apply Out; [exact Hi |]. rewrite (down_iff i Hi). exact D. }
  intros o Ho start stop B1 B2. set (a := o_start o) in *. set (b := o_end o) in *. set (E := missed (hours w) c q a b) in *. assert (down_from_to thr rows q a b) as H by (apply RO3, in_map_iff; exists o; auto).
  assert (b < n)%nat as Lb by (destruct H as ((_ & Lb) & _); lia). assert (a <= b)%nat as Lab by (destruct H as ((La & _) & _); lia).
  assert (exists ab, o = outage_info e cum ab) as ([a' b'] & Eo).
  { unfold calc_loss_system in Es. destruct (match outage_runs (full_outage (daylight_offline masks expected)) with [] => false | _ :: _ => match e_lower e with [] => true | _ :: _ => false end end); [discriminate |].
    destruct (fill_outages _ _ _ _ _); [| discriminate]. cbn [bind] in Es. injection Es as Eos _. rewrite <- Eos in Ho. apply in_map_iff in Ho. destruct Ho as (ab & <- & _). eauto. }
  assert (a' = a) as -> by (unfold a; rewrite Eo; reflexivity). assert (b' = b) as -> by (unfold b; rewrite Eo; reflexivity).
  pose proof (missed_pos a b H) as PE. fold E in PE. split; [exact PE |].
  destruct (outage_info_spec e cum a b E start stop 0 0 cum_noinf Ne) as (_ & _ & _ & O4 & _ & _ & O7 & O8 & O9); try congruence; try lia.
  { symmetry. apply SM. exact Lb. }
  { apply Lo. }
  { apply Up. }
  rewrite <- Eo in O4, O7, O8, O9. rewrite Qcplus_0_r, Qcmult_1_l in O7, O8. split; [exact O4 |]. split; [exact O7 |]. split; [exact O8 |].
  destruct (R a b start stop H B1 B2) as (R1 & R2 & R3). fold E in R1, R2, R3.
  destruct O9 as [(U1 & U2 & _ & U3) | [(x & ((s & t & Hs & Ht & ->) & A1 & A2) & U2 & _ & U3) | (x & ((s & t & Hs & Ht & ->) & A1 & A2) & U2 & _ & U3)]].
  - left. auto.
  - rewrite Qcplus_0_r, Qcmult_1_l in A2. right. left. exists s, t. repeat (split; [assumption |]). apply R2; assumption.
  - rewrite Qcplus_0_r, Qcmult_1_l in A2. right. right. exists s, t. repeat (split; [assumption |]). apply R3; assumption.
Qed.

(** ** With a meter that counts *)

Variable m : nat -> Qc.
Hypothesis cum_is : forall i, (i < n)%nat -> nth_error cum i = Some (Fin (m i)).
Hypothesis m_counts : counts (hours w) power m.
Hypothesis off_zero : forall i row p, nth_error rows i = Some row -> all_off thr row -> nth_error power i = Some (Fin p) -> p = 0.
Hypothesis first_up : ~ down thr rows q 0.

Lemma down_zero : forall i, (i < n)%nat -> down thr rows q i -> nth_error power i = Some (Fin 0).
Proof.
  intros i Hi (j & F & N). destruct (row_at i Hi) as (row & p & E & P & H). rewrite P. apply (f_equal (fun x => Some (Fin x))).
  destruct (Nat.eq_dec j i) as [-> | D].
  - destruct F as (_ & row' & E' & A). assert (row' = row) as -> by congruence. exact (off_zero i row p E A P).
  - assert (q i <= 0) as Q by (apply N; lia). destruct H as [(_ & H & _) | (A & _)]; [exfalso; qlra | exact (off_zero i row p E A P)].
Qed.

Lemma meter_still : forall a b, down_from_to thr rows q a b -> exists a', a = S a' /\ forall i, (a <= i <= b)%nat -> m i = m a'.
Proof.
  intros a b ((Lab & Lb) & H & _). rewrite rows_length in Lb. destruct a as [| a']; [destruct (first_up (H 0%nat ltac:(lia))) |]. exists a'. split; [reflexivity |].
  induction i as [| i IH]; intros L; [lia |]. rewrite (m_counts i 0 (down_zero (S i) ltac:(lia) (H (S i) L))), Qcmult_0_l, Qcplus_0_r.
  destruct (Nat.eq_dec i a') as [-> | D]; [reflexivity | apply IH; lia].
Qed.

Lemma sum_rows_ext : forall f g a b, (forall i, (a <= i <= b)%nat -> f i = g i) -> sum_rows f a b = sum_rows g a b.
Proof. intros f g a b H. unfold sum_rows. f_equal. apply map_ext_in. intros i Hi. unfold rows_from in Hi. apply in_seq in Hi. apply H. lia. Qed.
Lemma sum_rows_first : forall f a b, (a <= b)%nat -> sum_rows f a b = f a + sum_rows f (S a) b.
Proof. intros f a b L. unfold sum_rows, rows_from. replace (S b - a)%nat with (S (S b - S a)) by lia. cbn [seq map]. rewrite qsum_cons. reflexivity. Qed.
Lemma sum_rows_scale : forall x f a b, sum_rows (fun i => x * f i) a b = x * sum_rows f a b.
Proof. intros x f a b. unfold sum_rows. generalize (rows_from a b) as r. induction r as [| i r IH]; [cbn; ring |]. cbn [map]. rewrite !qsum_cons, IH. ring. Qed.

Lemma missed_after : forall a b, missed (hours w) c q (S a) b = c * energy_after (hours w) q a b.
Proof. intros a b. unfold missed, energy_after. rewrite <- sum_rows_scale. apply sum_rows_ext. intros i Hi. destruct (Nat.eqb_spec i 0); [lia | ring]. Qed.

Definition reported_lost (a b i : nat) : Qc := c * q i * (missed (hours w) c q a b / missed (hours w) c q (S a) b).

Lemma honest_run : exists r, run freq (evenly t0 w n) k power rows cum expected low sizes limits (q1, q2) period = Ok r /\
  r_loss_subsystem r = map (fun _ => Fin 0) power /\
  length (r_loss_system r) = n /\ length (r_corrected r) = n /\ noinf (r_loss_system r) /\ noinf (r_corrected r) /\
  (forall a b, In (a, b) (map (fun o => (o_start o, o_end o)) (r_outages r)) <-> down_from_to thr rows q a b) /\
  (forall o, In o (r_outages r) -> o_type o = Real /\ o_loss o = Fin (missed (hours w) c q (o_start o) (o_end o))) /\
  (forall i, (i < n)%nat -> ~ down thr rows q i -> nth_error (r_loss_system r) i = Some (Fin 0) /\ nth_error (r_corrected r) i = Some (Fin (m i))) /\
  forall a b i, down_from_to thr rows q a b -> (a <= i <= b)%nat ->
    nth_error (r_loss_system r) i = Some (Fin (reported_lost a b i)) /\
    nth_error (r_corrected r) i = Some (if (i =? a)%nat then NaN else Fin (m i)).
Proof.
  destruct exact_outages as (r & Er & A1 & A2 & (A3 & A4) & A5 & A6 & A7 & A8 & A9 & A10). exists r. split; [exact Er |]. split; [exact A1 |]. split; [exact A5 |]. split; [exact A6 |]. split; [exact A7 |]. split; [exact A8 |]. split; [exact A4 |].
  assert (forall o, In o (r_outages r) -> let a := o_start o in let b := o_end o in let E := missed (hours w) c q a b in exists a', a = S a' /\
    o_type o = Real /\ o_loss o = Fin E /\ rebuilt (hours w) q a b E 0 (m a') (r_loss_system r) (r_corrected r)) as K.
  { intros o Ho a b E. assert (down_from_to thr rows q a b) as H by (apply A4, in_map_iff; exists o; auto).
    destruct (meter_still a b H) as (a' & Ea & S). assert (b < n)%nat as Lb by (destruct H as ((_ & Lb) & _); lia). assert (a <= b)%nat as Lab by (destruct H as ((La & _) & _); lia).
    exists a'. split; [exact Ea |]. destruct (A10 o Ho (Fin (m a')) (Fin (m b))) as (P & _ & _ & _ & [(U & _) | [(s & t & Hs & Ht & _ & _ & T & L & R) | (s & t & Hs & Ht & G & _)]]).
    - left. exists a'. split; [exact Ea | apply cum_is; lia].
    - apply cum_is. exact Lb.
    - exfalso. fold a b in P, U. fold E in P, U. assert (metered (Fin (m a')) (Fin (m b)) 0) as M by (exists (m a'), (m b); split; [reflexivity |]; split; [reflexivity |]; rewrite (S b) by lia; ring).
      destruct U as [U | (x & (u & v & Hu & Hv & ->) & U)]; [exact (U 0 M) |]. injection Hu as <-. injection Hv as <-. rewrite (S b) in U by lia.
      assert (0 < qf 5 100 * E) by (apply Qc_mul_pos; [reflexivity | exact P]). qlra.
    - injection Hs as <-. injection Ht as <-. fold a b in L, R. fold E in L, R. assert (m b - m a' = 0) as Z by (rewrite (S b) by lia; ring). rewrite Z in L, R.
      assert (E - 0 = E) as ZE by ring. rewrite ZE in L, R. auto.
    - exfalso. injection Hs as <-. injection Ht as <-. fold a b in G, P. fold E in G, P. assert (m b - m a' = 0) as Z by (rewrite (S b) by lia; ring). rewrite Z in G. qlra. }
  split; [intros o Ho; destruct (K o Ho) as (a' & _ & K1 & K2 & _); auto |]. split.
  { intros i Hi D. destruct (A9 i Hi D) as [B1 B2]. rewrite B2, (cum_is i Hi). auto. }
  intros a b i H L. pose proof H as H'. apply A4 in H'. apply in_map_iff in H'. destruct H' as (o & Eo & Ho). injection Eo as Ea Eb.
  destruct (K o Ho) as (a' & Ea' & _ & _ & R). rewrite Ea, Eb in R. rewrite Ea in Ea'. destruct (R i L) as [R1 R2]. rewrite R1, R2. split.
  - apply (f_equal (fun x => Some (Fin x))). unfold reported_lost. rewrite missed_after. pose proof (after_pos a b H) as P. field. split; apply Qc_pos_neq; assumption.
  - destruct (meter_still a b H) as (a'' & E'' & S). assert (a'' = a') as -> by congruence. rewrite (S i L), Qcmult_0_l, Qcplus_0_r. reflexivity.
Qed.

(** ** Outages that start in the dark *)

Hypothesis dark_starts : forall a b, down_from_to thr rows q a b -> q a = 0.

Lemma lost_exact : forall r, run freq (evenly t0 w n) k power rows cum expected low sizes limits (q1, q2) period = Ok r ->
  forall i, (i < n)%nat -> nth_error (r_loss_system r) i = Some (Fin (c * q i - known_at power i)).
Proof.
  intros r Er i Hi. destruct honest_run as (r' & Er' & _ & _ & _ & _ & _ & _ & _ & B1 & B2). assert (r' = r) as -> by congruence.
  assert (length l = n) as Ll by (unfold l, daylight_offline; rewrite zip_length, masks_length, expected_length; lia).
  destruct (flag (full_outage l) i) eqn:F.
  - apply full_outage_spec in F; [| lia]. destruct (run_around l i ltac:(lia) F) as (a & b & Lab & H). rewrite Ll in H. apply outage_iff in H.
    destruct (B2 a b i H Lab) as [E _]. rewrite E. apply (f_equal (fun x => Some (Fin x))). unfold known_at. apply (down_iff i Hi) in F. rewrite (nth_error_nth power i NaN (down_zero i Hi F)). cbn [known_or_0].
    unfold reported_lost. assert (missed (hours w) c q a b = missed (hours w) c q (S a) b) as ->.
    { unfold missed. rewrite sum_rows_first by lia. rewrite (dark_starts a b H). destruct (a =? 0)%nat; ring. }
    pose proof (after_pos a b H) as P. rewrite missed_after. field. split; apply Qc_pos_neq; assumption.
  - assert (~ down thr rows q i) as N by (rewrite <- (down_iff i Hi); intros N; apply full_outage_spec in N; [congruence | lia]). destruct (B1 i Hi N) as [E _]. rewrite E.
    apply (f_equal (fun x => Some (Fin x))). destruct (row_at i Hi) as (row & p & Erow & P & H). unfold known_at. rewrite (nth_error_nth power i NaN P). cbn [known_or_0].
    destruct H as [(_ & _ & ->) | (A & _)]; [ring |]. rewrite (off_zero i row p Erow A P). assert (q i = 0) as ->; [| ring].
    pose proof (q_nonneg i Hi). destruct (Qclt_le_dec 0 (q i)) as [Q | Q]; [| qlra]. exfalso. apply N. exists i. split; [split; [exact Q |]; exists row; auto | intros j Hj; lia].
Qed.

Lemma lost_periods : exists r, run freq (evenly t0 w n) k power rows cum expected low sizes limits (q1, q2) period = Ok r /\
  let time i := (t0 + w * Z.of_nat i)%Z in
  let short i := (c * q i - known_at power i) * hours w in
  (forall p x a v, In (p, (x, a, v)) (r_results r) ->
    x = (if (p <? period (time 1%nat))%Z then NaN else Fin (sum_rows (fun i => if (period (time i) =? p)%Z then short i else 0) 1 (n - 1)))) /\
  qsum (map (fun y => known_or_0 (fst (fst (snd y)))) (r_results r)) = sum_rows (fun i => c * q i * hours w) 1 (n - 1) - (m (n - 1)%nat - m 0%nat).
Proof.
  destruct honest_run as (r & Er & Z & L1 & L2 & N1 & N2 & _). exists r. split; [exact Er |]. intros time short. pose proof (lost_exact r Er) as X.
  assert (forall i, (i < n)%nat -> total_at (r_loss_system r) (r_loss_subsystem r) i = Some (c * q i - known_at power i)) as T.
  { intros i Hi. unfold total_at. rewrite (nth_error_nth _ i NaN (X i Hi)), Z, nth_const by lia. f_equal. ring. }
  assert (exists i x, (i < n)%nat /\ total_at (r_loss_system r) (r_loss_subsystem r) i = Some x) as T0 by (exists 0%nat; eexists; split; [lia | apply T; lia]).
  assert (length (r_loss_subsystem r) = n) as L3 by (rewrite Z, map_length; exact power_length).
  assert (noinf (r_loss_subsystem r)) as N3 by (rewrite Z; apply zeros_noinf).
  assert (forall i, (1 <= i <= n - 1)%nat -> lost_in (hours w) (r_loss_system r) (r_loss_subsystem r) i = short i) as S.
  { intros i Hi. unfold lost_in. rewrite (T i), (T (i - 1)%nat) by lia. reflexivity. }
  split.
  - destruct (run_reports freq t0 w n k power rows cum expected low sizes limits (q1, q2) period r Er w_pos n_two period_mono L1 L3 L2 N1 N3 N2 T0) as (_ & _ & R).
    intros p x a v Hin. destruct (R p x a v Hin) as (R1 & R2 & _). fold (time 1%nat) in R1, R2. destruct (Z.ltb_spec p (period (time 1%nat))) as [A | A]; [exact (R1 A) |].
    rewrite (R2 A). apply (f_equal Fin). apply sum_rows_ext. intros i Hi. rewrite (S i Hi). reflexivity.
  - assert (combine_losses freq period (evenly t0 w n) (r_loss_system r) (r_loss_subsystem r) (r_corrected r) = Ok (r_results r)) as C.
    { unfold run in Er. destruct (calc_loss_subsystem k low sizes limits power rows) as [masks' loss]. destruct (calc_error_distributions freq (evenly t0 w n) loss power expected (q1, q2)) as [e |]; [| discriminate]. cbn [bind] in Er.
      destruct (calc_loss_system freq (evenly t0 w n) masks' e expected cum) as [[os [lost corrected]] |]; [| discriminate]. cbn [bind fst snd] in Er.
      destruct (combine_losses freq period (evenly t0 w n) lost loss corrected) as [res |] eqn:C; [| discriminate]. cbn [bind] in Er. injection Er as <-. exact C. }
    rewrite (lost_total freq t0 w n period _ _ _ _ w_pos n_two period_mono L1 L3 L2 N1 N3 N2 T0 C). rewrite (sum_rows_ext _ short) by (intros i Hi; apply S; lia).
    assert (forall j, (j < n)%nat -> sum_rows short 1 j = sum_rows (fun i => c * q i * hours w) 1 j - (m j - m 0%nat)) as K; [| apply K; lia].
    induction j as [| j IH]; intros Hj; [unfold sum_rows, rows_from; cbn; ring |].
    assert (forall f, sum_rows f 1 (Datatypes.S j) = sum_rows f 1 j + f (Datatypes.S j)) as SL.
    { intros f. unfold sum_rows, rows_from. replace (Datatypes.S (Datatypes.S j) - 1)%nat with (Datatypes.S j) by lia. replace (Datatypes.S j - 1)%nat with j by lia. rewrite seq_S, map_app, qsum_app. cbn [map]. rewrite qsum_cons. cbn [qsum Nat.add]. change (qsum []) with 0. ring. }
    rewrite !SL, IH by lia. destruct (row_at (Datatypes.S j) Hj) as (row & p & _ & P & _). rewrite (m_counts j p P). unfold short, known_at. rewrite (nth_error_nth power (Datatypes.S j) NaN P). cbn [known_or_0]. ring.
Qed.
End Exact.
