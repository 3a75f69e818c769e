(** Proofs about evenly soiling arrays: the days and the intervals. *)

From Coq Require Import QArith Qcanon List ZArith Bool Arith Lia String Sorted.
From Verif.Base Require Import QcExtra ISort Quantile Fl TimeSeries Calendar Rolling Segments.
From Verif.Spec Require Import Stats Filters Theil Soiling SoilingTable Clean Sawtooth.
From Verif.Model Require Import Soiling.
From Verif.Proofs Require Import FlP StatsP FiltersP2 SoilP SoilP2 SoilP3 SoilP4 SoilP5 SoilP9 SoilP10 SoilP13 CleanP SawP.
Import ListNotations.
Open Scope list_scope.
Open Scope Qc_scope.

(** ** Blocks *)

Lemma tiles_iff : forall (ev ev' : nat -> Prop) n, (forall i, (i < n)%nat -> (ev i <-> ev' i)) -> forall a l, tiles ev n a l -> tiles ev' n a l.
Proof.
  intros ev ev' n H a l T. induction T as [a L N|a b l L1 L2 N E T IH].
  - apply tiles_last; [exact L|]. intros i I C. apply (N i I). apply H; [lia|exact C].
  - apply tiles_more; [exact L1|exact L2| | |exact IH]; [intros i I C; apply (N i I); apply H; [lia|exact C]|apply H; [exact L2|exact E]].
Qed.
Lemma tile_at : forall ev n a0 l, tiles ev n a0 l -> forall a b, In (a, b) l ->
  (a = a0 \/ ev a) /\ (a0 <= a)%nat /\ (a <= b < n)%nat /\ (forall i, (a < i <= b)%nat -> ~ ev i) /\ (S b = n \/ ((S b < n)%nat /\ ev (S b))).
Proof.
  intros ev n a0 l T. induction T as [a0 L N|a0 b0 l L1 L2 N E T IH]; intros a b I.
  - destruct I as [I|[]]. injection I as <- <-. split; [left; reflexivity|]. split; [lia|]. split; [lia|]. split; [intros i J; apply N; lia|left; lia].
  - destruct I as [I|I].
    + injection I as <- <-. split; [left; reflexivity|]. split; [lia|]. split; [lia|]. split; [exact N|right; split; assumption].
    + destruct (IH a b I) as (A & B & C & D & F). split; [right; destruct A as [->|A]; assumption|]. split; [lia|]. split; [exact C|]. split; [exact D|exact F].
Qed.
Lemma tiles_some : forall ev n a l, tiles ev n a l -> l <> [].
Proof. intros ev n a l T. destruct T; discriminate. Qed.

Lemma last_clean_unique : forall wet i c c', last_clean wet i c -> last_clean wet i c' -> c = c'.
Proof.
  intros wet i c c' (A & B & C) (A' & B' & C'). destruct (Nat.lt_trichotomy c c') as [L|[L|L]]; [|exact L|]; exfalso.
  - destruct B' as [B'|B']; [lia|]. apply (C c'); [lia|exact B'].
  - destruct B as [B|B]; [lia|]. apply (C' c); [lia|exact B].
Qed.

Lemma all_exist : forall A B (P : A -> B -> Prop) l, (forall x, In x l -> exists y, P x y) -> exists m, Forall2 P l m.
Proof.
  induction l as [|x l IH]; intros H; [exists []; constructor|]. destruct (H x (or_introl eq_refl)) as (y & Y). destruct (IH (fun z Z => H z (or_intror Z))) as (m & M). exists (y :: m). constructor; assumption.
Qed.
Lemma two_nth : forall A B (P : A -> B -> Prop) l m, Forall2 P l m -> forall i x, nth_error l i = Some x -> exists y, nth_error m i = Some y /\ P x y.
Proof. intros A B P l m H. induction H as [|x y l m H1 H2 IH]; intros [|i] z E; try discriminate E; [injection E as <-; exists y; split; [reflexivity|exact H1]|apply IH; exact E]. Qed.
Lemma two_nth' : forall A B (P : A -> B -> Prop) l m, Forall2 P l m -> forall i y, nth_error m i = Some y -> exists x, nth_error l i = Some x /\ P x y.
Proof. intros A B P l m H. induction H as [|x y l m H1 H2 IH]; intros [|i] z E; try discriminate E; [injection E as <-; exists x; split; [reflexivity|exact H1]|apply IH; exact E]. Qed.
Lemma two_of_nth : forall A B (P : A -> B -> Prop) l m, List.length l = List.length m -> (forall i x y, nth_error l i = Some x -> nth_error m i = Some y -> P x y) -> Forall2 P l m.
Proof.
  induction l as [|x l IH]; intros [|y m] L H; try discriminate L; [constructor|]. constructor; [exact (H 0%nat x y eq_refl eq_refl)|]. apply IH; [cbn in L; lia|]. intros i u v. exact (H (S i) u v).
Qed.
Lemma two_length : forall A B (P : A -> B -> Prop) l m, Forall2 P l m -> List.length l = List.length m.
Proof. intros A B P l m H. induction H; cbn; congruence. Qed.
Lemma block_at : forall A (l : list A) a b, (a <= b)%nat -> forall i, (i <= b - a)%nat -> nth_error (block l (a, b)) i = nth_error l (a + i).
Proof. intros A l a b L i I. unfold block. cbn [fst snd]. rewrite nth_error_firstn. replace (i <? S b - a)%nat with true by (symmetry; apply Nat.ltb_lt; lia). apply nth_error_skipn. Qed.
Lemma block_length : forall A (l : list A) a b, (a <= b < List.length l)%nat -> List.length (block l (a, b)) = S (b - a).
Proof. intros A l a b L. unfold block. cbn [fst snd]. rewrite firstn_length, skipn_length. lia. Qed.

(** ** Days *)

Section Saw.
Variables (pm insolation : series) (precip : option series) (day_scale : nat) (thr : option Qc) (rc : bool) (c : string) (pthr factor a : Qc) (rate : nat -> Qc) (share : list Qc) (step top : Qc).
Let s := scaled_by a pm.
Let wet := cleaning c (shift day_scale thr factor s) (rain precip pthr s).
Hypothesis PA : 0 < a.
Hypothesis SAW : teeth a top rate wet pm share.
Hypothesis RATE : forall k, 0 <= rate k /\ rate k < step.
Hypothesis INIT : srr_init pm insolation precip = Ok tt.
Hypothesis PR : match precip with None => True | Some q => noinf (vals q) end.
Hypothesis SUN : sunny pm insolation.
Hypothesis KC : known_criterion c.
Hypothesis DS : (1 <= day_scale)%nat.
Hypothesis REN : is_renorm rc pm a.
Let n := List.length pm.

Lemma saw_times : day_by_day (times pm).
Proof. exact (proj1 (proj1 (proj1 (srr_init_spec pm insolation precip)) INIT)). Qed.
Lemma saw_len : List.length share = n.
Proof. symmetry. exact (two_length _ _ _ _ _ (proj1 SAW)). Qed.
Lemma saw_pm : forall i t v, nth_error pm i = Some (t, v) -> exists p, nth_error share i = Some p /\ v = Fin (a * p) /\ 0 < p.
Proof. intros i t v E. destruct (two_nth _ _ _ _ _ (proj1 SAW) _ _ E) as (p & P1 & P2 & P3). exists p. split; [exact P1|]. split; assumption. Qed.
Lemma saw_share : forall i p k, nth_error share i = Some p -> last_clean wet i k -> p = top - rate k * qz (Z.of_nat (i - k)).
Proof. intros i p k E L. destruct (proj2 SAW i p E) as (k' & L' & ->). rewrite (last_clean_unique _ _ _ _ L L'). reflexivity. Qed.
Lemma saw_pos : forall i p, nth_error share i = Some p -> 0 < p.
Proof. intros i p E. destruct (two_nth' _ _ _ _ _ (proj1 SAW) _ _ E) as (r & _ & _ & P). exact P. Qed.
Lemma saw_one : forall i p, nth_error share i = Some p -> p <= top.
Proof.
  intros i p E. destruct (proj2 SAW i p E) as (k & L & ->). assert (0 <= rate k * qz (Z.of_nat (i - k))) by (apply Qc_mul_nonneg; [apply RATE|apply qz_nonneg; lia]). qlra.
Qed.
Lemma saw_down : forall i x y, nth_error share i = Some x -> nth_error share (S i) = Some y -> x - step < y.
Proof.
  intros i x y X Y. pose proof (saw_one i x X) as X1. destruct (proj2 SAW (S i) y Y) as (k & (L1 & L2 & L3) & EY). destruct (RATE k) as [R0 R1].
  destruct (Nat.eq_dec k (S i)) as [->|N].
  - rewrite Nat.sub_diag in EY. change (qz (Z.of_nat 0)) with 0 in EY. rewrite EY. qlra.
  - assert (LC : last_clean wet i k) by (split; [lia|]; split; [exact L2|]; intros j J; apply L3; lia). rewrite (saw_share i x k X LC), EY.
    replace (S i - k)%nat with (S (i - k)) by lia. rewrite Nat2Z.inj_succ, <- Z.add_1_r. rewrite qz_add. change (qz 1) with 1. qnra.
Qed.

Lemma saw_scaled : vals s = map Fin share.
Proof.
  unfold s. pose proof (proj1 SAW) as H. clear -H PA. induction H as [|[t v] p l m [H1 _] H2 IH]; [reflexivity|]. cbn [snd] in H1. subst v. cbn [scaled_by map vals fst snd]. f_equal; [|exact IH].
  f_equal. unfold Qcdiv. rewrite (Qcmult_comm a p), <- Qcmult_assoc, Qcmult_inv_r; [ring|]. intros C. rewrite C in PA. discriminate PA.
Qed.
Lemma scaled_times : times s = times pm.
Proof. unfold s, scaled_by, times. rewrite map_map. reflexivity. Qed.
Lemma scaled_at : forall i t v, nth_error s i = Some (t, v) -> exists p, nth_error share i = Some p /\ v = Fin p.
Proof.
  intros i t v E. assert (X : nth_error (vals s) i = Some v) by (unfold vals; rewrite nth_error_map_some, E; reflexivity). rewrite saw_scaled, nth_error_map_some in X.
  destruct (nth_error share i) as [p|]; [|discriminate X]. injection X as <-. exists p. split; reflexivity.
Qed.
Lemma saw_carried : carried_series day_scale s s.
Proof.
  split; [reflexivity|]. intros i t v E. left. destruct (scaled_at i t v E) as (p & _ & ->). exists p. split; [reflexivity|]. exists i, t. split; [lia|]. split; [exact E|]. intros m M. lia.
Qed.
Lemma no_gap : forall i, ~ gap_after day_scale s i /\ ~ gap_before day_scale s i.
Proof.
  intros i. split.
  - intros [_ H]. destruct (H (S i) ltac:(lia)) as (t & E). destruct (scaled_at _ _ _ E) as (p & _ & C). discriminate C.
  - intros [_ [L H]]. destruct (H (i - 1)%nat ltac:(lia) ltac:(lia)) as (t & E). destruct (scaled_at _ _ _ E) as (p & _ & C). discriminate C.
Qed.
Lemma saw_some : pm <> [].
Proof. intros C. pose proof (proj1 saw_times) as L. rewrite C in L. cbn in L. lia. Qed.
Lemma saw_span : valid_span pm pm.
Proof.
  exists [], []. split; [rewrite app_nil_r; reflexivity|]. split; [intros r []|]. assert (NN : forall t v, In (t, v) pm -> v <> NaN).
  { intros t v I. apply In_nth_error in I. destruct I as (i & E). destruct (saw_pm _ _ _ E) as (p & _ & -> & _). discriminate. }
  pose proof saw_some as NE. split.
  - destruct pm as [|[t v] l]; [contradiction|]. exists t, v, l. split; [reflexivity|]. apply (NN t). left. reflexivity.
  - destruct (exists_last NE) as (l & [t v] & E). exists t, v, l. split; [exact E|]. apply (NN t). rewrite E. apply in_or_app. right. left. reflexivity.
Qed.

Lemma saw_days : exists rows pts, calc_daily_df pm insolation precip day_scale (option_map Fin thr) rc c (Fin pthr) (Fin factor) = Ok (Fin a, rows) /\ map d_date rows = times pm /\ Forall2 shows rows pts /\
  (forall i p, nth_error pts i = Some p -> p_day p = Z.of_nat i /\ nth_error share i = Some (p_pi p) /\ - step < p_step p) /\
  (forall i d, nth_error rows i = Some d -> (d_event d = true <-> wet i) /\ exists w, d_insol d = Fin w /\ In (d_date d, Fin w) insolation /\ 0 < w).
Proof.
  destruct (init_sorted _ _ _ _ INIT) as (SI & SJ & _).
  assert (PS : match precip with None => True | Some q => sorted_index q /\ noinf (vals q) end).
  { destruct precip as [q|] eqn:EP; [|exact I]. split; [|exact PR]. pose proof INIT as J. unfold srr_init in J. destruct (inferred_daily (times q)) eqn:E; [apply inferred_sorted; exact E|]. rewrite andb_false_r in J. discriminate J. }
  assert (NP : noinf (vals pm)).
  { intros x I. unfold vals in I. apply in_map_iff in I. destruct I as ([t v] & <- & I). cbn [snd]. apply In_nth_error in I. destruct I as (i & E). destruct (saw_pm _ _ _ E) as (p & _ & -> & _). split; discriminate. }
  assert (NI : noinf (vals insolation)).
  { intros x I. unfold vals in I. apply in_map_iff in I. destruct I as ([t v] & <- & I). cbn [snd]. destruct (proj1 SUN t v I) as [->|(q & -> & _)]; split; discriminate. }
  assert (NA : a <> 0) by (intros C; rewrite C in PA; discriminate PA).
  destruct (proj2 (daily_spec pm insolation precip day_scale thr rc c pthr factor pm a NP saw_span REN NA DS SJ NI PS) KC) as (rows & E & ED & H). fold s in H. fold wet in H.
  assert (LR : List.length rows = n) by (rewrite <- (map_length d_date), ED; apply map_length).
  assert (SH : forall i d, nth_error rows i = Some d -> exists p x, nth_error share i = Some p /\ d_pi_norm d = Fin p /\ d_delta d = Fin x /\ - step < x).
  { intros i d Ei. destruct (H i d Ei) as (_ & _ & HP & HD & _). specialize (HD s saw_carried).
    assert (exists p, nth_error share i = Some p /\ d_pi_norm d = Fin p) as (p & P1 & P2).
    { destruct HP as [(x & X & Y)|[X _]]; destruct (scaled_at _ _ _ X) as (p & P & Q); [injection Q as ->; exists p; split; assumption|discriminate Q]. }
    assert (exists x, d_delta d = Fin x /\ - step < x) as (x & X1 & X2).
    { destruct HD as [(x & X & Y)|[_ Y]]; [exists x; split; [exact Y|]; exact (step_near day_scale s share step i x DS saw_scaled saw_down X)|]. exists 0. split; [exact Y|]. destruct (RATE 0%nat). qlra. }
    exists p, x. repeat split; assumption. }
  destruct (all_exist _ _ shows rows) as (pts & PT).
  { intros d I. apply In_nth_error in I. destruct I as (i & Ei). destruct (SH i d Ei) as (p & x & _ & P & X & _). exists (d_day d, p, x). split; [reflexivity|]. split; assumption. }
  exists rows, pts. split; [exact E|]. split; [exact ED|]. split; [exact PT|]. split.
  - intros i p Ei. destruct (two_nth' _ _ _ _ _ PT i p Ei) as (d & Ed & S1 & S2 & S3). destruct (SH i d Ed) as (q & x & Q & Q2 & X & X2). destruct (H i d Ed) as (HD & _).
    rewrite S2 in Q2. injection Q2 as ->. rewrite S3 in X. injection X as ->. split; [rewrite <- S1; exact HD|]. split; assumption.
  - intros i d Ei. destruct (H i d Ei) as (_ & (x & X & VX) & _ & _ & EV & _). destruct (no_gap i) as [G1 G2]. split; [rewrite EV; tauto|].
    assert (ET : nth_error (times pm) i = Some (d_date d)) by (rewrite <- ED, nth_error_map_some, Ei; reflexivity). unfold times in ET. rewrite nth_error_map_some in ET.
    destruct (nth_error pm i) as [[t v]|] eqn:EP; [|discriminate ET]. cbn [option_map fst] in ET. injection ET as ->. destruct (saw_pm _ _ _ EP) as (p & _ & -> & _).
    destruct (proj2 SUN _ _ (nth_error_In _ _ EP)) as (w & W & W0). exists w. split; [|split; assumption]. destruct VX as [VX|[_ VX]]; [|contradiction (VX w)]. rewrite X. f_equal.
    pose proof (lookup_In _ _ _ SJ W) as L1. pose proof (lookup_In _ _ _ SJ VX) as L2. rewrite L1 in L2. injection L2 as ->. reflexivity.
Qed.

(** ** Intervals *)

Variables (margin : list (Z * Qc) -> Qc) (minimum : Z) (limit : Qc).
Hypothesis MARGIN : forall pts, 0 <= margin pts.
Hypothesis MIN : (1 <= minimum)%Z.
Hypothesis LIMIT : 0 < limit.
Hypothesis DRY : long_dry minimum wet n.

Lemma saw_clean : forall l x y, tiles wet n 0 l -> In (x, y) l -> (x <= y < n)%nat /\ (forall i, (x <= i <= y)%nat -> last_clean wet i x) /\ (minimum < Z.of_nat (S (y - x)))%Z.
Proof.
  intros l x y T I. destruct (tile_at _ _ _ _ T x y I) as (A & _ & B & N & Z). split; [exact B|]. split.
  - intros i J. split; [lia|]. split; [exact A|]. intros j K. apply N. lia.
  - destruct (DRY x ltac:(lia) A) as [D1 D2]. destruct Z as [Z|[Z1 Z2]]; [replace (S (y - x)) with (n - x)%nat by lia; exact D1|]. replace (S (y - x)) with (S y - x)%nat by lia. apply D2; [lia|exact Z2].
Qed.

Definition saw_pts (pts : list point) : Prop := List.length pts = n /\ forall i p, nth_error pts i = Some p -> p_day p = Z.of_nat i /\ nth_error share i = Some (p_pi p) /\ - step < p_step p.

Lemma saw_described : forall pts l x y i, saw_pts pts -> tiles wet n 0 l -> In (x, y) l -> described (theil_fit margin) minimum limit step (block pts (x, y)) x y i ->
  i_valid i = true /\ i_slope i = Fin (- rate x) /\ i_slope_low i = Fin (- rate x) /\ i_slope_high i = Fin (- rate x) /\ i_start_loss i = Fin top /\ i_end_loss i = Fin (top - rate x * qz (Z.of_nat (y - x))).
Proof.
  intros pts l x y i [LP HP] T I D. destruct (saw_clean l x y T I) as (B & LC & LM). set (bl := block pts (x, y)) in *.
  assert (LB : List.length bl = S (y - x)) by (apply block_length; lia).
  assert (HB : forall p, In p bl -> exists j, (x <= j <= y)%nat /\ p_day p = Z.of_nat j /\ p_pi p = top - rate x * qz (Z.of_nat (j - x)) /\ 0 < p_pi p /\ - step < p_step p).
  { intros p J. apply In_nth_error in J. destruct J as (k & E). assert (K : (k < List.length bl)%nat) by (apply nth_error_Some; rewrite E; discriminate). unfold bl in E. rewrite block_at in E by lia.
    destruct (HP _ _ E) as (P1 & P2 & P3). exists (x + k)%nat. split; [lia|]. split; [exact P1|]. split; [apply saw_share; [exact P2|apply LC; lia]|]. split; [exact (saw_pos _ _ P2)|exact P3]. }
  assert (PB : positive bl = bl).
  { assert (K : forall l : list point, (forall p, In p l -> 0 < p_pi p) -> positive l = l); [|apply K; intros p J; destruct (HB p J) as (j & _ & _ & _ & P & _); exact P].
    clear. induction l as [|p l IH]; intros H; [reflexivity|]. unfold positive in *. cbn [filter]. rewrite (proj2 (qlt_spec 0 (p_pi p)) (H p (or_introl eq_refl))). f_equal. apply IH. intros q Q. apply H. right. exact Q. }
  assert (FIT : theil_fit margin (map (fun p => (p_day p, Fin (p_pi p))) (positive bl)) = (Fin (- rate x), Fin (top + rate x * qz (Z.of_nat x)), Fin (- rate x), Fin (- rate x))).
  { rewrite PB. assert (EM : map (fun p => (p_day p, Fin (p_pi p))) bl = map (fun p => (fst p, Fin (snd p))) (map (fun p => (p_day p, p_pi p)) bl)) by (rewrite map_map; reflexivity).
    rewrite EM, theil_fit_finite. apply theil_line; [apply MARGIN| |].
    - intros u v J. apply in_map_iff in J. destruct J as (p & Q & J). injection Q as <- <-. destruct (HB p J) as (j & J1 & -> & -> & _). rewrite Nat2Z.inj_sub by lia. rewrite qz_sub. ring.
    - destruct (nth_error bl 0) as [p|] eqn:E0; [|apply nth_error_None in E0; lia]. destruct (nth_error bl 1) as [q|] eqn:E1; [|apply nth_error_None in E1; lia].
      exists (p_day p, p_pi p), (p_day q, p_pi q). split; [apply (in_map (fun p => (p_day p, p_pi p))); exact (nth_error_In _ _ E0)|]. split; [apply (in_map (fun p => (p_day p, p_pi p))); exact (nth_error_In _ _ E1)|].
      unfold bl in E0, E1. rewrite block_at in E0, E1 by lia. destruct (HP _ _ E0) as (-> & _). destruct (HP _ _ E1) as (-> & _). cbn [fst]. lia. }
  destruct D as (_ & _ & _ & D). cbv zeta in D. assert (EN : positive bl <> [] /\ (minimum < Z.of_nat (List.length (positive bl)))%Z) by (rewrite PB; split; [intros C; rewrite C in LB; discriminate LB|rewrite LB; exact LM]).
  destruct (D EN _ _ _ _ FIT) as (V & S & SL & EL). destruct (RATE x) as [R0 R1]. assert (QM : qmin 0 (- rate x) = - rate x) by (unfold qmin; destruct (qle 0 (- rate x)) eqn:Q; qb; [apply Qcle_antisym; qlra|reflexivity]). rewrite QM in V, S.
  assert (VV : i_valid i = true).
  { apply V. split; [qlra|]. split.
    - destruct (qle (rate x) 0) eqn:Q; qb; [right; split; [|apply Qcle_refl]; assert (rate x = 0) as -> by (apply Qcle_antisym; assumption); ring|].
      left. replace (qz 100 * (- rate x - - rate x)) with 0 by ring. apply Qc_mul_pos; [exact LIMIT|]. unfold qabs. destruct (qle 0 (- rate x)) eqn:Q'; qb; qlra.
    - intros u J. rewrite PB in J. apply in_map_iff in J. destruct J as (p & <- & J). destruct (HB p J) as (j & _ & _ & _ & _ & P). exact P. }
  destruct (S VV) as (S1 & S2 & S3). split; [exact VV|]. split; [exact S1|]. split; [exact S2|]. split; [exact S3|]. split.
  - rewrite SL. f_equal. ring.
  - rewrite EL. f_equal. rewrite Nat2Z.inj_sub by lia. rewrite qz_sub. ring.
Qed.

Definition saw_out (rows : list day_row) (l : list (nat * nat)) (out : srr_intervals) : Prop :=
  tiles wet n 0 l /\ Forall2 (recovered top rate pm) l (map fst (s_table out)) /\
  Forall2 (fun ab i => i_length i = (Z.of_nat (snd ab) - Z.of_nat (fst ab))%Z) l (map fst (s_table out)) /\
  (forall k x y rec i, nth_error l k = Some (x, y) -> nth_error (s_table out) k = Some (i, rec) -> (S k < List.length l)%nat -> rec = Fin (clip_unit (clip_unit top - (top - rate x * qz (Z.of_nat (y - x)))))) /\
  well_formed out /\ Forall2 (fun d e => a_date e = d_date d /\ a_insol e = d_insol d) rows (s_daily out).

Lemma saw_table : exists rows l out, calc_daily_df pm insolation precip day_scale (option_map Fin thr) rc c (Fin pthr) (Fin factor) = Ok (Fin a, rows) /\ map d_date rows = times pm /\
  (forall i d, nth_error rows i = Some d -> exists w, d_insol d = Fin w /\ In (d_date d, Fin w) insolation /\ 0 < w) /\
  calc_result_df (theil_fit margin) rows false (Fin limit) (Fin step) minimum = Ok out /\ saw_out rows l out.
Proof.
  destruct saw_days as (rows & pts & E & ED & PT & HP & HR). assert (LR : List.length rows = n) by (rewrite <- (map_length d_date), ED; apply map_length).
  assert (LP : List.length pts = n) by (rewrite <- (two_length _ _ _ _ _ PT); exact LR).
  assert (EV : forall i, (i < List.length rows)%nat -> ((exists d, nth_error rows i = Some d /\ d_event d = true) <-> wet i)).
  { intros i L. destruct (nth_error rows i) as [d|] eqn:Ei; [|apply nth_error_None in Ei; lia]. destruct (HR i d Ei) as [K _]. rewrite <- K. split; [intros (d' & Q & R); injection Q as <-; exact R|intros R; exists d; split; [reflexivity|exact R]]. }
  destruct (table_spec _ _ _ _ _ _ _ _ _ _ _ _ E PT) as (l & T & HT). destruct (intervals_spec _ _ _ _ _ _ _ _ _ _ _ E) as (l' & T' & CC & HI). rewrite (tiles_unique _ _ _ _ _ T' T) in CC, HI. clear T' l'.
  destruct (HT (theil_fit margin) false limit step minimum) as (table & FT & _ & HO). clear HT. cbn [kept_blocks] in FT.
  pose proof (tiles_iff _ _ _ EV _ _ T) as TW. rewrite LR in TW.
  assert (FV : Forall2 (fun ab i => i_valid i = true /\ i_slope i = Fin (- rate (fst ab)) /\ i_slope_low i = Fin (- rate (fst ab)) /\ i_slope_high i = Fin (- rate (fst ab)) /\ i_start_loss i = Fin top /\ i_end_loss i = Fin (top - rate (fst ab) * qz (Z.of_nat (snd ab - fst ab)))) l table).
  { apply two_of_nth; [exact (two_length _ _ _ _ _ FT)|]. intros k [x y] i Ex Ei. destruct (two_nth _ _ _ _ _ FT k _ Ex) as (i' & Ei' & D). rewrite Ei in Ei'. injection Ei' as <-. cbn [fst snd] in *.
    apply (saw_described pts l x y i); [split; [exact LP|exact HP]|exact TW|exact (nth_error_In _ _ Ex)|exact D]. }
  assert (AV : forall i, In i table -> i_valid i = true) by (intros i I; apply In_nth_error in I; destruct I as (k & Ei); destruct (two_nth' _ _ _ _ _ FV k i Ei) as (ab & _ & V & _); exact V).
  destruct HO as (out & EO & EM & _ & HK).
  { destruct table as [|i table]; [inversion FT; subst l; contradiction (tiles_some _ _ _ _ TW); reflexivity|]. exists i. split; [left; reflexivity|apply AV; left; reflexivity]. }
  destruct (HI _ _ _ _ _ _ EO) as [FI FD]. cbn [kept_blocks] in FI, FD. rewrite CC in FD. destruct (init_sorted _ _ _ _ INIT) as (SI & _ & _). destruct (result_formed _ _ _ _ _ _ _ _ _ _ _ _ _ _ _ _ _ SI E EO) as (WF & _).
  exists rows, l, out. split; [exact E|]. split; [exact ED|]. split; [intros i d Ei; exact (proj2 (HR i d Ei))|]. split; [exact EO|].
  assert (LT : List.length (s_table out) = List.length l) by (symmetry; exact (two_length _ _ _ _ _ FI)).
  split; [exact TW|]. split; [|split; [|split; [|split; [exact WF|]]]].
  - rewrite EM. apply two_of_nth; [exact (two_length _ _ _ _ _ FT)|]. intros k [x y] i Ex Ei. destruct (two_nth _ _ _ _ _ FV k _ Ex) as (i' & Ei' & V). rewrite Ei in Ei'. injection Ei' as <-. cbn [fst snd] in V.
    destruct (two_nth _ _ _ _ _ FI k _ Ex) as (ir & Er & d & d' & (SP1 & SP2 & SP3) & S1 & S2 & _). cbn [fst snd] in *. assert (fst ir = i) as EI by (rewrite <- EM, nth_error_map_some, Er in Ei; injection Ei as Ei; exact Ei).
    unfold recovered. cbn [fst snd]. rewrite <- ED, !nth_error_map_some, SP2, SP3. cbn [option_map]. rewrite EI in S1, S2. rewrite S1, S2. split; [reflexivity|]. split; [reflexivity|]. exact V.
  - apply two_of_nth; [rewrite map_length; symmetry; exact LT|]. intros k ab i Ex Ei. destruct (two_nth _ _ _ _ _ FI k _ Ex) as (ir & Er & d & d' & _ & _ & _ & S3 & _). rewrite nth_error_map_some, Er in Ei. injection Ei as <-. exact S3.
  - intros k x y rec i Ex Ei L. destruct (HK k i rec Ei) as (_ & _ & K). assert (ET : nth_error table k = Some i) by (rewrite <- EM, nth_error_map_some, Ei; reflexivity).
    destruct (two_nth _ _ _ _ _ FV k _ Ex) as (i1 & E1 & V1 & _ & _ & _ & _ & V6). rewrite ET in E1. injection E1 as <-. cbn [fst snd] in V6.
    destruct (nth_error l (S k)) as [ab2|] eqn:Ex2; [|apply nth_error_None in Ex2; lia]. destruct (two_nth _ _ _ _ _ FV (S k) _ Ex2) as (i2 & E2 & V2 & _ & _ & _ & V5 & _).
    apply (K V1 (S k) i2); [|exact E2|exact V6|exact V5]. split; [lia|]. split; [rewrite nth_error_map_some, E2; cbn [option_map]; rewrite V2; reflexivity|intros m M; lia].
  - clear -FD. induction FD as [|d e rows es H FD IH]; constructor; [destruct H as (H1 & H2 & _); split; assumption|exact IH].
Qed.

(** ** Realisations *)

Variables (visit : list Z -> list Z) (method : string).
Hypothesis VISIT : forall l, set_order l (visit l).
Hypothesis METHOD : method = "perfect_clean"%string \/ (method = "half_norm_clean"%string /\ top = 1).
Let seen := map (fun p => 1 - (top - p)) share.

Lemma clip_rest : forall e, 0 < e -> e <= 1 -> clip_unit (e + clip_unit (clip_unit 1 - e)) = 1.
Proof.
  intros e P L. assert (clip_unit 1 = 1) as -> by reflexivity. assert (C : clip_unit (1 - e) = 1 - e).
  { unfold clip_unit, qmin, qmax. destruct (qle 1 (1 - e)) eqn:A; qb; [qlra|]. destruct (qle 0 (1 - e)) eqn:B; qb; [reflexivity|qlra]. }
  rewrite C. replace (e + (1 - e)) with 1 by ring. reflexivity.
Qed.

Lemma day_apart : forall i j t u, (i <= j)%nat -> nth_error (times pm) i = Some t -> nth_error (times pm) j = Some u -> ((u - t) / ns_day)%Z = Z.of_nat (j - i).
Proof.
  intros i j t u L T U. assert (K : forall k u, nth_error (times pm) (i + k) = Some u -> u = (t + Z.of_nat k * ns_day)%Z).
  { induction k as [|k IH]; intros v V; [rewrite Nat.add_0_r, T in V; injection V as <-; lia|]. rewrite Nat.add_succ_r in V. destruct (nth_error (times pm) (i + k)) as [w|] eqn:W.
    - rewrite (proj2 saw_times (i + k)%nat w v W V), (IH w eq_refl). lia.
    - apply nth_error_None in W. assert (S (i + k) < List.length (times pm))%nat by (apply nth_error_Some; rewrite V; discriminate). lia. }
  rewrite (K (j - i)%nat u) by (replace (i + (j - i))%nat with j by lia; exact U). replace (t + Z.of_nat (j - i) * ns_day - t)%Z with (Z.of_nat (j - i) * ns_day)%Z by lia. apply Z.div_mul. unfold ns_day. lia.
Qed.
Lemma date_order : forall i j t u, nth_error (times pm) i = Some t -> nth_error (times pm) j = Some u -> (t <= u)%Z -> (i <= j)%nat.
Proof.
  intros i j t u T U L. destruct (Nat.le_gt_cases i j) as [K|K]; [exact K|]. exfalso. destruct (init_sorted _ _ _ _ INIT) as (SI & _ & _). pose proof (sorted_nth (times pm) j i u t SI K U T). lia.
Qed.

Lemma saw_realization : forall rows l out, saw_out rows l out -> map d_date rows = times pm ->
  (forall i d, nth_error rows i = Some d -> exists w, d_insol d = Fin w /\ In (d_date d, Fin w) insolation /\ 0 < w) ->
  exists q, insolation_mean pm insolation seen q /\ forall d, realization method visit out d = Ok (map Fin seen, Fin q).
Proof.
  intros rows l out (T & FR & FL & HREC & WF & FD) ED HW.
  assert (LR : List.length rows = n) by (rewrite <- (map_length d_date), ED; apply map_length). assert (LD : List.length (s_daily out) = n) by (rewrite <- (two_length _ _ _ _ _ FD); exact LR).
  assert (LT : List.length (s_table out) = List.length l) by (rewrite (two_length _ _ _ _ _ FR), map_length; reflexivity).
  set (b := fun k => (- rate (fst (nth k l (0%nat, 0%nat))), - rate (fst (nth k l (0%nat, 0%nat))))).
  assert (ROW : forall k x y, nth_error l k = Some (x, y) -> recovered top rate pm (x, y) (row_at out k) /\ i_length (row_at out k) = (Z.of_nat y - Z.of_nat x)%Z /\ exists rec, nth_error (s_table out) k = Some (row_at out k, rec)).
  { intros k x y Ex. destruct (two_nth _ _ _ _ _ FR k _ Ex) as (i & Ei & R). destruct (two_nth _ _ _ _ _ FL k _ Ex) as (i' & Ei' & Le). rewrite Ei in Ei'. injection Ei' as <-.
    rewrite nth_error_map_some in Ei. destruct (nth_error (s_table out) k) as [[i1 rec]|] eqn:E1; [|discriminate Ei]. cbn [option_map fst] in Ei. injection Ei as ->.
    assert (EA : row_at out k = i) by (unfold row_at; rewrite (nth_error_nth _ _ _ E1); reflexivity). rewrite EA. split; [exact R|]. split; [exact Le|]. exists rec. reflexivity. }
  assert (TILE : forall k, (k < List.length (s_table out))%nat -> exists x y, nth_error l k = Some (x, y) /\ nth k l (0%nat, 0%nat) = (x, y)).
  { intros k K. destruct (nth_error l k) as [[x y]|] eqn:E; [|apply nth_error_None in E; lia]. exists x, y. split; [reflexivity|]. exact (nth_error_nth _ _ _ E). }
  assert (BD : bounded out b).
  { intros k K. destruct (TILE k K) as (x & y & Ex & En). destruct (ROW k x y Ex) as ((_ & _ & _ & _ & S2 & S3 & _) & _). unfold b. rewrite En. cbn [fst snd] in *. split; assumption. }
  assert (LSE : List.length seen = n) by (unfold seen; rewrite map_length; exact saw_len).
  assert (HQ : forall d, exists q, realization method visit out d = Ok (map Fin seen, Fin q) /\ weighted_mean (known_rows seen (map a_insol (s_daily out))) q).
  { intros d. assert (KM : known_method method) by (destruct METHOD as [->|[-> _]]; [right; right|left]; reflexivity).
    destruct (realization_spec visit out d WF VISIT b BD method KM) as (starts & profile & ratio & ER & LS & LPR & S1 & S2 & _ & _ & HP & HR & _).
    assert (SLOPE : forall k, between (b k) (dr_slope d k) = - rate (fst (nth k l (0%nat, 0%nat)))) by (intros k; unfold between, b; cbn [fst snd]; ring).
    assert (VAL : forall k, (k < List.length (s_table out))%nat -> nth_error (the_valid out) k = Some true).
    { intros k K. destruct (TILE k K) as (x & y & Ex & _). destruct (ROW k x y Ex) as ((_ & _ & V & _) & _ & rec & Er). unfold the_valid. rewrite nth_error_map_some, Er. cbn [option_map fst]. rewrite V. reflexivity. }
    assert (ONE : forall k, (k < List.length (s_table out))%nat -> nth k starts 0 = 1).
    { destruct METHOD as [M|[M TOP]]; [intros k K; exact (S1 M k K)|]. specialize (S2 M). induction k as [|k IH]; intros K.
      - apply (S2 0%nat (VAL 0%nat K)). intros m C. lia.
      - specialize (IH ltac:(lia)). destruct (S2 (S k) (VAL (S k) K)) as [_ H]. rewrite (H k); [|split; [lia|]; split; [apply VAL; lia|intros m C; lia]]. rewrite SLOPE, IH.
        destruct (TILE k ltac:(lia)) as (x & y & Ex & En). destruct (ROW k x y Ex) as (_ & Le & rec & Er). pose proof (HREC k x y rec _ Ex Er ltac:(lia)) as REC. rewrite En, Le. cbn [fst].
        assert (the_recovery out k = clip_unit (clip_unit top - (top - rate x * qz (Z.of_nat (y - x))))) as ->.
        { unfold the_recovery. rewrite (nth_error_nth _ _ _ (eq_trans (nth_error_map_some _ _ snd (s_table out) k) (f_equal (option_map snd) Er))). cbn [snd]. rewrite REC. reflexivity. }
        destruct (saw_clean l x y T (nth_error_In _ _ Ex)) as (B & LC & _).
        assert (exists p, nth_error share y = Some p) as (p & EP) by (destruct (nth_error share y) as [p|] eqn:EP; [exists p; reflexivity|apply nth_error_None in EP; rewrite saw_len in EP; lia]).
        pose proof (saw_share y p x EP (LC y ltac:(lia))) as PV. rewrite <- PV. pose proof (saw_one y p EP) as PO. rewrite TOP in PV, PO |- *. replace (1 + - rate x * qz (Z.of_nat y - Z.of_nat x)) with p by (rewrite PV, Nat2Z.inj_sub by lia; ring).
        unfold cleaned. rewrite clip_rest; [|exact (saw_pos _ _ EP)|exact PO]. replace (1 - 1) with 0 by ring. unfold Qcdiv. ring. }
    assert (PROF : profile = seen).
    { apply (nth_ext _ _ 0 0); [rewrite LPR, LD, LSE; reflexivity|]. intros p Hp. rewrite LPR, LD in Hp. destruct (nth_error (s_daily out) p) as [e|] eqn:Ee; [|apply nth_error_None in Ee; lia].
      destruct (two_nth' _ _ _ _ _ FD p e Ee) as (dr & Edr & A1 & _). assert (ETP : nth_error (times pm) p = Some (a_date e)) by (rewrite <- ED, nth_error_map_some, Edr, A1; reflexivity).
      destruct (wf_daily out WF e (nth_error_In _ _ Ee)) as (tr & Htr & Er & Es). apply In_nth_error in Htr. destruct Htr as (k & Ek). assert (Hk : (k < List.length (s_table out))%nat) by (apply nth_error_Some; rewrite Ek; discriminate).
      assert (ERW : row_at out k = fst tr) by (unfold row_at; rewrite (nth_error_nth _ _ _ Ek); reflexivity).
      rewrite (HP p e k Ee Hk) by (rewrite ERW; exact Er). rewrite (ONE k Hk), SLOPE. destruct (TILE k Hk) as (x & y & Ex & En). destruct (ROW k x y Ex) as ((D1 & D2 & _) & _). rewrite En. cbn [fst snd] in *. rewrite <- ERW in Es.
      pose proof (date_order x p _ _ D1 ETP ltac:(lia)) as O1. pose proof (date_order p y _ _ ETP D2 ltac:(lia)) as O2. rewrite (day_apart x p _ _ O1 D1 ETP).
      destruct (saw_clean l x y T (nth_error_In _ _ Ex)) as (B & LC & _). destruct (nth_error share p) as [q|] eqn:Eq; [|apply nth_error_None in Eq; rewrite saw_len in Eq; lia].
      rewrite (nth_error_nth seen p 0 (eq_trans (nth_error_map_some _ _ _ share p) (f_equal (option_map _) Eq))), (saw_share p q x Eq (LC p ltac:(lia))). ring. }
    subst profile. assert (NI : noinf (map a_insol (s_daily out))).
    { intros u I. apply in_map_iff in I. destruct I as (e & <- & I). apply In_nth_error in I. destruct I as (p & Ee). destruct (two_nth' _ _ _ _ _ FD p e Ee) as (dr & Edr & _ & ->). destruct (HW p dr Edr) as (w & -> & _). split; discriminate. }
    destruct (HR NI) as [HR1 _]. destruct HR1 as (q & -> & WM); [|exists q; split; [exact ER|exact WM]].
    assert (POS : 0 < qsum (map snd (known_rows seen (map a_insol (s_daily out))))); [|intros C; rewrite C in POS; discriminate POS].
    assert (AW : Forall2 (fun (_ : Qc) f => exists w, f = Fin w /\ 0 < w) seen (map a_insol (s_daily out))).
    { apply two_of_nth; [rewrite map_length, LD; exact LSE|]. intros p u f _ Ef. rewrite nth_error_map_some in Ef. destruct (nth_error (s_daily out) p) as [e|] eqn:Ee; [|discriminate Ef]. injection Ef as <-.
      destruct (two_nth' _ _ _ _ _ FD p e Ee) as (dr & Edr & _ & ->). destruct (HW p dr Edr) as (w & W1 & _ & W2). exists w. split; assumption. }
    assert (NE : seen <> []) by (intros C; pose proof LSE as X; pose proof saw_some as Y; rewrite C in X; unfold n in X; destruct pm; [contradiction|discriminate X]).
    clear -AW NE. destruct AW as [|u f sh fs (w & -> & W) AW]; [contradiction|]. clear NE. unfold known_rows in *. cbn [combine flat_map fst snd app map]. rewrite qsum_cons. cbn [snd].
    assert (0 <= qsum (map snd (flat_map (fun p => match snd p with Fin v => [(fst p, v)] | _ => [] end) (combine sh fs)))); [|qlra].
    clear W. induction AW as [|u' f sh fs (w' & -> & W') AW IH]; [apply Qcle_refl|]. cbn [combine flat_map fst snd app map]. rewrite qsum_cons. cbn [snd]. qlra. }
  assert (exists ws, Forall2 (fun r x => In (fst r, Fin x) insolation /\ 0 < x) pm ws /\ map a_insol (s_daily out) = map Fin ws) as (ws & W1 & W2).
  { destruct (all_exist _ _ (fun e x => a_insol e = Fin x /\ In (a_date e, Fin x) insolation /\ 0 < x) (s_daily out)) as (ws & FW).
    { intros e I. apply In_nth_error in I. destruct I as (p & Ee). destruct (two_nth' _ _ _ _ _ FD p e Ee) as (dr & Edr & Q1 & Q2). destruct (HW p dr Edr) as (w & X1 & X2 & X3). exists w. rewrite Q1, Q2. repeat split; assumption. }
    exists ws. split.
    - apply two_of_nth; [rewrite <- (two_length _ _ _ _ _ FW), LD; reflexivity|]. intros p [t v] w Ep Ew. destruct (two_nth' _ _ _ _ _ FW p w Ew) as (e & Ee & _ & X2 & X3). destruct (two_nth' _ _ _ _ _ FD p e Ee) as (dr & Edr & Q1 & _).
      assert (ETP : nth_error (times pm) p = Some (a_date e)) by (rewrite <- ED, nth_error_map_some, Edr, Q1; reflexivity). unfold times in ETP. rewrite nth_error_map_some, Ep in ETP. injection ETP as ET. cbn [fst]. cbn [fst] in ET. rewrite ET. split; assumption.
    - clear -FW. induction FW as [|e x es xs (H & _) FW IH]; [reflexivity|]. cbn [map]. rewrite H, IH. reflexivity. }
  assert (KR : known_rows seen (map a_insol (s_daily out)) = combine seen ws).
  { rewrite W2. clear. revert ws. induction seen as [|u l IH]; intros [|w ws]; try reflexivity. unfold known_rows in *. cbn [map combine flat_map fst snd app]. f_equal. apply IH. }
  assert (SW : map snd (combine seen ws) = ws).
  { assert (L : List.length seen = List.length ws) by (rewrite LSE; exact (two_length _ _ _ _ _ W1)). clear -L. revert ws L. induction seen as [|u l IH]; intros [|w ws] L; try discriminate L; [reflexivity|]. cbn [combine map snd]. f_equal. apply IH. cbn in L. lia. }
  assert (PW : qsum ws <> 0).
  { assert (0 < qsum ws); [|intros C; rewrite C in H; discriminate H]. pose proof saw_some as NE. clear -W1 NE. destruct W1 as [|r x l m [_ H] W1]; [contradiction|]. rewrite qsum_cons. assert (0 <= qsum m); [|qlra].
    clear -W1. induction W1 as [|r x l m [_ H] W1 IH]; [apply Qcle_refl|]. rewrite qsum_cons. qlra. }
  set (q0 := qsum (map (fun x => fst x * snd x) (combine seen ws)) / qsum ws). assert (Q0 : q0 * qsum ws = qsum (map (fun x => fst x * snd x) (combine seen ws))) by (apply Qc_div_mul; exact PW).
  exists q0. split; [exists ws; split; [exact W1|exact Q0]|]. intros d. destruct (HQ d) as (q & -> & WM). unfold weighted_mean in WM. rewrite KR, SW in WM.
  assert (q = q0) as ->; [|reflexivity]. rewrite <- Q0 in WM. rewrite <- (Qcdiv_mult_l q (qsum ws) PW), <- (Qcdiv_mult_l q0 (qsum ws) PW). f_equal. exact WM.
Qed.

(** ** The analysis *)

Variables (ds : list draws) (exc conf : Qc).
Hypothesis DRAWS : ds <> [].
Hypothesis CONF : 0 <= conf /\ conf <= qz 100.
Hypothesis EXC : 0 <= exc /\ exc <= qz 100.

Theorem saw_recovered : exists res l q,
  soiling_srr (theil_fit margin) visit pm insolation ds precip day_scale (option_map Fin thr) false method c (Fin pthr) minimum exc conf rc (Fin limit) (Fin step) (Fin factor) = Ok res /\
  sr_renorm res = Fin a /\ tiles wet n 0 l /\ Forall2 (recovered top rate pm) l (sr_intervals res) /\
  sr_profiles res = map (fun _ => map Fin seen) ds /\
  insolation_mean pm insolation seen q /\ sr_median res = Fin q /\ sr_low res = Fin q /\ sr_high res = Fin q /\ sr_exceedance res = Fin q.
Proof.
  destruct saw_table as (rows & l & out & E1 & ED & HW & E2 & HO). destruct (saw_realization rows l out HO ED HW) as (q & IM & HQ).
  assert (EM : calc_monte method visit out ds = Ok (map (fun _ => (map Fin seen, Fin q)) ds)).
  { unfold calc_monte. clear DRAWS. induction ds as [|d l0 IH]; [reflexivity|]. cbn [map_result map]. rewrite HQ. cbn [bind]. rewrite IH. reflexivity. }
  destruct (percentiles_spec (map (fun _ => q) ds) conf exc) as (m & lo & hi & x & EP & _ & _ & _ & _ & O1 & O2 & BB); [destruct ds; [contradiction|discriminate]|apply CONF|apply CONF|apply EXC|apply EXC|].
  destruct (BB q q) as ((B1 & B2) & B3 & B4); [intros u I; apply in_map_iff in I; destruct I as (d & <- & _); split; apply Qcle_refl|].
  assert (lo = q) as -> by (apply Qcle_antisym; [apply Qcle_trans with m; [exact O1|]; apply Qcle_trans with hi; assumption|exact B1]).
  assert (hi = q) as -> by (apply Qcle_antisym; [exact B2|apply Qcle_trans with m; assumption]). assert (m = q) as -> by (apply Qcle_antisym; assumption). assert (x = q) as -> by (apply Qcle_antisym; assumption).
  eexists _, l, q. split; [|split; [|split; [exact (proj1 HO)|split; [|split; [|split; [exact IM|repeat split]]]]]].
  - unfold soiling_srr. rewrite INIT. cbn [bind]. unfold srr_run. rewrite E1. cbn [bind snd fst]. rewrite E2. cbn [bind]. rewrite EM. cbn [bind]. rewrite !map_map. cbn [snd fst]. rewrite map_map in EP. rewrite EP. cbn [bind]. reflexivity.
  - reflexivity.
  - exact (proj1 (proj2 HO)).
  - reflexivity.
  - reflexivity.
  - reflexivity.
  - reflexivity.
  - reflexivity.
Qed.
End Saw.
