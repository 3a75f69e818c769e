(** The daily table. *)

From Coq Require Import QArith Qcanon List ZArith Bool Arith Lia Sorted String.
From Verif.Base Require Import QcExtra ISort Quantile Fl TimeSeries Calendar Rolling Segments.
From Verif.Spec Require Import Stats Filters Soiling.
From Verif.Model Require Import Soiling.
From Verif.Proofs Require Import StatsP FlP FiltersP FiltersP2 SoilP.
From Verif.Proofs Require InterpP.
Import ListNotations.
Open Scope list_scope.
Open Scope Qc_scope.

Lemma in_center_rows : forall k i t j u, in_center (ByRows k) i t j u = true <-> around_rows k i t j u.
Proof. intros k i t j u. unfold in_center, around_rows. rewrite andb_true_iff, Nat.ltb_lt, Nat.leb_le. lia. Qed.

Lemma at_vals : forall s i, at_row (vals s) i = match nth_error s i with Some r => snd r | None => NaN end.
Proof.
  intros s i. unfold at_row, vals. destruct (nth_error s i) as [r |] eqn:E.
  - apply nth_error_nth. rewrite nth_error_map_some, E. reflexivity.
  - apply nth_overflow. rewrite map_length. apply nth_error_None. exact E.
Qed.
Lemma at_nth_error : forall l i, (i < List.length l)%nat -> nth_error l i = Some (at_row l i).
Proof. intros l i Hi. apply nth_error_nth'. exact Hi. Qed.

(** ** Gaps *)

Section Gaps.
Variables (k : nat) (s : series).
Hypothesis no_inf : noinf (vals s).
Hypothesis first_valid : exists t q s', s = (t, Fin q) :: s'.
Hypothesis last_valid : exists t q s', s = s' ++ [(t, Fin q)].

Lemma row_cases : forall i, (i < List.length s)%nat ->
  (exists t q, nth_error s i = Some (t, Fin q) /\ at_row (vals s) i = Fin q) \/ (exists t, nth_error s i = Some (t, NaN) /\ at_row (vals s) i = NaN).
Proof.
  intros i Hi. rewrite at_vals. destruct (nth_error s i) as [[t v] |] eqn:E; [| apply nth_error_None in E; lia]. cbn [snd].
  assert (In v (vals s)) as Hv by (apply in_map_iff; exists (t, v); split; [reflexivity | apply nth_error_In with (1 := E)]).
  destruct (no_inf v Hv) as [N1 N2]. destruct v; try contradiction; [right; eauto | left; eauto].
Qed.
Lemma vals_length : List.length (vals s) = List.length s.
Proof. apply map_length. Qed.

Lemma last_row : exists t q, nth_error s (List.length s - 1) = Some (t, Fin q) /\ (0 < List.length s)%nat.
Proof.
  destruct last_valid as (t & q & s' & ->). exists t, q. rewrite app_length. cbn [List.length]. split; [| lia].
  rewrite nth_error_app2 by lia. replace (List.length s' + 1 - 1 - List.length s')%nat with 0%nat by lia. reflexivity.
Qed.
Lemma first_row : exists t q, nth_error s 0 = Some (t, Fin q).
Proof. destruct first_valid as (t & q & s' & ->). exists t, q. reflexivity. Qed.

Lemma begins_spec : forall i, (i < List.length s)%nat -> (outage_begins k (vals s) i = true <-> gap_after k s i).
Proof.
  intros i Hi. unfold outage_begins, gap_after. rewrite !andb_true_iff, Nat.ltb_lt, vals_length. split.
  - intros [[V M] L]. destruct (row_cases i Hi) as [(t & q & E & A) | (t & E & A)]; [| rewrite A in V; discriminate]. split; [eauto |].
    assert (at_row (bfill_limit k (vals s)) (S i) = NaN) as B by (destruct (at_row (bfill_limit k (vals s)) (S i)); try discriminate; reflexivity).
    pose proof (proj1 (bfill_missing k (vals s) (S i) ltac:(rewrite vals_length; exact L)) B) as B'. clear B. pose proof B' as B. destruct last_row as (tl & ql & El & _).
    assert (i + S k < List.length s)%nat as R.
    { destruct (Nat.lt_ge_cases (i + S k) (List.length s)) as [R | R]; [exact R |]. specialize (B (List.length s - 1)%nat ltac:(lia)). rewrite at_vals, El in B. discriminate. }
    intros j Hj. specialize (B' j ltac:(lia)). destruct (row_cases j ltac:(lia)) as [(t' & q' & E' & A') | (t' & E' & A')]; [congruence | eauto].
  - intros [(t & q & E) H]. assert (S i < List.length s)%nat as L by (destruct (H (S i) ltac:(lia)) as [u Eu]; apply nth_error_Some; congruence).
    split; [split; [rewrite at_vals, E; reflexivity |] | exact L].
    assert (at_row (bfill_limit k (vals s)) (S i) = NaN) as ->; [| reflexivity]. apply bfill_missing; [rewrite vals_length; exact L |]. intros j Hj.
    destruct (H j ltac:(lia)) as [u Eu]. rewrite at_vals, Eu. reflexivity.
Qed.

Lemma ends_spec : forall i, (i < List.length s)%nat -> (outage_ends k (vals s) i = true <-> gap_before k s i).
Proof.
  intros i Hi. unfold outage_ends, gap_before. rewrite !andb_true_iff, Nat.ltb_lt. split.
  - intros [[V L] M]. destruct (row_cases i Hi) as [(t & q & E & A) | (t & E & A)]; [| rewrite A in V; discriminate]. split; [eauto |].
    assert (at_row (ffill_limit k (vals s)) (i - 1) = NaN) as B by (destruct (at_row (ffill_limit k (vals s)) (i - 1)); try discriminate; reflexivity).
    pose proof (proj1 (ffill_missing k (vals s) (i - 1) ltac:(rewrite vals_length; lia)) B) as B'. clear B. pose proof B' as B. destruct first_row as (tl & ql & El).
    assert (S k < i)%nat as R.
    { destruct (Nat.lt_ge_cases (S k) i) as [R | R]; [exact R |]. specialize (B 0%nat ltac:(lia)). rewrite at_vals, El in B. discriminate. }
    split; [exact R |]. intros j Hj Hj'. specialize (B' j ltac:(lia)). destruct (row_cases j ltac:(lia)) as [(t' & q' & E' & A') | (t' & E' & A')]; [congruence | eauto].
  - intros [(t & q & E) [R H]]. split; [split; [rewrite at_vals, E; reflexivity | lia] |].
    assert (at_row (ffill_limit k (vals s)) (i - 1) = NaN) as ->; [| reflexivity]. apply ffill_missing; [rewrite vals_length; lia |]. intros j Hj.
    destruct (H j ltac:(lia) ltac:(lia)) as [u Eu]. rewrite at_vals, Eu. reflexivity.
Qed.

(** ** Steps *)

Definition carry : series := combine (times s) (ffill_limit k (vals s)).
Lemma carry_length : List.length carry = List.length s.
Proof. unfold carry. rewrite combine_length. unfold ffill_limit. rewrite ffill_length. unfold times, vals. rewrite !map_length. lia. Qed.
Lemma carry_nth : forall i, nth_error carry i = match nth_error s i with Some r => Some (fst r, at_row (ffill_limit k (vals s)) i) | None => None end.
Proof.
  intros i. unfold carry. rewrite nth_error_combine. unfold times. rewrite nth_error_map_some. destruct (nth_error s i) as [r |] eqn:E; [| reflexivity].
  rewrite at_nth_error; [reflexivity |]. unfold ffill_limit. rewrite ffill_length, vals_length. apply nth_error_Some. congruence.
Qed.

Lemma carried_unique : forall i q q', carried k s i q -> carried k s i q' -> q = q'.
Proof.
  intros i q q' (j & t & Hj & E & M) (j' & t' & Hj' & E' & M'). assert (j = j') as <-; [| congruence].
  destruct (Nat.lt_trichotomy j j') as [L | [L | L]]; [| exact L |].
  - destruct (M j' ltac:(lia)) as [u Eu]. congruence.
  - destruct (M' j ltac:(lia)) as [u Eu]. congruence.
Qed.

Lemma carry_ok : carried_series k s carry.
Proof.
  split; [unfold carry; apply InterpP.combine_times; unfold ffill_limit; rewrite ffill_length, vals_length; unfold times; rewrite map_length; reflexivity |].
  intros i t v E. rewrite carry_nth in E. destruct (nth_error s i) as [[t0 v0] |] eqn:E0; [| discriminate]. cbn [fst] in E. injection E as <- <-.
  assert (i < List.length s)%nat as Hi by (apply nth_error_Some; congruence). unfold ffill_limit.
  destruct (ffill_nth k (vals s) NaN 0 i ltac:(rewrite vals_length; exact Hi)) as [(j & Hj & V & M & A) | [M A]]; rewrite A.
  - assert (forall m, (j < m <= i)%nat -> exists u, nth_error s m = Some (u, NaN)) as MM.
    { intros m Hm. destruct (row_cases m ltac:(lia)) as [(u & q & Eu & Au) | (u & Eu & Au)]; [rewrite (M m Hm) in Au; discriminate | eauto]. }
    destruct (row_cases j ltac:(lia)) as [(u & q & Eu & Au) | (u & Eu & Au)]; [| contradiction]. destruct (Nat.leb_spec (i - j) k) as [L | L].
    + left. exists q. split; [exact Au |]. exists j, u. split; [lia |]. split; [exact Eu | exact MM].
    + right. split; [reflexivity |]. intros q' (j' & t' & Hj' & E' & M'). assert (j < j')%nat as Lj by lia. destruct (MM j' ltac:(lia)) as [w Ew]. congruence.
  - right. split; [destruct (0 + i <? k)%nat; reflexivity |]. intros q' (j' & t' & Hj' & E' & M'). specialize (M j' ltac:(lia)). rewrite at_vals, E' in M. discriminate.
Qed.

Lemma carry_unique : forall f, carried_series k s f -> f = carry.
Proof.
  intros f [HT H]. destruct carry_ok as [HT' H']. apply ext_nth. intros i.
  assert (nth_error (times f) i = nth_error (times carry) i) as ET by (rewrite HT, HT'; reflexivity). unfold times in ET. rewrite !nth_error_map_some in ET.
  destruct (nth_error f i) as [[t v] |] eqn:E; destruct (nth_error carry i) as [[t' v'] |] eqn:E'; try discriminate; [| reflexivity]. injection ET as ->. f_equal. f_equal.
  destruct (H i t' v E) as [(q & -> & C) | [-> N]]; destruct (H' i t' v' E') as [(q' & -> & C') | [-> N']]; [f_equal; apply (carried_unique i); assumption | | | reflexivity].
  - contradiction (N' q C).
  - contradiction (N q' C').
Qed.

Definition delta_list : list fl := diffs (roll_medians k (times s) (vals s)).
Hypothesis k_pos : (1 <= k)%nat.

Lemma roll_length : List.length (roll_medians k (times s) (vals s)) = List.length s.
Proof. unfold roll_medians. fold carry. unfold vals at 1. rewrite map_length, rolling_median_length. apply carry_length. Qed.
Lemma roll_cases : forall i, (i < List.length s)%nat ->
  (exists m, at_row (roll_medians k (times s) (vals s)) i = Fin m /\ window_median (around_rows k) k carry i m) \/
  (at_row (roll_medians k (times s) (vals s)) i = NaN /\ forall m, ~ window_median (around_rows k) k carry i m).
Proof.
  intros i Hi. unfold roll_medians. fold carry. rewrite at_vals. destruct (nth_error carry i) as [[t v] |] eqn:E; [| apply nth_error_None in E; rewrite carry_length in E; lia].
  destruct (rolling_row _ _ (in_center_rows k) k carry i t v k_pos E) as (x & Ex & Hx). rewrite Ex. cbn [snd].
  destruct Hx as [(m & -> & Hm) | [-> Hm]]; [left; eauto | right; auto].
Qed.

Lemma delta_length : List.length delta_list = List.length s.
Proof. unfold delta_list, diffs. rewrite map_length, seq_length. apply roll_length. Qed.
Lemma delta_row : forall i, (i < List.length s)%nat ->
  (exists d, at_row delta_list i = Fin d /\ step_at k carry i d) \/ (at_row delta_list i = NaN /\ forall d, ~ step_at k carry i d).
Proof.
  intros i Hi. unfold delta_list, diffs. set (r := roll_medians k (times s) (vals s)).
  assert (at_row (map (fun i => match i with O => NaN | S j => fsub (at_row r i) (at_row r j) end) (seq 0 (List.length r))) i =
    match i with O => NaN | S j => fsub (at_row r i) (at_row r j) end) as ->.
  { apply nth_error_nth. rewrite nth_error_map_some, nth_error_seq. unfold r. rewrite roll_length. assert (i <? List.length s = true)%nat as -> by (apply Nat.ltb_lt; exact Hi). reflexivity. }
  destruct i as [| j]; [right; split; [reflexivity |]; intros d (j & m & m' & C & _); discriminate |].
  destruct (roll_cases (S j) Hi) as [(m & Em & Hm) | [Em Hm]]; [destruct (roll_cases j ltac:(lia)) as [(m' & Em' & Hm') | [Em' Hm']] |]; fold r in Em; rewrite Em.
  - left. exists (m - m'). fold r in Em'. rewrite Em'. split; [reflexivity |]. exists j, m, m'. auto.
  - right. fold r in Em'. rewrite Em'. split; [reflexivity |]. intros d (j0 & a & b & E & _ & Hb & _). injection E as <-. exact (Hm' b Hb).
  - right. split; [destruct (at_row r j); reflexivity |]. intros d (j0 & a & b & E & Ha & _). exact (Hm a Ha).
Qed.

Lemma step_unique : forall i d d', step_at k carry i d -> step_at k carry i d' -> d = d'.
Proof.
  intros i d d' (j & m & m' & -> & H1 & H2 & ->) (j0 & n & n' & E & K1 & K2 & ->). injection E as <-.
  rewrite (window_median_unique _ _ (in_center_rows k) k carry _ m n k_pos H1 K1), (window_median_unique _ _ (in_center_rows k) k carry _ m' n' k_pos H2 K2). reflexivity.
Qed.
Lemma step_range : forall i d, step_at k carry i d -> (i < List.length s)%nat.
Proof. intros i d (j & m & m' & -> & (t & v & l & E & _) & _). rewrite <- carry_length. apply nth_error_Some. congruence. Qed.

Lemma steps_ok : steps k carry 0 (finvals delta_list).
Proof.
  assert (forall m i, (i + m = List.length s)%nat -> steps k carry i (finvals (skipn i delta_list))) as K; [| apply (K (List.length s) 0%nat); lia].
  induction m as [| m IH]; intros i Hi.
  - rewrite skipn_all2 by (rewrite delta_length; lia). apply steps_end. apply nth_error_None. rewrite carry_length. lia.
  - assert (skipn i delta_list = at_row delta_list i :: skipn (S i) delta_list) as ->.
    { assert (i < List.length delta_list)%nat as L by (rewrite delta_length; lia). clear -L. revert i L. induction delta_list as [| x l IH]; intros i L; [cbn in L; lia |].
      destruct i as [| i]; [reflexivity |]. cbn [skipn]. rewrite IH by (cbn in L; lia). reflexivity. }
    destruct (delta_row i ltac:(lia)) as [(d & E & H) | [E H]]; rewrite E; cbn [finvals].
    + apply steps_take; [exact H | apply IH; lia].
    + apply steps_skip; [apply nth_error_Some; rewrite carry_length; lia | exact H | apply IH; lia].
Qed.
Lemma steps_unique : forall i l l', steps k carry i l -> steps k carry i l' -> l = l'.
Proof.
  intros i l l' H. revert l'. induction H as [i E | i d l Hd H IH | i l Hn Hd H IH]; intros l' K.
  - inversion K as [| ? ? ? D _ | ]; subst; [reflexivity | |]; exfalso; [apply step_range in D; rewrite <- carry_length in D; apply nth_error_None in E; lia | contradiction].
  - inversion K as [? E | ? d' l'' D' K' | ? ? Hn' Hd' K']; subst.
    + exfalso. apply step_range in Hd. rewrite <- carry_length in Hd. apply nth_error_None in E. lia.
    + f_equal; [apply (step_unique i); assumption | apply IH; assumption].
    + contradiction (Hd' d Hd).
  - inversion K as [? E | ? d' l'' D' K' | ? ? Hn' Hd' K']; subst; [contradiction | contradiction (Hd d' D') | apply IH; assumption].
Qed.

Lemma delta_noinf : noinf delta_list.
Proof.
  intros x Hx. apply (In_nth _ _ NaN) in Hx. destruct Hx as (i & Hi & <-). rewrite delta_length in Hi. fold (at_row delta_list i).
  destruct (delta_row i Hi) as [(d & E & _) | [E _]]; rewrite E; split; discriminate.
Qed.

Lemma finvals_abs : forall l, finvals (map fabs l) = map qabs (finvals l) .
Proof. induction l as [| x l IH]; [reflexivity |]. destruct x; cbn; rewrite ?IH; reflexivity. Qed.
Lemma abs_noinf : forall l, noinf l -> noinf (map fabs l).
Proof. intros l H x Hx. apply in_map_iff in Hx. destruct Hx as (y & <- & Hy). destruct (H y Hy). destruct y; try contradiction; split; discriminate. Qed.

Lemma limit_spec : forall given factor,
  (exists x, clean_limit (option_map Fin given) (Fin factor) delta_list = Fin x /\ shift_limit given factor (finvals delta_list) x) \/
  (clean_limit (option_map Fin given) (Fin factor) delta_list = NaN /\ finvals delta_list = []).
Proof.
  intros [y |] factor; cbn [option_map clean_limit]; [left; exists y; split; reflexivity |].
  pose proof (abs_noinf _ delta_noinf) as NI. destruct (finvals delta_list) as [| a l] eqn:E.
  - right. split; [| reflexivity]. rewrite !fquantile_empty; [reflexivity | |]; rewrite (dropna_noinf _ NI), finvals_abs, E; reflexivity.
  - left. assert (finvals (map fabs delta_list) <> []) as NE by (rewrite finvals_abs, E; discriminate).
    rewrite !fquantile_noinf by (first [exact NI | exact NE | intros C; discriminate C]). rewrite finvals_abs, E in *. cbn [fsub fneg fadd fmul]. eexists. split; [reflexivity |].
    exists (qquantile (qf 1 4) (map qabs (a :: l))), (qquantile (qf 3 4) (map qabs (a :: l))). split; [| split; [| unfold Qcminus; ring]].
    + replace (qz 25) with (qz 100 * qf 1 4) by (apply Qc_is_canon; reflexivity). apply quantile_is; [exact NE | discriminate | discriminate].
    + replace (qz 75) with (qz 100 * qf 3 4) by (apply Qc_is_canon; reflexivity). apply quantile_is; [exact NE | discriminate | discriminate].
Qed.
Lemma limit_unique : forall given factor l x y, l <> [] -> shift_limit given factor l x -> shift_limit given factor l y -> x = y.
Proof.
  intros [g |] factor l x y NE; cbn; [congruence |]. intros (a & b & Ha & Hb & ->) (a' & b' & Ha' & Hb' & ->).
  assert (map qabs l <> []) as NE' by (destruct l; [contradiction | discriminate]).
  rewrite (is_percentile_unique (qz 25) _ _ NE' ltac:(discriminate) ltac:(discriminate) Ha), (is_percentile_unique (qz 75) _ _ NE' ltac:(discriminate) ltac:(discriminate) Hb),
    (is_percentile_unique (qz 25) _ _ NE' ltac:(discriminate) ltac:(discriminate) Ha'), (is_percentile_unique (qz 75) _ _ NE' ltac:(discriminate) ltac:(discriminate) Hb'). reflexivity.
Qed.

Lemma shift_spec : forall given factor i, (i < List.length s)%nat ->
  (fgt (at_row delta_list i) (clean_limit (option_map Fin given) (Fin factor) delta_list) = true <-> shift k given factor s i).
Proof.
  intros given factor i Hi. unfold shift. split.
  - intros H. destruct (delta_row i Hi) as [(d & E & Hd) | [E _]]; rewrite E in H; [| destruct (clean_limit _ _ _); discriminate].
    destruct (limit_spec given factor) as [(x & Ex & Hx) | [Ex _]]; rewrite Ex in H; [| discriminate].
    exists carry, (finvals delta_list), x, d. split; [exact carry_ok |]. split; [exact steps_ok |]. split; [exact Hx |]. split; [exact Hd |]. apply qlt_spec. exact H.
  - intros (f & l & x & d & Hf & Hl & Hx & Hd & L). apply carry_unique in Hf. subst f. apply (steps_unique _ _ _ steps_ok) in Hl. subst l.
    destruct (delta_row i Hi) as [(d' & E & Hd') | [_ N]]; [| contradiction (N d Hd)]. rewrite (step_unique _ _ _ Hd' Hd) in E. rewrite E.
    assert (finvals delta_list <> []) as NE.
    { intros C. assert (In d (finvals delta_list)) as K; [| rewrite C in K; destruct K]. apply finvals_In. rewrite <- E. apply nth_In. rewrite delta_length. exact Hi. }
    destruct (limit_spec given factor) as [(y & Ey & Hy) | [_ C]]; [| contradiction]. rewrite Ey, (limit_unique _ _ _ _ _ NE Hy Hx). apply qlt_spec. exact L.
Qed.
End Gaps.

(** ** Rows *)

Lemma joined_at : forall s idx i, (i < List.length idx)%nat -> at_row (joined s idx) i = lookup s (nth i idx 0%Z).
Proof. intros s idx i Hi. unfold at_row, joined. rewrite (nth_indep _ NaN (lookup s 0%Z)) by (rewrite map_length; exact Hi). apply map_nth. Qed.
Lemma joined_length : forall s idx, List.length (joined s idx) = List.length idx.
Proof. intros. apply map_length. Qed.

Lemma fill0_lookup : forall s t, sorted_index s -> noinf (vals s) -> exists x, fill0 (lookup s t) = Fin x /\ value_or_0 s t x.
Proof.
  intros s t HS NI. destruct (lookup_cases s t) as [(v & Hv & E) | [N E]]; rewrite E.
  - assert (In v (vals s)) as Hi by (apply in_map_iff; exists (t, v); auto). destruct (NI v Hi) as [N1 N2]. destruct v; try contradiction.
    + exists 0. split; [reflexivity |]. right. split; [reflexivity |]. intros q Hq. pose proof (sorted_fun s t NaN (Fin q) HS Hv Hq). discriminate.
    + exists q. split; [reflexivity |]. left. exact Hv.
  - exists 0. split; [reflexivity |]. right. split; [reflexivity |]. intros q Hq. apply N. apply in_map_iff. exists (t, Fin q). auto.
Qed.
Lemma value_or_0_unique : forall s t x y, sorted_index s -> value_or_0 s t x -> value_or_0 s t y -> x = y.
Proof.
  intros s t x y HS [H | [-> H]] [K | [-> K]]; [| contradiction (K x H) | contradiction (H y K) | reflexivity].
  pose proof (sorted_fun s t _ _ HS H K) as E. injection E. auto.
Qed.

Lemma span_renorm : forall recenter s p r, noinf (vals s) -> valid_span s p -> is_renorm recenter p r -> renorm_factor recenter p = Fin r.
Proof.
  intros recenter s p r NI V R. destruct V as (pre & post & E & _ & (t & v & p' & -> & Hv) & _). cbn [renorm_factor]. unfold is_renorm in R. destruct recenter; [| rewrite R; reflexivity].
  assert (noinf (vals (filter (fun r => (fst r <=? t + 364 * ns_day)%Z) ((t, v) :: p')))) as NI'.
  { intros x Hx. apply NI. unfold vals in *. apply in_map_iff in Hx. destruct Hx as (a & <- & Ha). apply filter_In in Ha. apply in_map. rewrite E. apply in_or_app. right. apply in_or_app. left. apply Ha. }
  cbn [first_year] in R. set (l := vals (filter _ _)) in *. assert (finvals l <> []) as NE.
  { assert (In v l) as Hin.
    { unfold l, vals. apply in_map_iff. exists (t, v). split; [reflexivity |]. apply filter_In. split; [left; reflexivity |]. apply Z.leb_le. cbn [fst]. unfold ns_day. lia. }
    destruct (NI' v Hin) as [N1 N2]. destruct v; try contradiction. intros C. apply finvals_In in Hin. rewrite C in Hin. destruct Hin. }
  rewrite (fmedian_noinf _ NI' NE). f_equal. symmetry. exact (is_median_unique _ _ NE R).
Qed.

Lemma span_noinf : forall s p, noinf (vals s) -> valid_span s p -> noinf (vals p).
Proof.
  intros s p NI (pre & post & E & _) x Hx. apply NI. unfold vals in *. rewrite E, !map_app. apply in_or_app. right. apply in_or_app. left. exact Hx.
Qed.
Lemma scaled_vals : forall r p, noinf (vals p) -> r <> 0 -> map (fun x => fdiv x (Fin r)) (vals p) = vals (scaled_by r p).
Proof.
  intros r p NI Hr. unfold vals, scaled_by in *. rewrite !map_map. apply map_ext_in. intros [t v] Hx. cbn [snd fst].
  destruct (NI v ltac:(apply in_map_iff; exists (t, v); auto)) as [N1 N2]. destruct v; try contradiction; [reflexivity |]. cbn [fdiv].
  assert (qeq r 0 = false) as -> by (apply qeq_false; exact Hr). reflexivity.
Qed.
Lemma scaled_times : forall r p, times (scaled_by r p) = times p.
Proof. intros r p. unfold times, scaled_by. rewrite map_map. reflexivity. Qed.
Lemma scaled_noinf : forall r p, noinf (vals (scaled_by r p)).
Proof. intros r p x Hx. unfold vals, scaled_by in Hx. rewrite map_map in Hx. apply in_map_iff in Hx. destruct Hx as ([t v] & <- & _). destruct v; split; discriminate. Qed.

Lemma map_seq_nth : forall A (f : nat -> A) n i d, (i < n)%nat -> nth i (map f (seq 0 n)) d = f i.
Proof.
  intros A f n i d Hi. apply nth_error_nth. rewrite nth_error_map_some, nth_error_seq. assert (i <? n = true)%nat as -> by (apply Nat.ltb_lt; exact Hi). reflexivity.
Qed.
Lemma nth_map_bool : forall (f : fl -> bool) l i, (i < List.length l)%nat -> nth i (map f l) false = f (at_row l i).
Proof. intros f l i Hi. apply nth_error_nth. rewrite nth_error_map_some, at_nth_error by exact Hi. reflexivity. Qed.

Lemma events_spec : forall c detected wet (A B : nat -> Prop), List.length wet = List.length detected ->
  (forall i, (i < List.length detected)%nat -> (nth i detected false = true <-> A i)) ->
  (forall i, (nth i wet false = true <-> B i)) ->
  (~ known_criterion c -> combine_events c detected wet = Raise ValueError) /\
  (known_criterion c -> exists l, combine_events c detected wet = Ok l /\ List.length l = List.length detected /\
     forall i, (i < List.length l)%nat -> (nth i l false = true <-> cleaning c A B i)).
Proof.
  intros c detected wet A B HL HA HB. unfold combine_events. split.
  - intros N. repeat match goal with |- context [String.eqb c ?x] => destruct (String.eqb_spec c x); [exfalso; apply N; unfold known_criterion; tauto |] end. reflexivity.
  - assert (forall f : nat -> bool, List.length (map f (seq 0 (List.length detected))) = List.length detected) as L by (intros f; rewrite map_length, seq_length; reflexivity).
    unfold cleaning. intros [-> | [-> | [-> | ->]]]; cbn [String.eqb Ascii.eqb Bool.eqb]; eexists; (split; [reflexivity |]); (split; [first [reflexivity | apply L] |]); rewrite ?L; intros i Hi; rewrite ?map_seq_nth by exact Hi.
    + rewrite (HA i Hi). intuition discriminate.
    + rewrite (HB i). intuition discriminate.
    + rewrite orb_true_iff, (HA i Hi), (HB i). intuition discriminate.
    + assert (near wet i = true <-> exists j, (j <= S i)%nat /\ (i <= S j)%nat /\ B j) as EN.
      { unfold near. rewrite existsb_exists. split.
        - intros (j & Hj & V). apply HB in V. cbn [In] in Hj. exists j. repeat split; [lia | lia | exact V].
        - intros (j & H1 & H2 & V). exists j. split; [cbn [In]; lia | apply HB; exact V]. }
      rewrite andb_true_iff, (HA i Hi), EN. intuition discriminate.
Qed.

Lemma rain_spec : forall precip thr s i, (match precip with None => True | Some p => sorted_index p /\ noinf (vals p) end) ->
  (nth i (map (fun x => fgt x (Fin thr)) (match precip with None => map (fun _ => fz 0) (times s) | Some p => joined p (times s) end)) false = true <->
   rain precip thr s i).
Proof.
  intros precip thr s i HS. unfold rain. set (column := match precip with None => map (fun _ => fz 0) (times s) | Some p => joined p (times s) end).
  assert (List.length column = List.length (times s)) as L by (unfold column; destruct precip; apply map_length).
  destruct (Nat.lt_ge_cases i (List.length (times s))) as [Hi | Hi].
  - rewrite nth_map_bool by lia. assert (nth_error (times s) i = Some (nth i (times s) 0%Z)) as E by (apply nth_error_nth'; exact Hi). unfold column in *. destruct precip as [p |].
    + rewrite joined_at by exact Hi. set (t := nth i (times s) 0%Z) in *. split.
      * intros H. destruct (lookup_cases p t) as [(v & Hv & EL) | [_ EL]]; rewrite EL in H; [| discriminate]. destruct v as [| | q |]; try discriminate.
        -- exists t, q. split; [exact E |]. split; [exact Hv |]. apply qlt_spec. exact H.
        -- exfalso. destruct HS as [_ NI]. destruct (NI PInf) as [N _]; [apply in_map_iff; exists (t, PInf); auto | apply N; reflexivity].
      * intros (t' & v & E' & Hv & Hlt). rewrite E in E'. injection E' as <-. rewrite (lookup_In p t (Fin v) (proj1 HS) Hv). apply qlt_spec. exact Hlt.
    + assert (at_row (map (fun _ : Z => fz 0) (times s)) i = fz 0) as -> by (apply nth_error_nth; rewrite nth_error_map_some, E; reflexivity). split.
      * intros H. exists (nth i (times s) 0%Z), 0. repeat split; [exact E |]. apply qlt_spec. exact H.
      * intros (t & v & _ & -> & H). apply qlt_spec. exact H.
  - rewrite nth_overflow by (rewrite map_length; lia). split; [discriminate |]. intros (t & v & E & _). apply nth_error_None in Hi. congruence.
Qed.

(** ** The table *)

Theorem daily_spec : forall pm insolation precip day_scale thr recenter c pthr factor p r,
  noinf (vals pm) -> valid_span pm p -> is_renorm recenter p r -> r <> 0 -> (1 <= day_scale)%nat ->
  sorted_index insolation -> noinf (vals insolation) -> match precip with None => True | Some q => sorted_index q /\ noinf (vals q) end ->
  let out := calc_daily_df pm insolation precip day_scale (option_map Fin thr) recenter c (Fin pthr) (Fin factor) in
  let s := scaled_by r p in
  (~ known_criterion c -> out = Raise ValueError) /\
  (known_criterion c -> exists rows, out = Ok (Fin r, rows) /\ map d_date rows = times p /\
     forall i d, nth_error rows i = Some d ->
       d_day d = Z.of_nat i /\
       (exists x, d_insol d = Fin x /\ value_or_0 insolation (d_date d) x) /\
       ((exists x, nth_error s i = Some (d_date d, Fin x) /\ d_pi_norm d = Fin x) \/ (nth_error s i = Some (d_date d, NaN) /\ d_pi_norm d = Fin 0)) /\
       (forall f, carried_series day_scale s f ->
          (exists x, step_at day_scale f i x /\ d_delta d = Fin x) \/ ((forall x, ~ step_at day_scale f i x) /\ d_delta d = Fin 0)) /\
       (d_event d = true <->
          cleaning c (shift day_scale thr factor s) (rain precip pthr s) i \/ gap_after day_scale s i \/ gap_before day_scale s i) /\
       d_run d = Z.of_nat (count_true (firstn (S i) (map d_event rows)))).
Proof.
  intros pm insolation precip day_scale thr recenter c pthr factor p r NI V R Hr Hk HS HN HP out s. unfold out, calc_daily_df. clear out.
  assert (valid_part pm = p) as ->.
  { destruct (valid_part_spec pm) as [[M E] | V']; [| apply (valid_span_unique pm); assumption].
    destruct V as (pre & post & Ep & _ & (t & v & p' & -> & Hv) & _). contradiction Hv. apply (M (t, v)). rewrite Ep. apply in_or_app. right. left. reflexivity. }
  rewrite (span_renorm recenter pm p r NI V R). pose proof (span_noinf pm p NI V) as NIp. rewrite (scaled_vals r p NIp Hr).
  destruct V as (pre & post & _ & _ & (t1 & v1 & p1 & Ep & Hv1) & (t2 & v2 & p2 & Ep' & Hv2)).
  assert (exists t q s', s = (t, Fin q) :: s') as F1.
  { unfold s. rewrite Ep. destruct (NIp v1 ltac:(rewrite Ep; left; reflexivity)) as [N1 N2]. destruct v1; try contradiction. cbn. eauto. }
  assert (exists t q s', s = s' ++ [(t, Fin q)]) as F2.
  { unfold s. rewrite Ep'. destruct (NIp v2 ltac:(rewrite Ep'; unfold vals; rewrite map_app; apply in_or_app; right; left; reflexivity)) as [N1 N2].
    destruct v2; try contradiction. unfold scaled_by. rewrite map_app. cbn. eauto. }
  assert (exists x p0, p = x :: p0) as (x0 & p0 & Ex0) by eauto.
  rewrite <- (scaled_times r p). fold s. pose proof (scaled_noinf r p) as NIs. fold s in NIs.
  assert (List.length p = List.length s) as Hlen by (unfold s, scaled_by; rewrite map_length; reflexivity). rewrite Hlen.
  rewrite Ex0 at 1.
  assert ((day_scale =? 0)%nat = false) as -> by (apply Nat.eqb_neq; lia).
  fold (delta_list day_scale s). set (delta := delta_list day_scale s). set (lim := clean_limit _ _ delta).
  set (wet := map (fun x => fgt x (Fin pthr)) _).
  assert (List.length wet = List.length (map (fun x => fgt x lim) delta)) as HL.
  { unfold wet. rewrite !map_length. unfold delta. rewrite delta_length. destruct precip; [rewrite joined_length | rewrite map_length]; unfold times; apply map_length. }
  assert (List.length (map (fun x => fgt x lim) delta) = List.length s) as HLd by (rewrite map_length; apply delta_length).
  destruct (events_spec c (map (fun x => fgt x lim) delta) wet (shift day_scale thr factor s) (rain precip pthr s) HL) as [EB EG].
  { intros i Hi. rewrite HLd in Hi. rewrite nth_map_bool by (unfold delta; rewrite delta_length; exact Hi). apply shift_spec; assumption. }
  { intros i. apply rain_spec. exact HP. }
  split; intros K; [rewrite (EB K); reflexivity |]. destruct (EG K) as (l & El & Ll & Hl). clear EB EG. rewrite El. cbn [bind]. rewrite HLd in Ll.
  set (event := map (fun i => nth i l false || _ || _) _). set (row := fun i => DayRow _ _ _ _ _ _ _). set (rows := map row (seq 0 (List.length s))).
  assert (forall i, nth_error rows i = if (i <? List.length s)%nat then Some (row i) else None) as HR.
  { intros i. unfold rows. rewrite nth_error_map_some, nth_error_seq. destruct (i <? List.length s)%nat; reflexivity. }
  assert (List.length event = List.length s) as Le by (unfold event; rewrite map_length, seq_length; reflexivity).
  assert (map d_event rows = event) as EE.
  { unfold rows. rewrite map_map. unfold row. cbn [d_event]. apply ext_nth. intros i. rewrite nth_error_map_some, nth_error_seq.
    destruct (Nat.ltb_spec i (List.length s)) as [L | L]; [symmetry; apply nth_error_nth'; lia | symmetry; apply nth_error_None; lia]. }
  exists rows. split; [rewrite Ex0; reflexivity |]. split.
  - apply ext_nth. intros i. rewrite nth_error_map_some, HR. assert (List.length (times s) = List.length s) as LT by apply map_length.
    destruct (Nat.ltb_spec i (List.length s)) as [L | L]; [unfold row; cbn [d_date]; symmetry; apply nth_error_nth'; lia | symmetry; apply nth_error_None; lia].
  - intros i d Hd. rewrite HR in Hd. destruct (Nat.ltb_spec i (List.length s)) as [L | L]; [| discriminate]. injection Hd as <-. rewrite EE. unfold row. cbn [d_day d_insol d_date d_pi_norm d_delta d_event d_run].
    assert (i < List.length (times s))%nat as LT by (unfold times; rewrite map_length; exact L).
    split; [reflexivity |]. split; [rewrite joined_at by exact LT; apply fill0_lookup; assumption |]. split; [| split; [| split]].
    + assert (nth i (times s) 0%Z = match nth_error s i with Some x => fst x | None => 0%Z end) as ET.
      { destruct (nth_error s i) as [x |] eqn:E; [| apply nth_error_None in E; lia]. apply nth_error_nth. unfold times. rewrite nth_error_map_some, E. reflexivity. }
      rewrite ET. destruct (row_cases s NIs i L) as [(t & q & E & A) | (t & E & A)]; rewrite E, A; cbn [fst]; [left; eauto | right; split; reflexivity].
    + intros f Hf. rewrite (carry_unique day_scale s NIs f Hf).
      destruct (delta_row day_scale s Hk i L) as [(x & E & H) | [E H]]; fold delta in E; rewrite E; [left; eauto | right; split; [exact H | reflexivity]].
    + unfold event. rewrite map_seq_nth by exact L. rewrite !orb_true_iff, (Hl i ltac:(lia)), (begins_spec day_scale s NIs F1 F2 i L), (ends_spec day_scale s NIs F1 F2 i L). tauto.
    + rewrite count_nth by lia. reflexivity.
Qed.

Theorem daily_errors : forall pm insolation precip thr recenter c pthr factor,
  (forall day_scale, (forall x, In x pm -> snd x = NaN) ->
     calc_daily_df pm insolation precip day_scale thr recenter c pthr factor = Raise IndexError) /\
  ((exists p, valid_span pm p) -> calc_daily_df pm insolation precip 0 thr recenter c pthr factor = Raise ValueError).
Proof.
  intros. unfold calc_daily_df. split.
  - intros k M. destruct (valid_part_spec pm) as [[_ ->] | V]; [reflexivity |]. destruct V as (pre & post & E & _ & (t & v & p' & Ep & Hv) & _).
    contradiction Hv. apply (M (t, v)). rewrite E, Ep. apply in_or_app. right. left. reflexivity.
  - intros [p V]. destruct (valid_part_spec pm) as [[M _] | V'].
    + destruct V as (pre & post & E & _ & (t & v & p' & Ep & Hv) & _). contradiction Hv. apply (M (t, v)). rewrite E, Ep. apply in_or_app. right. left. reflexivity.
    + destruct V' as (pre & post & _ & _ & (t & v & p' & Ep & Hv) & _). rewrite Ep. reflexivity.
Qed.
