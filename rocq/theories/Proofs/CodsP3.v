(** Proofs about the detection of shifts and outliers. *)

From Coq Require Import QArith Qcanon List ZArith Bool Arith Lia Permutation Sorted String.
From Verif.Base Require Import QcExtra ISort Quantile Fl TimeSeries Calendar Rolling.
From Verif.Spec Require Import Stats Filters Soiling Cods.
From Verif.Model Require Import Soiling CodsTools.
From Verif.Proofs Require Import FlP StatsP FiltersP FiltersP2 SoilP SoilP2 CodsP.
Import ListNotations.
Open Scope list_scope.
Open Scope Qc_scope.

(** ** Filling *)

Lemma fin_rows : forall l i, noinf l -> (i < List.length l)%nat ->
  (exists q, nth_error l i = Some (Fin q) /\ at_row l i = Fin q) \/ (nth_error l i = Some NaN /\ at_row l i = NaN).
Proof.
  intros l i N Hi. pose proof (error_at_row l i Hi) as E. assert (In (at_row l i) l) as I by (eapply nth_error_In; exact E).
  destruct (N _ I) as [N1 N2]. destruct (at_row l i) as [| |q|]; try contradiction; [right | left; exists q]; auto.
Qed.

Lemma fill_length : forall b l, List.length (fill b l) = List.length l.
Proof.
  intros [] l; unfold fill, fill_forward, fill_backward, bfill_limit, ffill_limit; [apply ffill_length|].
  rewrite rev_length, ffill_length, rev_length. reflexivity.
Qed.

Lemma fill_forward_at : forall l i, (i < List.length l)%nat ->
  (exists j, (j <= i)%nat /\ at_row l j <> NaN /\ (forall m, (j < m <= i)%nat -> at_row l m = NaN) /\ at_row (fill_forward l) i = at_row l j) \/
  ((forall m, (m <= i)%nat -> at_row l m = NaN) /\ at_row (fill_forward l) i = NaN).
Proof.
  intros l i Hi. unfold fill_forward, ffill_limit.
  destruct (ffill_nth (List.length l) l NaN 0 i Hi) as [(j & Hj & V & M & A) | [M A]]; rewrite A.
  - left. exists j. split; [exact Hj|]. split; [exact V|]. split; [exact M|].
    destruct (Nat.leb_spec (i - j) (List.length l)); [reflexivity|lia].
  - right. split; [exact M|]. destruct (0 + i <? List.length l)%nat; reflexivity.
Qed.
Lemma fill_backward_at : forall l i, (i < List.length l)%nat ->
  (exists j, (i <= j < List.length l)%nat /\ at_row l j <> NaN /\ (forall m, (i <= m < j)%nat -> at_row l m = NaN) /\ at_row (fill_backward l) i = at_row l j) \/
  ((forall m, (i <= m)%nat -> at_row l m = NaN) /\ at_row (fill_backward l) i = NaN).
Proof.
  intros l i Hi. unfold fill_backward, bfill_limit. set (n := List.length l) in *.
  rewrite at_rev by (unfold ffill_limit; rewrite ffill_length, rev_length; exact Hi).
  unfold ffill_limit. rewrite ffill_length, rev_length. fold n.
  pose proof (fill_forward_at (rev l) (n - 1 - i) ltac:(rewrite rev_length; fold n; lia)) as F.
  unfold fill_forward, ffill_limit in F. rewrite rev_length in F. fold n in F. destruct F as [(j & Hj & V & M & A) | [M A]].
  - left. exists (n - 1 - j)%nat. rewrite at_rev in V by (fold n; lia). split; [lia|]. split; [exact V|]. split.
    + intros m Hm. specialize (M (n - 1 - m)%nat ltac:(lia)). rewrite at_rev in M by (fold n; lia).
      fold n in M. replace (n - 1 - (n - 1 - m))%nat with m in M by lia. exact M.
    + rewrite A, at_rev by (fold n; lia). reflexivity.
  - right. split; [|exact A]. intros m Hm. destruct (Nat.lt_ge_cases m n) as [L|L]; [|unfold at_row; apply nth_overflow; exact L].
    specialize (M (n - 1 - m)%nat ltac:(lia)). rewrite at_rev in M by (fold n; lia). fold n in M.
    replace (n - 1 - (n - 1 - m))%nat with m in M by lia. exact M.
Qed.

Lemma fin_of : forall l j, noinf l -> (j < List.length l)%nat -> at_row l j <> NaN -> exists q, nth_error l j = Some (Fin q) /\ at_row l j = Fin q.
Proof. intros l j N Hj V. destruct (fin_rows l j N Hj) as [H|[_ H]]; [exact H|contradiction]. Qed.
Lemma nan_of : forall l j, (j < List.length l)%nat -> at_row l j = NaN -> nth_error l j = Some NaN.
Proof. intros l j Hj V. rewrite error_at_row by exact Hj. rewrite V. reflexivity. Qed.

Lemma fill_cases : forall b l i, noinf l -> (i < List.length l)%nat ->
  (exists q, at_row (fill b l) i = Fin q /\ filled b l i q) \/ (at_row (fill b l) i = NaN /\ forall q, ~ filled b l i q).
Proof.
  intros [] l i N Hi; unfold fill.
  - destruct (fill_forward_at l i Hi) as [(j & Hj & V & M & A) | [M A]]; rewrite A.
    + left. destruct (fin_of l j N ltac:(lia) V) as (q & E & Eq). exists q. split; [exact Eq|]. exists j. split; [exact E|].
      split; [exact Hj|]. intros m Hm. apply nan_of; [lia|]. apply M. exact Hm.
    + right. split; [reflexivity|]. intros q (j & E & Hj & _). apply at_row_error in E. rewrite M in E by exact Hj. discriminate E.
  - destruct (fill_backward_at l i Hi) as [(j & Hj & V & M & A) | [M A]]; rewrite A.
    + left. destruct (fin_of l j N ltac:(lia) V) as (q & E & Eq). exists q. split; [exact Eq|]. exists j. split; [exact E|].
      split; [lia|]. intros m Hm. apply nan_of; [lia|]. apply M. exact Hm.
    + right. split; [reflexivity|]. intros q (j & E & Hj & _). apply at_row_error in E. rewrite M in E by exact Hj. discriminate E.
Qed.

Lemma filled_unique : forall b l i q q', filled b l i q -> filled b l i q' -> q = q'.
Proof.
  intros b l i q q' (j & E & H) (j' & E' & H'). assert (j = j') as <-; [|congruence].
  destruct (Nat.lt_trichotomy j j') as [L|[L|L]]; [|exact L|]; destruct b; destruct H as [H1 H2]; destruct H' as [H3 H4].
  - specialize (H2 j' ltac:(lia)). congruence.
  - specialize (H4 j ltac:(lia)). congruence.
  - specialize (H4 j ltac:(lia)). congruence.
  - specialize (H2 j' ltac:(lia)). congruence.
Qed.

Lemma numbered_length : forall l, List.length (numbered l) = List.length l.
Proof. intros l. unfold numbered. rewrite combine_length, map_length, seq_length. lia. Qed.
Lemma numbered_nth : forall l i, nth_error (numbered l) i = match nth_error l i with Some v => Some (Z.of_nat i, v) | None => None end.
Proof.
  intros l i. unfold numbered. rewrite nth_error_combine, nth_error_map_some, nth_error_seq.
  destruct (nth_error l i) as [v|] eqn:E.
  - assert (i <? List.length l = true)%nat as -> by (apply Nat.ltb_lt; apply nth_error_Some; congruence). reflexivity.
  - apply nth_error_None in E. assert (i <? List.length l = false)%nat as -> by (apply Nat.ltb_ge; exact E). reflexivity.
Qed.

Lemma filled_rows_ok : forall b l, noinf l -> filled_rows b l (numbered (fill b l)).
Proof.
  intros b l N. split; [rewrite numbered_length; apply fill_length|]. intros i t v E. rewrite numbered_nth in E.
  destruct (nth_error (fill b l) i) as [w|] eqn:Ew; [|discriminate E]. injection E as <- <-. split; [reflexivity|].
  assert (i < List.length l)%nat as Hi by (rewrite <- (fill_length b l); apply nth_error_Some; congruence).
  apply at_row_error in Ew. rewrite <- Ew. exact (fill_cases b l i N Hi).
Qed.
Lemma filled_rows_unique : forall b l f g, filled_rows b l f -> filled_rows b l g -> f = g.
Proof.
  intros b l f g [Lf F] [Lg G]. apply ext_nth. intros i.
  destruct (nth_error f i) as [[t v]|] eqn:E; destruct (nth_error g i) as [[t' v']|] eqn:E'.
  - destruct (F _ _ _ E) as [-> H]. destruct (G _ _ _ E') as [-> H']. f_equal. f_equal.
    destruct H as [(q & -> & C)|[-> N]]; destruct H' as [(q' & -> & C')|[-> N']].
    + f_equal. exact (filled_unique _ _ _ _ _ C C').
    + contradiction (N' q C).
    + contradiction (N q' C').
    + reflexivity.
  - exfalso. apply nth_error_None in E'. assert (i < List.length f)%nat by (apply nth_error_Some; congruence). lia.
  - exfalso. apply nth_error_None in E. assert (i < List.length g)%nat by (apply nth_error_Some; congruence). lia.
  - reflexivity.
Qed.

(** ** Steps of a rolling median *)

Section Steps.
Variables (k : nat) (f : series).
Hypothesis k_pos : (1 <= k)%nat.
Definition medians_of : list fl := vals (rolling_median (in_center (ByRows k)) k f).
Definition deltas : list fl := diffs medians_of.

Lemma medians_length : List.length medians_of = List.length f.
Proof. unfold medians_of, vals. rewrite map_length. apply rolling_median_length. Qed.
Lemma medians_cases : forall i, (i < List.length f)%nat ->
  (exists m, at_row medians_of i = Fin m /\ window_median (around_rows k) k f i m) \/
  (at_row medians_of i = NaN /\ forall m, ~ window_median (around_rows k) k f i m).
Proof.
  intros i Hi. unfold medians_of. rewrite at_vals. destruct (nth_error f i) as [[t v] |] eqn:E; [| apply nth_error_None in E; lia].
  destruct (rolling_row _ _ (in_center_rows k) k f i t v k_pos E) as (x & Ex & Hx). rewrite Ex. cbn [snd].
  destruct Hx as [(m & -> & Hm) | [-> Hm]]; [left; eauto | right; auto].
Qed.
Lemma deltas_length : List.length deltas = List.length f.
Proof. unfold deltas, diffs. rewrite map_length, seq_length. apply medians_length. Qed.
Lemma deltas_row : forall i, (i < List.length f)%nat ->
  (exists d, at_row deltas i = Fin d /\ step_at k f i d) \/ (at_row deltas i = NaN /\ forall d, ~ step_at k f i d).
Proof.
  intros i Hi. unfold deltas, diffs.
  assert (at_row (map (fun i => match i with O => NaN | S j => fsub (at_row medians_of i) (at_row medians_of j) end) (seq 0 (List.length medians_of))) i =
    match i with O => NaN | S j => fsub (at_row medians_of i) (at_row medians_of j) end) as ->.
  { apply nth_error_nth. rewrite nth_error_map_some, nth_error_seq, medians_length. assert (i <? List.length f = true)%nat as -> by (apply Nat.ltb_lt; exact Hi). reflexivity. }
  destruct i as [| j]; [right; split; [reflexivity |]; intros d (j & m & m' & C & _); discriminate |].
  destruct (medians_cases (S j) Hi) as [(m & Em & Hm) | [Em Hm]]; [destruct (medians_cases j ltac:(lia)) as [(m' & Em' & Hm') | [Em' Hm']] |]; rewrite Em.
  - left. exists (m - m'). rewrite Em'. split; [reflexivity |]. exists j, m, m'. auto.
  - right. rewrite Em'. split; [reflexivity |]. intros d (j0 & a & b & E & _ & Hb & _). injection E as <-. exact (Hm' b Hb).
  - right. split; [destruct (at_row medians_of j); reflexivity |]. intros d (j0 & a & b & E & Ha & _). exact (Hm a Ha).
Qed.
Lemma step_at_unique : forall i d d', step_at k f i d -> step_at k f i d' -> d = d'.
Proof.
  intros i d d' (j & m & m' & -> & H1 & H2 & ->) (j0 & n & n' & E & K1 & K2 & ->). injection E as <-.
  rewrite (window_median_unique _ _ (in_center_rows k) k f _ m n k_pos H1 K1), (window_median_unique _ _ (in_center_rows k) k f _ m' n' k_pos H2 K2). reflexivity.
Qed.
Lemma step_at_range : forall i d, step_at k f i d -> (i < List.length f)%nat.
Proof. intros i d (j & m & m' & -> & (t & v & l & E & _) & _). apply nth_error_Some. congruence. Qed.
Lemma all_steps : steps k f 0 (finvals deltas).
Proof.
  assert (forall m i, (i + m = List.length f)%nat -> steps k f i (finvals (skipn i deltas))) as K; [| apply (K (List.length f) 0%nat); lia].
  induction m as [| m IH]; intros i Hi.
  - rewrite skipn_all2 by (rewrite deltas_length; lia). apply steps_end. apply nth_error_None. lia.
  - assert (skipn i deltas = at_row deltas i :: skipn (S i) deltas) as ->.
    { assert (i < List.length deltas)%nat as L by (rewrite deltas_length; lia). clear -L. revert i L. induction deltas as [| x l IH]; intros i L; [cbn in L; lia |].
      destruct i as [| i]; [reflexivity |]. cbn [skipn]. rewrite IH by (cbn in L; lia). reflexivity. }
    destruct (deltas_row i ltac:(lia)) as [(d & E & H) | [E H]]; rewrite E; cbn [finvals].
    + apply steps_take; [exact H | apply IH; lia].
    + apply steps_skip; [apply nth_error_Some; lia | exact H | apply IH; lia].
Qed.
Lemma all_steps_unique : forall i l l', steps k f i l -> steps k f i l' -> l = l'.
Proof.
  intros i l l' H. revert l'. induction H as [i E | i d l Hd H IH | i l Hn Hd H IH]; intros l' K.
  - inversion K as [| ? ? ? D _ | ]; subst; [reflexivity | |]; exfalso; [apply step_at_range in D; apply nth_error_None in E; lia | contradiction].
  - inversion K as [? E | ? d' l'' D' K' | ? ? Hn' Hd' K']; subst.
    + exfalso. apply step_at_range in Hd. apply nth_error_None in E. lia.
    + f_equal; [apply (step_at_unique i); assumption | apply IH; assumption].
    + contradiction (Hd' d Hd).
  - inversion K as [? E | ? d' l'' D' K' | ? ? Hn' Hd' K']; subst; [contradiction | contradiction (Hd d' D') | apply IH; assumption].
Qed.
Lemma deltas_noinf : noinf deltas.
Proof.
  intros x Hx. apply (In_nth _ _ NaN) in Hx. destruct Hx as (i & Hi & <-). rewrite deltas_length in Hi. fold (at_row deltas i).
  destruct (deltas_row i Hi) as [(d & E & _) | [E _]]; rewrite E; split; discriminate.
Qed.
Lemma deltas_nonempty : forall i d, step_at k f i d -> finvals deltas <> [].
Proof.
  intros i d H C. pose proof (step_at_range _ _ H) as Hi. destruct (deltas_row i Hi) as [(d' & E & H') | [_ N]]; [|exact (N d H)].
  assert (In d' (finvals deltas)) as K; [| rewrite C in K; destruct K]. apply finvals_In. rewrite <- E. apply nth_In. rewrite deltas_length. exact Hi.
Qed.
(** A quantile of the sizes. *)
Lemma deltas_quantile : forall q, 0 <= q -> q <= 1 ->
  (exists v, fquantile q (map fabs deltas) = Fin v /\ is_percentile (qz 100 * q) (map qabs (finvals deltas)) v) \/
  (fquantile q (map fabs deltas) = NaN /\ finvals deltas = []).
Proof.
  intros q H0 H1. pose proof (abs_noinf _ deltas_noinf) as NI. destruct (finvals deltas) as [| a l] eqn:E.
  - right. split; [|reflexivity]. apply fquantile_empty. rewrite (dropna_noinf _ NI), finvals_abs, E. reflexivity.
  - left. assert (finvals (map fabs deltas) <> []) as NE by (rewrite finvals_abs, E; discriminate).
    rewrite fquantile_noinf by assumption. rewrite finvals_abs, E in *. eexists. split; [reflexivity|].
    apply quantile_is; [exact NE | exact H0 | exact H1].
Qed.
End Steps.

Lemma events_row : forall (p : fl -> bool) l i, nth_error (map p l) i = Some true <-> (i < List.length l)%nat /\ p (at_row l i) = true.
Proof.
  intros p l i. rewrite nth_error_map_some. split.
  - intro H. destruct (nth_error l i) as [x|] eqn:E; [|discriminate H]. rewrite (at_row_error _ _ _ E). split; [apply nth_error_Some; congruence|congruence].
  - intros [Hi H]. rewrite error_at_row by exact Hi. rewrite H. reflexivity.
Qed.

Lemma ce_detection_spec : forall b w tuner l i, noinf l -> (1 <= w)%nat ->
  (detected (fst (ce_detection b w (Fin tuner) l)) i <-> upward_shift b w tuner l i).
Proof.
  intros b w tuner l i N Hw. unfold ce_detection, detected, centered_medians. cbn [fst]. set (f := numbered (fill b l)).
  fold (medians_of w f). fold (deltas w f). rewrite events_row, deltas_length. unfold fgt. split.
  - intros [Hi H]. destruct (deltas_row w f Hw i Hi) as [(d & E & Hd)|[E _]]; rewrite E in H.
    2: { destruct (fadd _ _) in H; discriminate H. }
    destruct (deltas_quantile w f Hw (qf 3 4) ltac:(discriminate) ltac:(discriminate)) as [(q3 & E3 & P3)|[E3 _]]; rewrite E3 in H; [|discriminate H].
    destruct (deltas_quantile w f Hw (qf 1 4) ltac:(discriminate) ltac:(discriminate)) as [(q1 & E1 & P1)|[E1 _]]; rewrite E1 in H; [|discriminate H].
    exists f, (finvals (deltas w f)), q1, q3, d. split; [apply filled_rows_ok; exact N|]. split; [apply all_steps; exact Hw|].
    replace (qz 25) with (qz 100 * qf 1 4) by (apply Qc_is_canon; reflexivity). replace (qz 75) with (qz 100 * qf 3 4) by (apply Qc_is_canon; reflexivity).
    split; [exact P1|]. split; [exact P3|]. split; [exact Hd|]. apply qlt_spec. exact H.
  - intros (g & ds & q25 & q75 & d & G & Ds & P1 & P3 & Hd & L).
    assert (g = f) as -> by exact (filled_rows_unique _ _ _ _ G (filled_rows_ok b l N)).
    apply (all_steps_unique w f Hw _ _ _ (all_steps w f Hw)) in Ds. subst ds.
    pose proof (step_at_range w f _ _ Hd) as Hi. split; [exact Hi|].
    destruct (deltas_row w f Hw i Hi) as [(d' & E & Hd')|[_ C]]; [|contradiction (C d Hd)]. rewrite E, (step_at_unique w f Hw _ _ _ Hd' Hd).
    pose proof (deltas_nonempty w f Hw _ _ Hd) as NE.
    assert (NA : map qabs (finvals (deltas w f)) <> []) by (destruct (finvals (deltas w f)); [contradiction|discriminate]).
    destruct (deltas_quantile w f Hw (qf 3 4) ltac:(discriminate) ltac:(discriminate)) as [(q3 & E3 & Q3)|[_ C]]; [|contradiction]. rewrite E3.
    destruct (deltas_quantile w f Hw (qf 1 4) ltac:(discriminate) ltac:(discriminate)) as [(q1 & E1 & Q1)|[_ C]]; [|contradiction]. rewrite E1.
    replace (qz 100 * qf 1 4) with (qz 25) in Q1 by (apply Qc_is_canon; reflexivity). replace (qz 100 * qf 3 4) with (qz 75) in Q3 by (apply Qc_is_canon; reflexivity).
    rewrite (is_percentile_unique (qz 25) _ _ NA ltac:(discriminate) ltac:(discriminate) Q1), (is_percentile_unique (qz 75) _ _ NA ltac:(discriminate) ltac:(discriminate) Q3),
      <- (is_percentile_unique (qz 25) _ _ NA ltac:(discriminate) ltac:(discriminate) P1), <- (is_percentile_unique (qz 75) _ _ NA ltac:(discriminate) ltac:(discriminate) P3).
    apply qlt_spec. exact L.
Qed.

Lemma soiling_detection_spec : forall b tuner l i, noinf l ->
  (detected (soiling_detection b (Fin tuner) l) i <-> downward_shift b tuner l i).
Proof.
  intros b tuner l i N. unfold soiling_detection, downward_shift, detected, centered_medians. set (f := numbered (fill b l)).
  assert (Hw : (1 <= 9)%nat) by lia. set (w := 9%nat) in *. clearbody w.
  fold (medians_of w f). fold (deltas w f). rewrite events_row, deltas_length. split.
  - intros [Hi H]. destruct (deltas_row w f Hw i Hi) as [(d & E & Hd)|[E _]]; rewrite E in H; [|discriminate H].
    destruct (deltas_quantile w f Hw (qf 99 100) ltac:(discriminate) ltac:(discriminate)) as [(q3 & E3 & P3)|[E3 _]].
    2: { rewrite E3 in H. destruct (fquantile (qf 1 100) (map fabs (deltas w f))); discriminate H. }
    rewrite E3 in H.
    destruct (deltas_quantile w f Hw (qf 1 100) ltac:(discriminate) ltac:(discriminate)) as [(q1 & E1 & P1)|[E1 _]]; rewrite E1 in H; [|discriminate H].
    exists f, (finvals (deltas w f)), q1, q3, d. split; [apply filled_rows_ok; exact N|]. split; [apply all_steps; exact Hw|].
    replace (qz 1) with (qz 100 * qf 1 100) by (apply Qc_is_canon; reflexivity). replace (qz 99) with (qz 100 * qf 99 100) by (apply Qc_is_canon; reflexivity).
    split; [exact P1|]. split; [exact P3|]. split; [exact Hd|]. apply qlt_spec. exact H.
  - intros (g & ds & q25 & q75 & d & G & Ds & P1 & P3 & Hd & L).
    assert (g = f) as -> by exact (filled_rows_unique _ _ _ _ G (filled_rows_ok b l N)).
    apply (all_steps_unique w f Hw _ _ _ (all_steps w f Hw)) in Ds. subst ds.
    pose proof (step_at_range w f _ _ Hd) as Hi. split; [exact Hi|].
    destruct (deltas_row w f Hw i Hi) as [(d' & E & Hd')|[_ C]]; [|contradiction (C d Hd)]. rewrite E, (step_at_unique w f Hw _ _ _ Hd' Hd).
    pose proof (deltas_nonempty w f Hw _ _ Hd) as NE.
    assert (NA : map qabs (finvals (deltas w f)) <> []) by (destruct (finvals (deltas w f)); [contradiction|discriminate]).
    destruct (deltas_quantile w f Hw (qf 99 100) ltac:(discriminate) ltac:(discriminate)) as [(q3 & E3 & Q3)|[_ C]]; [|contradiction]. rewrite E3.
    destruct (deltas_quantile w f Hw (qf 1 100) ltac:(discriminate) ltac:(discriminate)) as [(q1 & E1 & Q1)|[_ C]]; [|contradiction]. rewrite E1.
    replace (qz 100 * qf 1 100) with (qz 1) in Q1 by (apply Qc_is_canon; reflexivity). replace (qz 100 * qf 99 100) with (qz 99) in Q3 by (apply Qc_is_canon; reflexivity).
    rewrite (is_percentile_unique (qz 1) _ _ NA ltac:(discriminate) ltac:(discriminate) Q1), (is_percentile_unique (qz 99) _ _ NA ltac:(discriminate) ltac:(discriminate) Q3),
      <- (is_percentile_unique (qz 1) _ _ NA ltac:(discriminate) ltac:(discriminate) P1), <- (is_percentile_unique (qz 99) _ _ NA ltac:(discriminate) ltac:(discriminate) P3).
    apply qlt_spec. exact L.
Qed.

(** ** Outliers *)

Lemma np_quantile_map : forall q l, l <> [] -> 0 <= q -> q <= 1 -> exists v, np_quantile q (map Fin l) = Fin v /\ is_percentile (qz 100 * q) l v.
Proof.
  intros q l NE H0 H1. unfold np_quantile.
  assert (existsb isnan (map Fin l) = false) as -> by (clear; induction l; [reflexivity|exact IHl]).
  assert (noinf (map Fin l)) as NI by (intros x Hx; apply in_map_iff in Hx; destruct Hx as (y & <- & _); split; discriminate).
  rewrite fquantile_noinf by (first [exact NI | exact H0 | exact H1 | rewrite finvals_map_Fin; exact NE]). rewrite finvals_map_Fin. eexists. split; [reflexivity|]. apply quantile_is; assumption.
Qed.

Lemma map_fin_ext : forall (p : fl -> bool) (q : Qc -> bool) l, (forall x, p (Fin x) = q x) -> map p (map Fin l) = map q l.
Proof. intros p q l H. rewrite map_map. apply map_ext. exact H. Qed.

Lemma outliers_spec : forall multiplier w l, l <> [] ->
  exists up low, (forall x, up x = true <-> above_fence multiplier l x) /\ (forall x, low x = true <-> below_fence multiplier l x) /\
  find_numeric_outliers (Fin multiplier) w (map Fin l) =
    Ok (if String.eqb w "upper" then Upper (map up l) else if String.eqb w "lower" then Lower (map low l)
        else if String.eqb w "both" then Both (map up l) (map low l) else Neither).
Proof.
  intros m w l NE.
  destruct (np_quantile_map (qf 3 4) l NE ltac:(discriminate) ltac:(discriminate)) as (q3 & E3 & P3).
  destruct (np_quantile_map (qf 1 4) l NE ltac:(discriminate) ltac:(discriminate)) as (q1 & E1 & P1).
  replace (qz 100 * qf 1 4) with (qz 25) in P1 by (apply Qc_is_canon; reflexivity). replace (qz 100 * qf 3 4) with (qz 75) in P3 by (apply Qc_is_canon; reflexivity).
  exists (fun x => qlt (q3 + m * (q3 - q1)) x), (fun x => qlt x (q1 - m * (q3 - q1))). split; [|split].
  - intro x. rewrite qlt_spec. split; [intro L; exists q1, q3; auto|]. intros (a & b & Pa & Pb & L).
    rewrite (is_percentile_unique (qz 25) _ _ NE ltac:(discriminate) ltac:(discriminate) Pa), (is_percentile_unique (qz 75) _ _ NE ltac:(discriminate) ltac:(discriminate) Pb),
      <- (is_percentile_unique (qz 25) _ _ NE ltac:(discriminate) ltac:(discriminate) P1), <- (is_percentile_unique (qz 75) _ _ NE ltac:(discriminate) ltac:(discriminate) P3) in L. exact L.
  - intro x. rewrite qlt_spec. split; [intro L; exists q1, q3; auto|]. intros (a & b & Pa & Pb & L).
    rewrite (is_percentile_unique (qz 25) _ _ NE ltac:(discriminate) ltac:(discriminate) Pa), (is_percentile_unique (qz 75) _ _ NE ltac:(discriminate) ltac:(discriminate) Pb),
      <- (is_percentile_unique (qz 25) _ _ NE ltac:(discriminate) ltac:(discriminate) P1), <- (is_percentile_unique (qz 75) _ _ NE ltac:(discriminate) ltac:(discriminate) P3) in L. exact L.
  - unfold find_numeric_outliers. destruct (map Fin l) as [|y l'] eqn:El; [destruct l; [contradiction|discriminate El]|].
    rewrite E3, E1. rewrite <- El. cbn [fsub fneg fadd fmul].
    rewrite (map_fin_ext (fun v => fgt v (Fin (q3 + m * (q3 + - q1)))) (fun x => qlt (q3 + m * (q3 - q1)) x)) by reflexivity.
    rewrite (map_fin_ext (fun v => flt v (Fin (q1 + - (m * (q3 + - q1))))) (fun x => qlt x (q1 - m * (q3 - q1)))) by reflexivity.
    destruct (String.eqb w "upper"), (String.eqb w "lower"), (String.eqb w "both"); reflexivity.
Qed.

(** A missing value hides all outliers. *)
Lemma outliers_missing : forall multiplier l, In NaN l ->
  find_numeric_outliers multiplier "lower" l = Ok (Lower (map (fun _ => false) l)).
Proof.
  intros m l H. unfold find_numeric_outliers, np_quantile.
  assert (existsb isnan l = true) as -> by (apply existsb_exists; exists NaN; auto).
  destruct l as [|x l]; [destruct H|]. cbn [String.eqb Ascii.eqb Bool.eqb]. f_equal. f_equal. apply map_ext. intros v.
  cbn [fsub fneg fadd]. destruct v; reflexivity.
Qed.

(** ** A steady decline *)

Lemma percentile_const : forall p l v c, (forall x, In x l -> x = c) -> is_percentile p l v -> v = c.
Proof.
  intros p l v c H (s & k & t & (P & _) & _ & _ & _ & K & ->).
  assert (HS : forall x, In x s -> x = c) by (intros x Hx; apply H; apply Permutation_sym in P; eapply Permutation_in; eassumption).
  rewrite (HS (nth k s 0)) by (apply nth_In; exact K).
  assert (nth (S k) s c = c) as ->.
  { destruct (nth_in_or_default (S k) s c) as [I|E]; [exact (HS _ I)|exact E]. }
  ring.
Qed.
Lemma steps_complete : forall k f a l, (1 <= k)%nat -> steps k f a l -> forall i d, (a <= i)%nat -> step_at k f i d -> In d l.
Proof.
  intros k f a l Hk H. induction H as [a E|a d0 l S0 H IH|a l N0 N H IH]; intros i d Hi Hd.
  - pose proof (step_at_range k f i d Hd) as R. apply nth_error_None in E. lia.
  - destruct (Nat.eq_dec i a) as [->|C]; [left; exact (step_at_unique k f Hk _ _ _ S0 Hd)|right; apply (IH i d); [lia|exact Hd]].
  - destruct (Nat.eq_dec i a) as [->|C]; [elim (N d Hd)|apply (IH i d); [lia|exact Hd]].
Qed.

(** If every step of the rolling median is the same fall, every one of them is an event,
    whatever the tuning. *)
Lemma steady_decline : forall b tuner l f ds c i d, noinf l -> filled_rows b l f -> steps 9 f 0 ds -> (forall x, In x ds -> x = - c) -> 0 < c ->
  step_at 9 f i d -> detected (soiling_detection b (Fin tuner) l) i.
Proof.
  intros b tuner l f ds c i d N F SS H C D. apply soiling_detection_spec; [exact N|].
  assert (Hk : (1 <= 9)%nat) by lia. set (w := 9%nat) in *.
  pose proof (steps_complete w f 0 ds Hk SS i d (Nat.le_0_l _) D) as I.
  assert (NE : map qabs ds <> []) by (destruct ds; [destruct I|discriminate]).
  assert (HC : forall x, In x (map qabs ds) -> x = c).
  { intros x Hx. apply in_map_iff in Hx. destruct Hx as (y & <- & Hy). rewrite (H y Hy). replace (- c) with ((- (1)) * c) by ring. rewrite qabs_mul, (qabs_pos c) by qlra. replace (qabs (- (1))) with 1 by (apply Qc_is_canon; reflexivity). ring. }
  pose proof (quantile_is (qf 1 100) (map qabs ds) NE ltac:(discriminate) ltac:(discriminate)) as P1.
  pose proof (quantile_is (qf 99 100) (map qabs ds) NE ltac:(discriminate) ltac:(discriminate)) as P99.
  assert (E1 : qz 100 * qf 1 100 = qz 1) by (apply Qc_is_canon; reflexivity). assert (E99 : qz 100 * qf 99 100 = qz 99) by (apply Qc_is_canon; reflexivity).
  rewrite E1 in P1. rewrite E99 in P99. pose proof (percentile_const _ _ _ _ HC P1) as K1. pose proof (percentile_const _ _ _ _ HC P99) as K99.
  exists f, ds, c, c, d. split; [exact F|]. split; [exact SS|]. rewrite K1 in P1. rewrite K99 in P99. split; [exact P1|]. split; [exact P99|]. split; [exact D|].
  rewrite (H d I). replace (c - tuner * (c - c)) with c by ring. qlra.
Qed.
