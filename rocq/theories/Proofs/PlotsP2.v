(** The degradation summary. *)

From Coq Require Import QArith Qcanon List ZArith Bool Lia Permutation Sorted.
From Verif.Base Require Import QcExtra Fl TimeSeries Calendar.
From Verif.Spec Require Import Stats Time YoY Plots.
From Verif.Model Require Import Utilities Bootstrap YearOnYear Clipping Plots.
From Verif.Proofs Require Import FlP ClipP PlotsP YoYP YoYP2.
Import ListNotations.
Open Scope Qc_scope.

Definition bins_of (bins : option Z) (n : Z) : Z := Z.min (match bins with None => (n / 40)%Z | Some b => b end) n.
Lemma bins_spec : forall bins n, bars_of_summary bins n (bins_of bins (Z.of_nat n)).
Proof.
  intros bins n. unfold bins_of, bars_of_summary. destruct bins as [b |]; [lia |].
  pose proof (Z.div_mod (Z.of_nat n) 40 ltac:(lia)). pose proof (Z.mod_pos_bound (Z.of_nat n) 40 ltac:(lia)). lia.
Qed.
Lemma bins_unique : forall bins n a, bars_of_summary bins n a -> a = bins_of bins (Z.of_nat n).
Proof.
  intros bins n a H. pose proof (bins_spec bins n) as K. unfold bars_of_summary in *. destruct bins; lia.
Qed.

Lemma pair_length : forall {A B} {R : A -> B -> Prop} {a b}, Forall2 R a b -> length a = length b.
Proof. induction 1; cbn; congruence. Qed.
Lemma color_of_spec : forall u c, color_of u = Some c <-> color_for u (Some c).
Proof.
  intros u c. unfold color_for. split.
  - unfold color_of. destruct u as [| p | p]; [| destruct p as [p | p |]; [| destruct p |] |]; intros H; inversion H; auto.
  - intros [[-> H] | [[-> H] | [-> H]]]; inversion H; reflexivity.
Qed.
Lemma color_of_none : forall u, color_of u = None <-> ~ (u = 0 \/ u = 1 \/ u = 2)%Z.
Proof.
  intros u. unfold color_of. split.
  - intros H [-> | [-> | ->]]; discriminate.
  - intros H. destruct u as [| p | p]; [| destruct p as [p | p |]; [| destruct p |] |]; try reflexivity; exfalso; apply H; auto.
Qed.
Lemma all_colors_ok : forall l cs, all_colors l = Ok cs <-> Forall2 (fun u c => color_for u (Some c)) l cs.
Proof.
  induction l as [| u l IH]; intros cs; cbn [all_colors].
  - split; intros H; [injection H as <-; constructor | inversion H; reflexivity].
  - split; intros H.
    + destruct (color_of u) as [c |] eqn:C; [| discriminate]. destruct (all_colors l) as [r |] eqn:R; [| discriminate]. injection H as <-.
      constructor; [apply color_of_spec, C | apply IH; reflexivity].
    + inversion H as [| a c b r Hc Hr]; subst. apply color_of_spec in Hc. rewrite Hc. apply IH in Hr. rewrite Hr. reflexivity.
Qed.
Lemma all_colors_drawn : forall l, (exists cs, all_colors l = Ok cs) <-> Forall (fun u => u = 0 \/ u = 1 \/ u = 2)%Z l.
Proof.
  intros l. split.
  - intros [cs H]. apply all_colors_ok in H. induction H as [| u c l cs H _ IH]; constructor; [| exact IH]. destruct H as [[-> _] | [[-> _] | [-> _]]]; auto.
  - intros F. induction F as [| u l H _ [cs IH]]; [exists []; reflexivity |]. apply all_colors_ok in IH.
    assert (exists c, color_for u (Some c)) as [c Hc] by (unfold color_for; destruct H as [-> | [-> | ->]]; [exists Red | exists Green | exists Chosen]; auto).
    exists (c :: cs). apply all_colors_ok. constructor; assumption.
Qed.
Lemma all_colors_error : forall l e, all_colors l = Raise e -> e = ValueError.
Proof.
  induction l as [| u l IH]; intros e; cbn [all_colors]; [discriminate |]. destruct (color_of u); [| congruence]. destruct (all_colors l); cbn [bind]; [discriminate |]. intros H. apply IH. congruence.
Qed.
Lemma spread_error : forall n cs e, spread n cs = Raise e -> e = ValueError.
Proof. intros n cs e. unfold spread. destruct (length cs =? n)%nat; [discriminate |]. destruct cs as [| c [| d cs]]; congruence. Qed.
Lemma spread_length : forall n cs out, spread n cs = Ok out -> length out = n.
Proof.
  intros n cs out. unfold spread. destruct (length cs =? n)%nat eqn:E; [apply Nat.eqb_eq in E; intros H; injection H as <-; rewrite map_length; exact E |].
  destruct cs as [| c [| d cs]]; [| | discriminate]; intros H; injection H as <-; apply repeat_length.
Qed.

Definition colors_of (detailed : bool) (usage : list Z) (n : nat) : result (list (option color)) :=
  if detailed then bind (all_colors usage) (spread n) else Ok (repeat (Some Chosen) n).
Lemma colors_length : forall detailed usage n cs, colors_of detailed usage n = Ok cs -> length cs = n.
Proof.
  intros [|] usage n cs; cbn [colors_of]; [| intros H; injection H as <-; apply repeat_length].
  destruct (all_colors usage); [apply spread_length | discriminate].
Qed.
Lemma colors_error : forall detailed usage n e, colors_of detailed usage n = Raise e -> e = ValueError.
Proof.
  intros [|] usage n e; cbn [colors_of]; [| discriminate]. destruct (all_colors usage) eqn:A; cbn [bind]; [apply spread_error |]. intros H. apply all_colors_error in A. congruence.
Qed.
Lemma colors_shown : forall detailed usage n cs, colors_of detailed usage n = Ok cs -> colors_show detailed usage cs.
Proof.
  intros [|] usage n cs H; unfold colors_of in H; unfold colors_show.
  - pose proof (all_colors_drawn usage) as D. destruct (all_colors usage) as [l |] eqn:A; [| discriminate]. cbn [bind] in H.
    split; [apply D; eexists; reflexivity |]. apply all_colors_ok in A. pose proof (pair_length A) as Len. pose proof (spread_length _ _ _ H) as Ln.
    unfold spread in H. destruct (length l =? n)%nat eqn:E.
    + left. apply Nat.eqb_eq in E. injection H as <-. split; [rewrite map_length; exact Len |]. clear - A. induction A; constructor; assumption.
    + right. apply Nat.eqb_neq in E. split; [congruence |]. destruct l as [| c [| d l]]; [| | discriminate]; injection H as <-.
      * left. inversion A. split; [reflexivity |]. apply Forall_forall. intros x Hx. apply repeat_spec in Hx. exact Hx.
      * right. inversion A as [| u c' ul cl Hu Hl]; subst. inversion Hl; subst. exists u. split; [reflexivity |]. apply Forall_forall. intros x Hx. apply repeat_spec in Hx. subst x. exact Hu.
  - injection H as <-. apply Forall_forall. intros x Hx. apply repeat_spec in Hx. exact Hx.
Qed.
Lemma colors_drawn : forall detailed usage n, (exists cs, colors_of detailed usage n = Ok cs) <->
  (detailed = true -> Forall (fun u => u = 0 \/ u = 1 \/ u = 2)%Z usage /\ (length usage = n \/ (length usage <= 1)%nat)).
Proof.
  intros [|] usage n; cbn [colors_of]; [| split; [discriminate |]; intros _; eexists; reflexivity].
  pose proof (all_colors_drawn usage) as D. split.
  - intros [cs H] _. destruct (all_colors usage) as [l |] eqn:A; [| discriminate]. cbn [bind] in H. split; [apply D; eexists; reflexivity |].
    apply all_colors_ok in A. rewrite (pair_length A). unfold spread in H. destruct (length l =? n)%nat eqn:E; [apply Nat.eqb_eq in E; left; exact E |].
    right. destruct l as [| c [| d l]]; [| | discriminate]; cbn; lia.
  - intros H. destruct (H eq_refl) as [F L]. apply D in F. destruct F as [l A]. rewrite A. cbn [bind]. apply all_colors_ok in A. rewrite (pair_length A) in L. unfold spread.
    destruct (length l =? n)%nat eqn:E; [eexists; reflexivity |]. apply Nat.eqb_neq in E. destruct l as [| c [| d l]]; [eexists; reflexivity | eexists; reflexivity |]. cbn [length] in L, E. lia.
Qed.

Lemma map_fst_combine : forall {A B} (a : list A) (b : list B), length a = length b -> map fst (combine a b) = a.
Proof. induction a as [| x a IH]; intros [| y b] H; try discriminate; [reflexivity |]. cbn. rewrite IH by (cbn in H; lia). reflexivity. Qed.
Lemma map_snd_combine : forall {A B} (a : list A) (b : list B), length a = length b -> map snd (combine a b) = b.
Proof. induction a as [| x a IH]; intros [| y b] H; try discriminate; [reflexivity |]. cbn. rewrite IH by (cbn in H; lia). reflexivity. Qed.
Lemma last_nth_error : forall {A} (l : list A) a d, nth_error (a :: l) (length (a :: l) - 1) = Some (List.last (a :: l) d).
Proof.
  intros A l. induction l as [| b l IH]; intros a d; [reflexivity |].
  change (List.last (a :: b :: l) d) with (List.last (b :: l) d). rewrite <- (IH b d). cbn [length]. replace (S (S (length l)) - 1)%nat with (S (S (length l) - 1)) by lia. reflexivity.
Qed.
Lemma tally_notnan : forall l, tally (fun v => v <> NaN) l (fcount l).
Proof. intros l. apply tally_filter. intros a _. destruct a; cbn; split; congruence. Qed.

Definition plot := degradation_summary_plots.
Lemma summary_eq : forall rd ci info values a y bins detailed, p_values info = Some values ->
  plot rd ci info (a :: y) bins detailed =
  bind (hist (bins_of bins (Z.of_nat (length values))) (vals values)) (fun bars =>
  bind (colors_of detailed (map snd (p_usage info)) (length (a :: y))) (fun colors =>
  let stop := fst (List.last (a :: y) (fst a, NaN)) in
  Ok (SummaryFigure (combine (map (fun r => (fst r, fdiv (snd r) (p_renorm info))) (a :: y)) colors)
        ((fst a, Fin 1), (stop, fadd (Fin 1) (fdiv (fmul rd (Fin (qz ((stop - fst a) / ns_day)%Z / qf 36525 100))) (fz 100))))
        bars rd rd ci (if detailed then Some (fcount (vals values)) else None)))).
Proof. intros rd ci info values [t v] y bins detailed H. unfold plot, degradation_summary_plots. rewrite H. reflexivity. Qed.

Lemma summary_figure_spec : forall rd ci info y bins detailed f, plot rd ci info y bins detailed = Ok f ->
  exists values, p_values info = Some values /\ summary_shows rd ci values (p_renorm info) (map snd (p_usage info)) y bins detailed f.
Proof.
  intros rd ci info y bins detailed f H. destruct (p_values info) as [values |] eqn:V; [| unfold plot, degradation_summary_plots in H; rewrite V in H; discriminate].
  exists values. split; [reflexivity |]. destruct y as [| a y]; [unfold plot, degradation_summary_plots in H; rewrite V in H; discriminate |].
  rewrite (summary_eq rd ci info values a y bins detailed V) in H.
  destruct (hist _ _) as [bars |] eqn:B in H; [| discriminate]. cbn [bind] in H. destruct (colors_of _ _ _) as [cs |] eqn:C in H; [| discriminate]. cbn [bind] in H. cbv zeta in H.
  match type of H with Ok ?x = Ok f => assert (f = x) as -> by congruence end. clear H.
  unfold summary_shows. cbn [m_points m_line m_bars m_mark m_rate m_interval m_count].
  assert (length (map (fun r => (fst r, fdiv (snd r) (p_renorm info))) (a :: y)) = length cs) as L by (rewrite map_length; symmetry; apply (colors_length _ _ _ _ C)).
  rewrite (map_fst_combine _ _ L), (map_snd_combine _ _ L).
  split; [reflexivity |]. split; [apply (colors_shown _ _ _ _ C) |]. split.
  - exists a, (List.last (a :: y) (fst a, NaN)), ((fst (List.last (a :: y) (fst a, NaN)) - fst a) / ns_day)%Z.
    split; [reflexivity |]. split; [apply last_nth_error |]. split; [| split; [reflexivity | split; reflexivity]].
    unfold whole_days. set (d := (fst (List.last (a :: y) (fst a, NaN)) - fst a)%Z). change (86400 * 1000000000)%Z with ns_day.
    assert (0 < ns_day)%Z as P by reflexivity. pose proof (Z.div_mod d ns_day ltac:(lia)). pose proof (Z.mod_pos_bound d ns_day P). lia.
  - split; [exists (bins_of bins (Z.of_nat (length values))); split; [apply bins_spec | apply hist_shows, B] |].
    split; [reflexivity |]. split; [reflexivity |]. split; [reflexivity |]. destruct detailed; [| reflexivity]. eexists. split; [reflexivity | apply tally_notnan].
Qed.

Lemma summary_drawn : forall rd ci info y bins detailed, (exists f, plot rd ci info y bins detailed = Ok f) <->
  exists values, p_values info = Some values /\ y <> [] /\ (exists n, bars_of_summary bins (length values) n /\ (1 <= n)%Z) /\ (exists q qs, numbers (vals values) (q :: qs)) /\
    (detailed = true -> Forall (fun u => u = 0 \/ u = 1 \/ u = 2)%Z (map snd (p_usage info)) /\ (length (p_usage info) = length y \/ (length (p_usage info) <= 1)%nat)).
Proof.
  intros rd ci info y bins detailed. split.
  - intros [f H]. destruct (p_values info) as [values |] eqn:V; [| unfold plot, degradation_summary_plots in H; rewrite V in H; discriminate].
    exists values. split; [reflexivity |]. destruct y as [| a y]; [unfold plot, degradation_summary_plots in H; rewrite V in H; discriminate |]. split; [discriminate |].
    rewrite (summary_eq rd ci info values a y bins detailed V) in H.
    destruct (hist _ _) as [bars |] eqn:B in H; [| discriminate]. cbn [bind] in H. destruct (colors_of _ _ _) as [cs |] eqn:C in H; [| discriminate].
    destruct (proj1 (hist_drawn _ _) (ex_intro _ bars B)) as [B1 B2]. split; [eexists; split; [apply bins_spec | exact B1] |]. split.
    + destruct B2 as [B2 | B2]; [| exact B2]. exfalso. apply map_eq_nil in B2. subst values. cbn [length] in B1. unfold bins_of in B1. lia.
    + pose proof (proj1 (colors_drawn _ _ _) (ex_intro _ cs C)) as D. rewrite map_length in D. exact D.
  - intros (values & V & Y & (n & Hn & N1) & N & D). destruct y as [| a y]; [congruence |]. rewrite (summary_eq rd ci info values a y bins detailed V).
    apply bins_unique in Hn. subst n. destruct (proj2 (hist_drawn _ (vals values)) (conj N1 (or_intror N))) as [bars ->]. cbn [bind].
    rewrite <- (map_length snd (p_usage info)) in D. apply colors_drawn in D. destruct D as [cs ->]. eexists. reflexivity.
Qed.

Lemma summary_error : forall rd ci info y bins detailed e, plot rd ci info y bins detailed = Raise e ->
  (e = KeyError <-> p_values info = None) /\ (e = IndexError <-> p_values info <> None /\ y = []) /\ (e = ValueError <-> p_values info <> None /\ y <> []).
Proof.
  intros rd ci info y bins detailed e H. destruct (p_values info) as [values |] eqn:V.
  - destruct y as [| a y].
    + unfold plot, degradation_summary_plots in H; rewrite V in H. injection H as <-. repeat split; intros; try discriminate; try congruence. destruct H. congruence.
    + rewrite (summary_eq rd ci info values a y bins detailed V) in H. assert (e = ValueError) as ->.
      { destruct (hist _ _) as [bars | e1] eqn:B in H; cbn [bind] in H; [| apply hist_error in B; congruence].
        destruct (colors_of _ _ _) as [cs | e2] eqn:C in H; cbn [bind] in H; [discriminate | apply colors_error in C; congruence]. }
      repeat split; intros; try discriminate; try congruence. destruct H0. discriminate.
  - unfold plot, degradation_summary_plots in H; rewrite V in H. injection H as <-. repeat split; intros; try discriminate; try congruence; destruct H; congruence.
Qed.
