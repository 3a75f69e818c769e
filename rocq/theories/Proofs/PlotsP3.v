(** The degradation summary of a year-on-year analysis. *)

From Coq Require Import QArith Qcanon List ZArith Bool Lia Permutation Sorted.
From Verif.Base Require Import QcExtra Fl TimeSeries Calendar.
From Verif.Spec Require Import Stats Time YoY Plots.
From Verif.Model Require Import Utilities Bootstrap YearOnYear Clipping Plots.
From Verif.Proofs Require Import StatsP FlP ClipP PlotsP PlotsP2 YoYP YoYP2 YoYP3.
Import ListNotations.
Open Scope Qc_scope.

Lemma sorted_same : forall a b, Sorted Z.lt a -> Sorted Z.lt b -> Permutation a b -> a = b.
Proof.
  intros a b Ha Hb HP. pose proof (sorted_times_unique (map (fun t => (t, NaN)) a) a) as Ea. pose proof (sorted_times_unique (map (fun t => (t, NaN)) a) b) as Eb.
  assert (times (map (fun t => (t, NaN)) a) = a) as T by (unfold times; rewrite map_map; apply map_id). rewrite T in *.
  rewrite (Ea (Permutation_refl _) Ha), <- (Eb HP Hb). reflexivity.
Qed.
Lemma sorted_nodup : forall l, Sorted Z.lt l -> NoDup l.
Proof.
  intros l S. apply Sorted_StronglySorted in S; [| intros a b c; lia]. induction S as [| a l S IH F]; constructor; [| exact IH].
  intros I. rewrite Forall_forall in F. specialize (F a I). lia.
Qed.
Lemma numbers_fin : forall qs, numbers (map Fin qs) qs.
Proof. induction qs; constructor; assumption. Qed.
Lemma tally_fin : forall qs n, tally (fun v => v <> NaN) (map Fin qs) n -> n = length qs.
Proof.
  induction qs as [| q qs IH]; intros n H; inversion H as [| a l m Ha Hl | a l m Ha Hl]; subst; [reflexivity | |].
  - cbn. f_equal. apply IH, Hl.
  - exfalso. apply Ha. discriminate.
Qed.
Lemma Forall2_nth_error : forall {A B} (R : A -> B -> Prop) a b, Forall2 R a b -> forall k x y, nth_error a k = Some x -> nth_error b k = Some y -> R x y.
Proof.
  intros A B R a b H. induction H as [| x y a b H _ IH]; intros [| k] u v Hu Hv; try discriminate; cbn in *; [congruence | apply (IH k); assumption].
Qed.

Section Run.
Context (infer : list Z -> option (Z -> Z)) (sortv : series -> series) (choice : nat -> list (list nat)) (starts : list (list nat)).

(** The colour of a point by its uses as an end and as a start. *)
Lemma run_point : forall rc ep cl y o info ci bins f, sorts_by_shifted sortv -> Sorted Z.lt (times y) ->
  degradation_year_on_year infer sortv choice starts rc ep cl Simple y = Ok o -> info_of Simple o = Some info ->
  plot (yo_rate o) ci info y bins true = Ok f ->
  exists pick, partner_choice y pick /\ values_of_pairs y pick (yo_renorm o) (yo_values o) /\
  forall k t v, nth_error y k = Some (t, v) -> exists c, nth_error (m_points f) k = Some ((t, fdiv v (yo_renorm o)), Some c) /\
    let used_last := ends_pair (yo_values o) t in
    let used_first := exists dt, first_picked y pick t dt /\ ends_pair (yo_values o) dt in
    (c = Red <-> ~ used_last /\ ~ used_first) /\ (c = Chosen <-> used_last /\ used_first).
Proof.
  intros rc ep cl y o info ci bins f HS HN H HI HP. injection HI as <-.
  destruct (yoy_usage_pairs infer sortv choice starts rc ep cl Simple y o HS (sorted_nodup _ HN) H) as (UP & US & pick & PC & PV & UV).
  exists pick. split; [exact PC |]. split; [exact PV |]. intros k t v Hk.
  pose proof (sorted_same _ _ HN US UP) as UE.
  destruct (summary_figure_spec _ _ _ _ _ _ _ HP) as (values & V & F1 & F2 & _). cbn [p_values p_renorm p_usage] in *. injection V as <-.
  assert (length (yo_usage o) = length y) as Len by (rewrite <- (map_length fst), <- UE; apply map_length).
  assert (length (m_points f) = length y) as LenF by (rewrite <- (map_length fst), F1; apply map_length).
  destruct F2 as [_ [[_ F2] | [F2 _]]]; [| exfalso; rewrite !map_length in F2; congruence].
  assert (k < length y)%nat as K by (apply nth_error_Some; congruence).
  destruct (nth_error (m_points f) k) as [[p c] |] eqn:P; [| apply nth_error_None in P; lia].
  destruct (nth_error (yo_usage o) k) as [[t' u] |] eqn:U; [| apply nth_error_None in U; lia].
  assert (t' = t) as ->.
  { assert (nth_error (times y) k = Some t) as E1 by (unfold times; rewrite nth_error_map, Hk; reflexivity).
    assert (nth_error (map fst (yo_usage o)) k = Some t') as E2 by (rewrite nth_error_map, U; reflexivity). rewrite <- UE in E2. congruence. }
  assert (p = (t, fdiv v (yo_renorm o))) as ->.
  { assert (nth_error (map fst (m_points f)) k = Some p) as E1 by (rewrite nth_error_map, P; reflexivity). rewrite F1, nth_error_map, Hk in E1. cbn in E1. congruence. }
  assert (color_for u c) as C by (apply (Forall2_nth_error _ _ _ F2 k); rewrite nth_error_map; [rewrite U | rewrite P]; reflexivity).
  destruct (UV t u (nth_error_In _ _ U)) as (b & d & -> & Hb & Hd & Eb & Ed).
  destruct C as [[E ->] | [[E ->] | [E ->]]]; (eexists; split; [reflexivity |]); cbv zeta; rewrite <- Eb, <- Ed; split; split; intros Q; first [discriminate Q | reflexivity | lia | exfalso; lia].
Qed.

(** The marked rate is the median of the numbers counted by the bars. *)
Lemma run_bars : forall rc ep cl y o info ci bins detailed f,
  degradation_year_on_year infer sortv choice starts rc ep cl Simple y = Ok o -> info_of Simple o = Some info ->
  plot (yo_rate o) ci info y bins detailed = Ok f ->
  exists qs rate, vals (yo_values o) = map Fin qs /\ total (m_bars f) = length qs /\ m_mark f = Fin rate /\ m_rate f = Fin rate /\ is_median qs rate /\
    (detailed = true -> m_count f = Some (length qs)).
Proof.
  intros rc ep cl y o info ci bins detailed f H HI HP. injection HI as <-.
  destruct (yoy_median _ _ _ _ _ _ _ _ _ _ H) as [Hne HM].
  pose proof (proj1 (summary_drawn _ _ _ _ _ _) (ex_intro _ f HP)) as (values & V & _ & _ & (q & qs & N) & _). cbn [p_values] in V. injection V as <-.
  assert (vals (yo_values o) = map Fin (q :: qs)) as E.
  { destruct (full_core _ _ _ _ _ _ _ _ _ _ H) as (o' & rows & HCo & _ & E2 & _). destruct (core_Ok _ _ _ _ _ _ _ HCo) as (_ & _ & _ & _ & _ & EV & _).
    assert (~ In NaN (vals (yo_values o))) as NN.
    { rewrite E2, EV. unfold yoy_result, vals. intros I. apply in_map_iff in I. destruct I as (p & Ep & Ip). apply filter_In in Ip. destruct Ip as [_ Ip]. rewrite Ep in Ip. discriminate. }
    clear - N NN. remember (q :: qs) as l eqn:El. clear El. induction N as [| v l N IH | r v l N IH]; [reflexivity | |].
    - exfalso. apply NN. left. reflexivity.
    - cbn. rewrite IH; [reflexivity |]. intros I. apply NN. right. exact I. }
  destruct (HM _ E) as (rate & Er & Med & _).
  destruct (summary_figure_spec _ _ _ _ _ _ _ HP) as (values & V & _ & _ & _ & (n & _ & B) & M1 & M2 & _ & M3). cbn [p_values] in V. injection V as <-.
  exists (q :: qs), rate. split; [exact E |]. split.
  - cbn [p_renorm p_usage] in *. destruct y as [| a y]; [discriminate HP |]. rewrite (summary_eq _ _ (YoyInfo (Some (yo_values o)) (yo_renorm o) (yo_usage o)) (yo_values o) _ _ _ _ eq_refl) in HP.
    destruct (hist _ _) as [bars |] eqn:Hh in HP; [| discriminate]. cbn [bind] in HP. destruct (colors_of _ _ _) as [cs |] eqn:C in HP; [| discriminate]. cbn [bind] in HP. cbv zeta in HP.
    assert (m_bars f = bars) as -> by (match type of HP with Ok ?x = Ok f => assert (f = x) as -> by congruence end; reflexivity).
    destruct (hist_total _ _ _ Hh) as (qs' & N' & ->). apply numbers_noinf in N, N'. destruct N as [_ N], N' as [_ N']. congruence.
  - rewrite M1, M2. split; [exact Er |]. split; [exact Er |]. split; [exact Med |]. intros ->. destruct M3 as (m & -> & T). rewrite E in T. f_equal. apply tally_fin, T.
Qed.

(** With finite rates a figure is drawn for every positive number of bars; by default for 40 values at least. *)
Lemma run_drawn : forall rc ep cl y o info ci bins detailed qs, NoDup (times y) -> sorts_by_shifted sortv ->
  degradation_year_on_year infer sortv choice starts rc ep cl Simple y = Ok o -> info_of Simple o = Some info -> vals (yo_values o) = map Fin qs ->
  (exists f, plot (yo_rate o) ci info y bins detailed = Ok f) <-> match bins with Some b => (1 <= b)%Z | None => (40 <= length qs)%nat end.
Proof.
  intros rc ep cl y o info ci bins detailed qs HN HS H HI Hq. injection HI as <-.
  destruct (yoy_usage_pairs infer sortv choice starts rc ep cl Simple y o HS HN H) as (UP & US & pick & _ & _ & UV).
  destruct (yoy_median _ _ _ _ _ _ _ _ _ _ H) as [Hne _].
  assert (length (yo_values o) = length qs) as Len. { transitivity (length (vals (yo_values o))); [symmetry; apply map_length |]. rewrite Hq. apply map_length. }
  assert (length (yo_usage o) = length y) as LenU. { rewrite <- (map_length fst). transitivity (length (times y)); [symmetry; apply Permutation_length, UP | apply map_length]. }
  assert (Forall (fun u => u = 0 \/ u = 1 \/ u = 2)%Z (map snd (yo_usage o))) as FU.
  { apply Forall_forall. intros u Iu. apply in_map_iff in Iu. destruct Iu as ([t u'] & <- & I). cbn [snd]. destruct (UV t u' I) as (b & c & -> & Hb & Hc & _). lia. }
  assert (y <> []) as Hy by (intros ->; discriminate H).
  assert (length qs <> 0)%nat as Hl by (rewrite <- Len; destruct (yo_values o); [congruence | cbn; lia]).
  rewrite summary_drawn. cbn [p_values p_usage]. split.
  - intros (values & V & _ & (n & Hn & N1) & _). injection V as <-. rewrite Len in Hn. unfold bars_of_summary in Hn. destruct bins; lia.
  - intros Hb. exists (yo_values o). split; [reflexivity |]. split; [exact Hy |]. split.
    + exists (bins_of bins (Z.of_nat (length (yo_values o)))). split; [apply bins_spec |]. rewrite Len. unfold bins_of. destruct bins as [b |]; [lia |].
      pose proof (Z.div_le_mono 40 (Z.of_nat (length qs)) 40 ltac:(lia) ltac:(lia)). change (40 / 40)%Z with 1%Z in *. lia.
    + split; [rewrite Hq; destruct qs as [| q qs]; [cbn in Hl; lia |]; exists q, qs; apply numbers_fin |]. intros _. split; [exact FU | left; exact LenU].
Qed.

(** With circular blocks no figure is drawn. *)
Lemma run_blocks : forall L o info rd ci y bins detailed, info_of (CircularBlock L) o = Some info -> plot rd ci info y bins detailed = Raise KeyError.
Proof. intros L o info rd ci y bins detailed H. injection H as <-. reflexivity. Qed.

(** The unit of the yield does not matter. *)
Lemma run_unit : forall k ep cl y o info o' info' ci bins detailed, 0 < k ->
  degradation_year_on_year infer sortv choice starts true ep cl Simple y = Ok o -> info_of Simple o = Some info ->
  degradation_year_on_year infer sortv choice starts true ep cl Simple (scale_series k y) = Ok o' -> info_of Simple o' = Some info' ->
  plot (yo_rate o') ci info' (scale_series k y) bins detailed = plot (yo_rate o) ci info y bins detailed.
Proof.
  intros k ep cl y o info o' info' ci bins detailed Hk H HI H' HI'. rewrite (yoy_scale k Hk), H in H'. injection H' as <-. injection HI as <-. injection HI' as <-.
  destruct y as [| [t v] y]; [reflexivity |]. cbn [scale_series map]. rewrite !(summary_eq _ _ _ (yo_values o)) by reflexivity.
  cbn [p_values p_usage p_renorm yo_values yo_rate yo_usage yo_renorm fst snd]. change ((t, fscale k v) :: map (fun r => (fst r, fscale k (snd r))) y) with (scale_series k ((t, v) :: y)).
  destruct (hist _ _); [| reflexivity]. cbn [bind]. replace (length (scale_series k ((t, v) :: y))) with (length ((t, v) :: y)) by (unfold scale_series; rewrite map_length; reflexivity).
  destruct (colors_of _ _ _); [| reflexivity]. cbn [bind]. cbv zeta.
  replace (map (fun r => (fst r, fdiv (snd r) (fscale k (yo_renorm o)))) (scale_series k ((t, v) :: y))) with (map (fun r => (fst r, fdiv (snd r) (yo_renorm o))) ((t, v) :: y)).
  2: { unfold scale_series. rewrite map_map. apply map_ext. intros r. cbn [fst snd]. rewrite fdiv_fscale by exact Hk. reflexivity. }
  assert (fst (List.last (scale_series k ((t, v) :: y)) (t, NaN)) = fst (List.last ((t, v) :: y) (t, NaN))) as ->; [| reflexivity].
  rewrite !last_fst_times, scale_times. reflexivity.
Qed.
End Run.
