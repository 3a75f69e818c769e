(** Year-on-year degradation of a constant. *)

From Coq Require Import QArith Qcanon List ZArith Bool Arith String Sorted Permutation Lia.
From Verif.Base Require Import QcExtra ISort Quantile Fl TimeSeries Calendar Rolling.
From Verif.Model Require Import Utilities Bootstrap YearOnYear.
From Verif.Spec Require Import Stats YoY Steady.
From Verif.Proofs Require Import StatsP YoYP YoYP2 BootP.
Import ListNotations.
Open Scope list_scope.
Open Scope Qc_scope.

(** ** Lists of one value *)
Lemma const_list : forall c l, (forall v, In v l -> v = Fin c) -> l = map Fin (repeat c (List.length l)).
Proof.
  intros c l H. induction l as [|x l IH]; [reflexivity|]. cbn [List.length repeat map]. rewrite (H x (or_introl eq_refl)) at 1. f_equal.
  apply IH. intros v I. apply H. now right.
Qed.
Lemma repeat_ne : forall {A B} (c : A) (l : list B), l <> [] -> repeat c (List.length l) <> [].
Proof. intros A B c [|x l] H; [congruence|discriminate]. Qed.
Lemma const_median : forall c l, l <> [] -> (forall v, In v l -> v = Fin c) -> fmedian l = Fin c.
Proof.
  intros c l Hl H. rewrite (const_list c l H). pose proof (repeat_ne c l Hl) as Hn.
  rewrite fmedian_noinf; [|apply noinf_map_Fin|rewrite finvals_map_Fin; exact Hn]. rewrite finvals_map_Fin. f_equal.
  apply qmedian_const; [exact Hn|]. intros x I. exact (repeat_spec _ _ _ I).
Qed.
Lemma const_quantile : forall q c l, l <> [] -> 0 <= q -> q <= 1 -> (forall v, In v l -> v = Fin c) -> fquantile q l = Fin c.
Proof.
  intros q c l Hl H0 H1 H. rewrite (const_list c l H). pose proof (repeat_ne c l Hl) as Hn.
  rewrite fquantile_noinf; [|apply noinf_map_Fin|rewrite finvals_map_Fin; exact Hn|exact H0|exact H1]. rewrite finvals_map_Fin. f_equal.
  apply qquantile_const; [exact Hn|exact H0|exact H1|]. intros x I. exact (repeat_spec _ _ _ I).
Qed.
Lemma const_percentile : forall p c l v, l <> [] -> (forall v, In v l -> v = Fin c) -> np_percentile p l = Ok v -> v = Fin c.
Proof.
  intros p c l v Hl H E. pose proof (repeat_ne c l Hl) as Hn. rewrite (const_list c l H) in E. unfold np_percentile in E.
  destruct (qle 0 p) eqn:A; [|discriminate]. destruct (qle p (qz 100)) eqn:B; [|discriminate]. apply qle_spec in A, B.
  cbn [andb] in E. injection E as <-. rewrite existsb_isnan_Fin.
  assert (0 <= p / qz 100) by (apply Qc_le_div; qlra). assert (p / qz 100 <= 1) by (apply Qc_div_le; qlra).
  rewrite fquantile_noinf; [|apply noinf_map_Fin|rewrite finvals_map_Fin; exact Hn|assumption|assumption].
  rewrite finvals_map_Fin. f_equal. apply qquantile_const; [exact Hn|assumption|assumption|]. intros x I. exact (repeat_spec _ _ _ I).
Qed.
Lemma const_interval : forall cl c l lo hi, l <> [] -> (forall v, In v l -> v = Fin c) -> percentile_ci cl l = Ok (lo, hi) -> lo = Fin c /\ hi = Fin c.
Proof.
  intros cl c l lo hi Hl H E. unfold percentile_ci in E. cbv zeta in E.
  destruct (np_percentile (qz 50 - cl / qz 2) l) as [a|] eqn:A; [|discriminate]. cbn [bind] in E.
  destruct (np_percentile (qz 50 + cl / qz 2) l) as [b|] eqn:B; [|discriminate]. cbn [bind] in E. injection E as <- <-.
  split; [exact (const_percentile _ c l a Hl H A)|exact (const_percentile _ c l b Hl H B)].
Qed.

(** ** The renormalizing factor *)
Lemma flat_sort : forall c s, flat_at c s -> flat_at c (sort_index s).
Proof. intros c s H t v I. apply (H t). apply sort_index_In. exact I. Qed.
Lemma flat_vals : forall c s v, flat_at c s -> In v (vals s) -> v = Fin c \/ v = NaN.
Proof. intros c s v H I. unfold vals in I. apply in_map_iff in I. destruct I as ([t x] & <- & I). exact (H t x I). Qed.
Lemma flat_robust : forall q c l, (forall v, In v l -> v = Fin c \/ v = NaN) -> robust_median q l = Fin c \/ robust_median q l = NaN.
Proof.
  intros q c l H. unfold robust_median. destruct (robust_keep q l) as [|x k] eqn:E; [now right|]. rewrite <- E. left. apply const_median; [rewrite E; discriminate|].
  intros v I. unfold robust_keep in I. apply filter_In in I. destruct I as [I G]. destruct (H v I) as [->| ->]; [reflexivity|]. unfold fgt in G. destruct (robust_small q l); discriminate G.
Qed.
Lemma flat_factor : forall rc c s first, flat_at c s -> renorm_factor rc s first = (if rc then Fin c else Fin 1) \/ renorm_factor rc s first = NaN.
Proof.
  intros rc c s first H. unfold renorm_factor. destruct rc; [|now left]. apply flat_robust. intros v I. apply (flat_vals c s v H).
  unfold vals in *. apply in_map_iff in I. destruct I as (r & E & I). apply filter_In in I. apply in_map_iff. exists r. tauto.
Qed.

(** ** The rate *)
Lemma merged_nan : forall sortv (s : series), yoy_result (merged sortv (map (fun r => (fst r, fdiv (snd r) NaN)) s)) = [].
Proof.
  intros sortv s. unfold yoy_result, merged. rewrite !map_map.
  set (right := sortv _). clearbody right. induction s as [|[t v] s IH]; [reflexivity|]. cbn [map filter yr_dt yr_yoy fst snd].
  assert (N : forall m, yoy_value t (fdiv v NaN) m = NaN) by (intros [[d e]|]; [|reflexivity]; unfold yoy_value; replace (fdiv v NaN) with NaN by (destruct v; reflexivity); reflexivity).
  rewrite N. exact IH.
Qed.
Lemma core_flat : forall infer sortv rc m input c o rows, 0 < c -> sorts_by_shifted sortv -> flat_at c input -> yoy_core infer sortv rc m input = Ok (o, rows) ->
  yo_renorm o = (if rc then Fin c else Fin 1) /\ flat_at (if rc then 1 else c) rows /\ rows <> [] /\
  yo_rate o = Fin 0 /\ (forall t v, In (t, v) (yo_values o) -> v = Fin 0) /\ yo_values o <> [].
Proof.
  intros infer sortv rc m input c o rows Hc Sv F H.
  assert (Full : exists o', degradation_year_on_year infer sortv (fun _ => []) [] rc 0 0 NoUncertainty input = Ok o' /\ yo_rate o' = yo_rate o /\ yo_values o' = yo_values o /\ yo_renorm o' = yo_renorm o).
  { unfold degradation_year_on_year, yoy_core in *. destruct (sort_index input) as [|[first v0] l] eqn:E; [discriminate|]. rewrite <- E in *.
    destruct (too_short _ _ _ _); [discriminate|]. cbn [circular_guard bind].
    destruct (circular_guard infer m (sort_index input)); cbn [bind] in H; [|discriminate].
    set (res := yoy_result _) in *. destruct res eqn:R; [discriminate|]. injection H as <- _. cbn [bind fst snd]. eexists. split; [reflexivity|]. cbn. auto. }
  destruct Full as (o' & Full & E1 & E2 & E3).
  unfold yoy_core in H. destruct (sort_index input) as [|[first v0] l] eqn:E; [discriminate|]. rewrite <- E in *.
  destruct (too_short _ _ _ _); [discriminate|]. destruct (circular_guard infer m (sort_index input)); cbn [bind] in H; [|discriminate].
  assert (R : renorm_factor rc (sort_index input) first = (if rc then Fin c else Fin 1)).
  { destruct (flat_factor rc c (sort_index input) first (flat_sort c input F)) as [->|R]; [reflexivity|]. rewrite R, merged_nan in H. discriminate. }
  rewrite R in H. set (res := yoy_result _) in *.
  assert (Ne : res <> []) by (destruct res; [discriminate|discriminate]).
  destruct res eqn:Er; [congruence|]. rewrite <- Er in *. injection H as <- <-. cbn [yo_renorm yo_rate yo_values] in *.
  assert (Hr : exists rho, (if rc then Fin c else Fin 1) = Fin rho /\ rho <> 0) by (destruct rc; eexists; split; try reflexivity; [intros ->; qlra|discriminate]).
  destruct Hr as (rho & Hr & Hz). rewrite Hr in E3.
  destruct (yoy_linear _ _ _ _ _ _ _ _ _ _ c 0 rho Sv Full) as [L1 L2]; [|exact E3|exact Hz|].
  { intros t e I. destruct (F t e I) as [->| ->]; [right; f_equal; ring|now left]. }
  assert (Z0 : qz 100 * (0 * qz (days 365)) / rho = 0) by (field; exact Hz). rewrite Z0 in *. rewrite E1 in L1. rewrite E2 in L2.
  split; [reflexivity|]. split; [|split; [rewrite E; discriminate|auto]].
  intros t v I. apply in_map_iff in I. destruct I as ([t' x] & Ex & I). injection Ex as <- <-. cbn [fst snd].
  destruct (flat_sort c input F _ _ I) as [->| ->]; [|now right]. left. rewrite Hr. cbn [fdiv].
  destruct (qeq rho 0) eqn:Q; [qb; contradiction|]. destruct rc; injection Hr as <-; f_equal; field; exact Hz.
Qed.

(** ** The uncertainty *)
Lemma trend_flat : forall rows v, In v (trend (Fin 0) rows) -> v = Fin 1.
Proof.
  intros rows v I. unfold trend in I. destruct rows as [|[t e] rows]; [destruct I|]. apply in_map_iff in I. destruct I as (i & <- & _). cbn; try reflexivity; f_equal; try ring.
Qed.
Lemma column_flat : forall L d signal fit starts v, (forall x, In x signal -> x = Fin d \/ x = NaN) -> (forall x, In x fit -> x = Fin 1) ->
  In v (bootstrap_column Multiplicative L signal fit starts) -> v = Fin d \/ v = NaN.
Proof.
  intros L d signal fit starts v Hs Hf I. unfold bootstrap_column in I. cbv zeta in I. unfold map2 in I at 1. apply in_map_iff in I. destruct I as ([m r] & <- & I). cbn [fst snd].
  pose proof (in_combine_l _ _ _ _ I) as I1. pose proof (in_combine_r _ _ _ _ I) as I2. rewrite (Hf m I1). apply in_map_iff in I2. destruct I2 as (i & <- & _).
  destruct (nth_in_or_default i (map2 (residual Multiplicative) signal fit) NaN) as [J| ->]; [|right; reflexivity].
  unfold map2 in J at 2. apply in_map_iff in J. destruct J as ([x y] & Ex & J). rewrite <- Ex. cbn [fst snd residual recombine].
  rewrite (Hf y (in_combine_r _ _ _ _ J)). destruct (Hs x (in_combine_l _ _ _ _ J)) as [->| ->]; [left|right; reflexivity].
  cbn. f_equal. field. discriminate.
Qed.
Lemma some_length : forall {A} (l : list A), l <> [] -> (0 < List.length l)%nat.
Proof. intros A [|x l] N; [congruence|cbn; lia]. Qed.
Lemma medians_flat : forall choice c l v, draws_ok choice -> l <> [] -> (forall x, In x l -> x = Fin c) -> In v (resampled_medians choice l) -> v = Fin c.
Proof.
  intros choice c l v D Nl H I. unfold resampled_medians in I. apply in_map_iff in I. destruct I as (d & <- & I). destruct (D (List.length l) (some_length l Nl)) as [_ Dd]. destruct (Dd d I) as [N P].
  apply const_median; [destruct d; [congruence|discriminate]|]. intros v J. apply in_map_iff in J. destruct J as (i & <- & J). apply H, nth_In, P, J.
Qed.
Lemma core_values : forall infer sortv rc m input o rows, yoy_core infer sortv rc m input = Ok (o, rows) -> vals (yo_values o) <> [].
Proof.
  intros infer sortv rc m input o rows H. unfold yoy_core in H. destruct (sort_index input) as [|[first v0] l]; [discriminate|].
  destruct (too_short _ _ _ _); [discriminate|]. destruct (circular_guard _ _ _); cbn [bind] in H; [|discriminate]. cbv zeta in H.
  destruct (yoy_result _) eqn:R; [discriminate|]. injection H as <- _. cbn [yo_values]. discriminate.
Qed.
Theorem flat_rate : forall infer sortv choice starts rc ep cl m input c o, 0 < c -> sorts_by_shifted sortv -> draws_ok choice -> starts <> [] -> flat_at c input ->
  degradation_year_on_year infer sortv choice starts rc ep cl m input = Ok o -> no_change o /\ yo_renorm o = (if rc then Fin c else Fin 1).
Proof.
  intros infer sortv choice starts rc ep cl m input c o Hc Sv D Hs F H. unfold degradation_year_on_year in H.
  destruct (yoy_core infer sortv rc m input) as [[o' rows]|] eqn:E; cbn [bind fst snd] in H; [|discriminate].
  destruct (core_flat _ _ _ _ _ c _ _ Hc Sv F E) as (R1 & R2 & R3 & R4 & R5 & R6).
  assert (V : forall x, In x (vals (yo_values o')) -> x = Fin 0) by (intros x I; unfold vals in I; apply in_map_iff in I; destruct I as ([t y] & <- & I); exact (R5 t y I)).
  pose proof (core_values _ _ _ _ _ _ _ E) as Nv.
  destruct m as [|L|].
  - assert (M : forall v, In v (resampled_medians choice (vals (yo_values o'))) -> v = Fin 0) by (intros v I; exact (medians_flat choice 0 _ v D Nv V I)).
    assert (Ne : resampled_medians choice (vals (yo_values o')) <> []).
    { unfold resampled_medians. destruct (D (List.length (vals (yo_values o'))) (some_length _ Nv)) as [N _]. destruct (choice _); [congruence|discriminate]. }
    destruct (percentile_ci _ _) as [[lo hi]|] eqn:C; cbn [bind] in H; [|discriminate]. destruct (exceedance _ _) as [ex|] eqn:X; cbn [bind] in H; [|discriminate].
    injection H as <-. split; [|exact R1]. split; [exact R4|]. split; [exact R5|]. cbn [yo_ci yo_exceedance]. split.
    + intros a b Eq. injection Eq as <- <-. exact (const_interval _ 0 _ _ _ Ne M C).
    + intros x Eq. injection Eq as <-. exact (const_percentile _ 0 _ _ Ne M X).
  - cbn [make_samples bind] in H. unfold construct_ci in H. set (samples := map _ starts) in *.
    destruct (mapM _ samples) as [metrics|] eqn:M; cbn [bind] in H; [|discriminate].
    destruct (mapM_Ok _ _ _ _ _ M) as [Len Nth].
    assert (Ne : metrics <> []) by (intros ->; unfold samples in Len; rewrite map_length in Len; destruct starts; [congruence|discriminate]).
    assert (Ms : forall v, In v metrics -> v = Fin 0).
    { intros v I. destruct (In_nth metrics v NaN I) as (k & Hk & <-). rewrite Len in Hk. specialize (Nth k [] NaN Hk). cbv beta in Nth.
      destruct (yoy_core infer sortv false NoUncertainty _) as [[o2 rows2]|] eqn:E2; [|discriminate]. cbn [bind fst] in Nth. injection Nth as Nth. rewrite <- Nth.
      refine (proj1 (proj2 (proj2 (proj2 (core_flat infer sortv false NoUncertainty _ (if rc then 1 else c) o2 rows2 _ Sv _ E2))))); [destruct rc; [reflexivity|exact Hc]|].
      intros t v' J. apply in_combine_r in J. unfold samples in J.
      destruct (nth_in_or_default k (map (bootstrap_column Multiplicative (Z.to_nat L) (vals rows) (trend (yo_rate o') rows)) starts) []) as [K|K]; [|rewrite K in J; destruct J].
      apply in_map_iff in K. destruct K as (st & K & _). rewrite <- K in J. revert J. apply column_flat.
      - intros x Ix. exact (flat_vals _ rows x R2 Ix).
      - rewrite R4. apply trend_flat. }
    destruct (percentile_ci _ _) as [[lo hi]|] eqn:C; cbn [bind] in H; [|discriminate]. destruct (exceedance _ _) as [ex|] eqn:X; cbn [bind] in H; [|discriminate].
    injection H as <-. split; [|exact R1]. split; [exact R4|]. split; [exact R5|]. cbn [yo_ci yo_exceedance]. split.
    + intros a b Eq. injection Eq as <- <-. exact (const_interval _ 0 _ _ _ Ne Ms C).
    + intros x Eq. injection Eq as <-. exact (const_percentile _ 0 _ _ Ne Ms X).
  - injection H as <-. split; [|exact R1]. split; [exact R4|]. split; [exact R5|].
    assert (Nn : yo_ci o' = None /\ yo_exceedance o' = None).
    { unfold yoy_core in E. destruct (sort_index input) as [|[first v0] l]; [discriminate|]. destruct (too_short _ _ _ _); [discriminate|]. cbn [circular_guard bind] in E.
      destruct (yoy_result _); [discriminate|]. injection E as <- _. split; reflexivity. }
    destruct Nn as [-> ->]. split; intros; discriminate.
Qed.
