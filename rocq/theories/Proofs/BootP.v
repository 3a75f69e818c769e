(** Circular block bootstrap: positions, samples, guards. *)

From Coq Require Import QArith Qcanon List ZArith Bool Permutation Sorted Lia Arith.
From Verif.Base Require Import QcExtra ISort Quantile Fl Calendar.
From Verif.Spec Require Import Stats Time YoY.
From Verif.Model Require Import Utilities Bootstrap YearOnYear.
From Verif.Proofs Require Import StatsP FlP YoYP YoYP2.
Import ListNotations.
Open Scope Qc_scope.

Lemma flat_map_length_const : forall A B (f : A -> list B) L l,
  (forall x, length (f x) = L) -> length (flat_map f l) = (length l * L)%nat.
Proof.
  intros A B f L l H. induction l as [| a l IH]; cbn; [reflexivity |].
  rewrite app_length, H, IH. reflexivity.
Qed.

Lemma nth_flat_map_const : forall A B (f : A -> list B) L d d' l i,
  (forall x, length (f x) = L) -> (i < length l * L)%nat ->
  nth i (flat_map f l) d = nth (i mod L) (f (nth (i / L) l d')) d.
Proof.
  intros A B f L d d' l i H Hi.
  assert (0 < L)%nat as HL by (destruct L; lia).
  revert i Hi. induction l as [| a l IH]; intros i Hi; cbn [length] in Hi; [lia |].
  cbn [flat_map]. destruct (lt_dec i L) as [Hlt | Hge].
  - rewrite app_nth1 by (rewrite H; exact Hlt).
    rewrite Nat.mod_small, Nat.div_small by exact Hlt. reflexivity.
  - rewrite app_nth2 by (rewrite H; lia). rewrite H.
    rewrite IH by lia.
    assert (i = (i - L) + 1 * L)%nat as E by lia.
    rewrite E at 3 4. rewrite Nat.mod_add, Nat.div_add by lia.
    rewrite Nat.add_1_r. reflexivity.
Qed.

Lemma nth_firstn_lt : forall A (l : list A) n i d, (i < n)%nat -> nth i (firstn n l) d = nth i l d.
Proof.
  intros A l n. revert l. induction n as [| n IH]; intros l i d H; [lia |].
  destruct l as [| a l]; [destruct i; reflexivity |].
  destruct i as [| i]; [reflexivity |]. cbn. apply IH. lia.
Qed.

Lemma block_positions_length : forall n L starts, (n <= length starts * L)%nat ->
  length (block_positions n L starts) = n.
Proof.
  intros n L starts H. unfold block_positions. rewrite firstn_length.
  rewrite (flat_map_length_const _ _ _ L) by (intros; rewrite map_length, seq_length; reflexivity). lia.
Qed.

Lemma block_positions_nth : forall n L starts i d, (n <= length starts * L)%nat -> (i < n)%nat ->
  nth i (block_positions n L starts) d = ((nth (i / L) starts 0 + i mod L) mod n)%nat.
Proof.
  intros n L starts i d H Hi. unfold block_positions. rewrite nth_firstn_lt by exact Hi.
  rewrite (nth_flat_map_const _ _ _ L d 0%nat) by
    (try (intros; rewrite map_length, seq_length; reflexivity); lia).
  assert (0 < L)%nat as HL by (destruct L; lia).
  assert (i mod L < L)%nat as Hm by (apply Nat.mod_upper_bound; lia).
  rewrite (nth_indep _ d ((nth (i / L) starts 0 + 0) mod n)%nat) by (rewrite map_length, seq_length; exact Hm).
  rewrite (map_nth (fun o => ((nth (i / L) starts 0 + o) mod n)%nat)).
  rewrite seq_nth by exact Hm. reflexivity.
Qed.

Lemma map2_length : forall A B C (f : A -> B -> C) l1 l2, length l1 = length l2 ->
  length (map2 f l1 l2) = length l1.
Proof. intros A B C f l1 l2 H. unfold map2. rewrite map_length, combine_length. lia. Qed.

Lemma map2_nth : forall A B C (f : A -> B -> C) l1 l2 i a b c, length l1 = length l2 ->
  (i < length l1)%nat -> nth i (map2 f l1 l2) c = f (nth i l1 a) (nth i l2 b).
Proof.
  intros A B C f l1 l2 i a b c H Hi. unfold map2.
  rewrite (nth_indep _ c (f a b)) by (rewrite map_length, combine_length; lia).
  change (f a b) with ((fun p => f (fst p) (snd p)) (a, b)).
  rewrite map_nth. rewrite combine_nth by exact H. reflexivity.
Qed.

(** The residual position used for position [i]. *)
Lemma column_length : forall d L signal fit starts,
  length fit = length signal -> (length signal <= length starts * L)%nat ->
  length (bootstrap_column d L signal fit starts) = length signal.
Proof.
  intros d L signal fit starts H1 H2. unfold bootstrap_column.
  rewrite map2_length; [exact H1 |]. rewrite map_length, block_positions_length by exact H2. exact H1.
Qed.

Lemma column_nth : forall d L signal fit starts i,
  length fit = length signal -> (length signal <= length starts * L)%nat -> (i < length signal)%nat ->
  exists j, j = ((nth (i / L) starts 0 + i mod L) mod length signal)%nat /\ (j < length signal)%nat /\
  nth i (bootstrap_column d L signal fit starts) NaN =
  recombine d (nth i fit NaN) (residual d (nth j signal NaN) (nth j fit NaN)).
Proof.
  intros d L signal fit starts i H1 H2 Hi.
  exists ((nth (i / L) starts 0 + i mod L) mod length signal)%nat. split; [reflexivity |].
  assert ((nth (i / L) starts 0 + i mod L) mod length signal < length signal)%nat as Hj
    by (apply Nat.mod_upper_bound; lia).
  split; [exact Hj |]. unfold bootstrap_column.
  assert (length (map (fun i0 => nth i0 (map2 (residual d) signal fit) NaN)
            (block_positions (length signal) L starts)) = length signal) as HLm
    by (rewrite map_length; apply block_positions_length, H2).
  rewrite (map2_nth _ _ _ _ _ _ i NaN NaN) by lia. f_equal.
  rewrite (nth_indep _ NaN (nth 0 (map2 (residual d) signal fit) NaN)) by lia.
  rewrite (map_nth (fun i0 => nth i0 (map2 (residual d) signal fit) NaN)).
  rewrite block_positions_nth by assumption.
  apply map2_nth; [symmetry; exact H1 | exact Hj].
Qed.

Lemma samples_mult : forall L signal fit all k i samples,
  length fit = length signal ->
  make_samples Multiplicative L signal fit all = Ok samples ->
  (forall st, In st all -> (length signal <= length st * L)%nat) ->
  length samples = length all /\
  ((k < length all)%nat ->
   length (nth k samples []) = length signal /\
   ((i < length signal)%nat ->
    exists j, j = ((nth (i / L) (nth k all []) 0 + i mod L) mod length signal)%nat /\
    (j < length signal)%nat /\
    nth i (nth k samples []) NaN =
    fmul (nth i fit NaN) (fdiv (nth j signal NaN) (nth j fit NaN)))).
Proof.
  intros L signal fit all k i samples H1 HM HA. injection HM as <-.
  split; [apply map_length |]. intros Hk.
  assert (In (nth k all []) all) as Hin by (apply nth_In, Hk).
  rewrite (nth_indep _ [] (bootstrap_column Multiplicative L signal fit [])) by (rewrite map_length; exact Hk).
  rewrite map_nth. split; [apply column_length; auto |]. intros Hi.
  destruct (column_nth Multiplicative L signal fit (nth k all []) i H1 (HA _ Hin) Hi) as (j & Ej & Hj & E).
  exists j. auto.
Qed.

Lemma samples_add : forall L signal fit all k i samples,
  length fit = length signal ->
  make_samples Additive L signal fit all = Ok samples ->
  (forall st, In st all -> (length signal <= length st * L)%nat) ->
  length samples = length all /\
  ((k < length all)%nat ->
   length (nth k samples []) = length signal /\
   ((i < length signal)%nat ->
    exists j, j = ((nth (i / L) (nth k all []) 0 + i mod L) mod length signal)%nat /\
    (j < length signal)%nat /\
    nth i (nth k samples []) NaN =
    fadd (nth i fit NaN) (fsub (nth j signal NaN) (nth j fit NaN)))).
Proof.
  intros L signal fit all k i samples H1 HM HA. injection HM as <-.
  split; [apply map_length |]. intros Hk.
  assert (In (nth k all []) all) as Hin by (apply nth_In, Hk).
  rewrite (nth_indep _ [] (bootstrap_column Additive L signal fit [])) by (rewrite map_length; exact Hk).
  rewrite map_nth. split; [apply column_length; auto |]. intros Hi.
  destruct (column_nth Additive L signal fit (nth k all []) i H1 (HA _ Hin) Hi) as (j & Ej & Hj & E).
  exists j. auto.
Qed.

(** A perfect model reproduces the signal in every sample. *)
Lemma samples_exact : forall d L signal all samples,
  make_samples d L (map Fin signal) (map Fin signal) all = Ok samples ->
  (d = Multiplicative -> ~ In 0 signal) ->
  (forall st, In st all -> (length signal <= length st * L)%nat) ->
  forall s, In s samples -> s = map Fin signal.
Proof.
  intros d L signal all samples HM HZ HA s Hs.
  assert (exists st, In st all /\ s = bootstrap_column d L (map Fin signal) (map Fin signal) st) as (st & Hst & ->).
  { destruct d; cbn in HM; [| | discriminate]; injection HM as <-;
      apply in_map_iff in Hs; destruct Hs as (st & E & Hst); exists st; auto. }
  specialize (HA _ Hst).
  apply (nth_ext _ _ NaN NaN).
  - rewrite column_length by (rewrite ?map_length; auto). reflexivity.
  - intros i Hi. rewrite column_length in Hi by (rewrite ?map_length; auto). rewrite map_length in Hi.
    destruct (column_nth d L (map Fin signal) (map Fin signal) st i eq_refl) as (j & _ & Hj & ->);
      [rewrite map_length; exact HA | rewrite map_length; exact Hi |].
    rewrite map_length in Hj.
    rewrite !(nth_map_Fin signal) by assumption.
    set (x := nth i signal 0). 
    assert (In (nth j signal 0) signal) as Hy by (apply nth_In, Hj). set (y := nth j signal 0) in *.
    destruct d; cbn [recombine residual].
    + cbn [fdiv]. assert (y <> 0) as Ny by (intros E; apply (HZ eq_refl); rewrite <- E; exact Hy).
      destruct (qeq y 0) eqn:E; [qb; contradiction |]. cbn [fmul]. f_equal. field. exact Ny.
    + cbn. f_equal. ring.
    + cbn. f_equal. ring.
Qed.

Lemma samples_other : forall L signal fit all,
  make_samples OtherDecomposition L signal fit all = Raise ValueError.
Proof. reflexivity. Qed.

(** ** C09: guards and trend *)

Lemma circular_guard_irregular : forall infer sortv choice starts rc ep cl L input ts,
  input <> [] -> Permutation (times input) ts -> Sorted Z.lt ts -> infer ts = None ->
  degradation_year_on_year infer sortv choice starts rc ep cl (CircularBlock L) input = Raise ValueError.
Proof.
  intros infer sortv choice starts rc ep cl L input ts Hs HP HS HI.
  pose proof (sorted_times_unique _ _ HP HS) as ->.
  unfold degradation_year_on_year. rewrite core_eq. destruct input as [| r0 inp]; [congruence |].
  destruct (too_short _ _ _ _); [reflexivity |]. unfold circular_guard. rewrite HI. reflexivity.
Qed.

Lemma circular_guard_long : forall infer sortv choice starts rc ep cl L input,
  input <> [] -> qz L > qz (Z.of_nat (length input)) / qz 3 ->
  degradation_year_on_year infer sortv choice starts rc ep cl (CircularBlock L) input = Raise ValueError.
Proof.
  intros infer sortv choice starts rc ep cl L input Hs HL.
  unfold degradation_year_on_year. rewrite core_eq. destruct input as [| r0 inp]; [congruence |].
  set (input := r0 :: inp) in *. 
  assert (Z.of_nat (length (sort_index input)) <? 3 * L = true)%Z as E.
  { unfold sort_index. rewrite isort_length. apply Z.ltb_lt, qz_lt_e. rewrite qz_mul.
    assert (qz (Z.of_nat (length input)) = qz (Z.of_nat (length input)) / qz 3 * qz 3) as ->.
    { rewrite Qc_div_mul; [reflexivity |]. apply qz_neq0. discriminate. }
    qlra. }
  destruct (too_short _ _ _ _); [reflexivity |]. unfold circular_guard. rewrite E.
  destruct (infer _); reflexivity.
Qed.

Lemma mapM_Ok : forall A B (f : A -> result B) l ys, mapM f l = Ok ys ->
  length ys = length l /\ forall k da db, (k < length l)%nat -> f (nth k l da) = Ok (nth k ys db).
Proof.
  intros A B f l. induction l as [| a l IH]; intros ys H; cbn in H.
  - injection H as <-. split; [reflexivity |]. intros k da db Hk. cbn in Hk. lia.
  - destruct (f a) as [y |] eqn:E; [| discriminate]. cbn in H.
    destruct (mapM f l) as [ys' |]; [| discriminate]. cbn in H. injection H as <-.
    destruct (IH ys' eq_refl) as [H1 H2]. split; [cbn; rewrite H1; reflexivity |].
    intros [| k] da db Hk; cbn in *; [exact E |]. apply H2. lia.
Qed.

(** Trend value at row [i]: [1 + rate/100 * (i * whole days covered / rows) / 365]. *)
Lemma trend_nth : forall rate rows i f l, (i < length rows)%nat ->
  is_first rows f -> is_last rows l -> StronglySorted (fun a b => (fst a <= fst b)%Z) rows ->
  nth i (trend (Fin rate) rows) NaN =
  Fin (1 + rate / qz 100 *
       (qz (Z.of_nat i) * (qz ((l - f) / days 1)%Z / qz (Z.of_nat (length rows))) / qz 365)).
Proof.
  intros rate rows i f l Hi Hf Hl HS. unfold trend.
  destruct rows as [| [t0 e0] rows0] eqn:E; [cbn in Hi; lia |]. rewrite <- E in *.
  assert (f = t0) as ->.
  { destruct Hf as [F1 F2]. 
    assert (In t0 (times rows)) as I0 by (rewrite E; left; reflexivity).
    specialize (F2 _ I0). rewrite E in HS. apply StronglySorted_inv in HS. destruct HS as [_ HS].
    rewrite Forall_forall in HS. rewrite E in F1. destruct F1 as [F1 | F1]; [cbn in F1; lia |].
    apply in_map_iff in F1. destruct F1 as (b & <- & Hb). specialize (HS _ Hb). cbn in HS. lia. }
  assert (l = fst (List.last rows (t0, NaN))) as ->.
  { set (q := List.last rows (t0, NaN)).
    assert (rows <> []) as Hne by (rewrite E; discriminate).
    assert (In q rows) as Hq by (apply last_In, Hne).
    destruct Hl as [L1 L2]. specialize (L2 (fst q) (in_map fst _ _ Hq)).
    unfold times in L1. apply in_map_iff in L1. destruct L1 as (b & <- & Hb).
    assert (rows = removelast rows ++ [q]) as EL by (apply app_removelast_last, Hne).
    rewrite EL in HS, Hb. apply in_app_or in Hb. destruct Hb as [Hb | [<- | []]]; [| lia].
    assert (fst b <= fst q)%Z; [| lia].
    clear - HS Hb. induction (removelast rows) as [| a l' IH]; [destruct Hb |].
    cbn in HS. apply StronglySorted_inv in HS. destruct HS as [HS Sa].
    destruct Hb as [-> | Hb]; [| apply IH; assumption].
    rewrite Forall_forall in Sa. apply Sa. apply in_or_app. right. left. reflexivity. }
  set (g := fun i0 : nat => _). 
  rewrite (nth_indep _ NaN (g 0%nat)) by (rewrite map_length, seq_length; exact Hi).
  rewrite map_nth, seq_nth by exact Hi. cbn [Nat.add]. subst g. cbv beta.
  change (days 1) with ns_day. unfold fz. cbn [fdiv].
  destruct (qeq (qz 100) 0) eqn:E1; [qb; exfalso; revert E1; apply qz_neq0; discriminate |].
  cbn [fdiv]. destruct (qeq (qz 365) 0) eqn:E2; [qb; exfalso; revert E2; apply qz_neq0; discriminate |].
  cbn [fmul fadd]. f_equal.
  assert (qz 100 <> 0) by (apply qz_neq0; discriminate).
  assert (qz 365 <> 0) by (apply qz_neq0; discriminate).
  assert (qz (Z.of_nat (length rows)) <> 0) by (apply qz_neq0; lia).
  field. auto.
Qed.

Lemma trend_length : forall r rows, length (trend r rows) = length rows.
Proof.
  intros r rows. unfold trend. destruct rows as [| [t e] rows]; [reflexivity |].
  rewrite map_length, seq_length. reflexivity.
Qed.

Lemma rows_times : forall rc input, times (rows_of rc input) = times (sort_index input).
Proof. intros rc input. unfold times, rows_of. rewrite map_map. reflexivity. Qed.

Lemma combine_fst_snd : forall (ts : list Z) (vs : list fl), length ts = length vs ->
  times (combine ts vs) = ts /\ vals (combine ts vs) = vs.
Proof.
  induction ts as [| t ts IH]; intros [| v vs] H; cbn in *; try discriminate; [split; reflexivity |].
  destruct (IH vs ltac:(lia)) as [H1 H2]. unfold times, vals in *. rewrite H1, H2. split; reflexivity.
Qed.

(** A successful circular-block run: same rate as without uncertainty, and the
    interval is that of the rates refitted on the bootstrap samples of the data
    around the trend line. *)
Lemma circular_block_result : forall infer sortv choice starts rc ep cl L input o,
  (0 <= L)%Z -> NoDup (times input) ->
  (forall st, In st starts -> (length input <= length st * Z.to_nat L)%nat) ->
  degradation_year_on_year infer sortv choice starts rc ep cl (CircularBlock L) input = Ok o ->
  (exists o0, degradation_year_on_year infer sortv choice starts rc ep cl NoUncertainty input = Ok o0 /\
     yo_rate o0 = yo_rate o /\ yo_values o0 = yo_values o /\ yo_renorm o0 = yo_renorm o /\
     yo_usage o0 = yo_usage o) /\
  exists metrics ci ex, yo_ci o = Some ci /\ yo_exceedance o = Some ex /\
    percentile_ci cl metrics = Ok ci /\ exceedance ep metrics = Ok ex /\
    length metrics = length starts /\
    forall k, (k < length starts)%nat -> exists sample o',
      degradation_year_on_year infer sortv choice [] false ep cl NoUncertainty sample = Ok o' /\
      yo_rate o' = nth k metrics NaN /\
      Permutation (times input) (times sample) /\ Sorted Z.lt (times sample) /\
      forall i, (i < length input)%nat ->
        exists j tr, j = ((nth (i / Z.to_nat L) (nth k starts []) 0 + i mod Z.to_nat L) mod length input)%nat /\
          (j < length input)%nat /\
          tr = trend (yo_rate o) (rows_of rc input) /\
          nth i (vals sample) NaN =
          fmul (nth i tr NaN) (fdiv (nth j (vals (rows_of rc input)) NaN) (nth j tr NaN)).
Proof.
  intros infer sortv choice starts rc ep cl L input o HL HN HA H.
  pose proof H as H0. unfold degradation_year_on_year in H.
  destruct (yoy_core infer sortv rc (CircularBlock L) input) as [[o1 rows] |] eqn:EC; [| discriminate].
  cbn [bind fst snd] in H.
  assert (yoy_core infer sortv rc NoUncertainty input = Ok (o1, rows)) as EC0.
  { rewrite core_eq in *. destruct input as [| r0 inp]; [discriminate |].
    destruct (too_short _ _ _ _); [discriminate |].
    destruct (circular_guard infer (CircularBlock L) _) as [[] |]; [| discriminate].
    cbn [bind circular_guard] in *. exact EC. }
  destruct (core_Ok _ _ _ _ _ _ _ EC) as (_ & _ & _ & Erows & _).
  destruct (make_samples _ _ _ _ _) as [ss |] eqn:ES; [| discriminate]. cbn [bind] in H.
  destruct (construct_ci _ _ _ _) as [[[ci ex] ms] |] eqn:ECI; [| discriminate]. cbn [bind] in H.
  injection H as <-. cbn [yo_rate yo_values yo_renorm yo_usage yo_ci yo_exceedance].
  split.
  { exists o1. unfold degradation_year_on_year. rewrite EC0. cbn. repeat split. }
  unfold construct_ci in ECI.
  destruct (mapM _ ss) as [metrics |] eqn:EM; [| discriminate]. cbn [bind] in ECI.
  destruct (percentile_ci cl metrics) as [ci' |] eqn:EP; [| discriminate]. cbn [bind] in ECI.
  destruct (exceedance ep metrics) as [ex' |] eqn:EX; [| discriminate]. cbn [bind] in ECI.
  injection ECI as <- <- <-. exists metrics, ci', ex'.
  split; [reflexivity |]. split; [reflexivity |]. split; [exact EP |]. split; [exact EX |].
  assert (length rows = length input) as Hlen.
  { subst rows. unfold rows_of. rewrite map_length. unfold sort_index. apply isort_length. }
  assert (length (vals rows) = length input) as Hv by (unfold vals; rewrite map_length; exact Hlen).
  assert (length (trend (yo_rate o1) rows) = length (vals rows)) as Ht
    by (rewrite trend_length; unfold vals; rewrite map_length; reflexivity).
  destruct (mapM_Ok _ _ _ _ _ EM) as [ML MN].
  assert (forall st, In st starts -> (length (vals rows) <= length st * Z.to_nat L)%nat) as HA'
    by (intros st Hst; rewrite Hv; auto).
  pose proof (samples_mult _ _ _ _ 0%nat 0%nat _ Ht ES HA') as [SL _].
  split; [congruence |]. intros k Hk.
  pose proof (MN k [] NaN ltac:(lia)) as HF. cbv beta in HF.
  destruct (yoy_core infer sortv false NoUncertainty (combine (times rows) (nth k ss []))) as [[o2 rows2] |] eqn:E2;
    [| discriminate]. cbn [bind fst] in HF. injection HF as HF.
  pose proof (samples_mult _ _ _ _ k 0%nat _ Ht ES HA') as [_ SK]. specialize (SK Hk). destruct SK as [SK _].
  assert (length (times rows) = length (nth k ss [])) as HLt
    by (rewrite SK; unfold times, vals; rewrite !map_length; reflexivity).
  destruct (combine_fst_snd _ _ HLt) as [C1 C2].
  exists (combine (times rows) (nth k ss [])), o2.
  split; [unfold degradation_year_on_year; rewrite E2; reflexivity |].
  split; [exact HF |]. rewrite C1, C2.
  split; [| split].
  - subst rows. rewrite rows_times. apply (sorted_times_exists input HN).
  - subst rows. rewrite rows_times. apply (sorted_times_exists input HN).
  - intros i Hi. pose proof (samples_mult _ _ _ _ k i _ Ht ES HA') as [_ SI].
    specialize (SI Hk). destruct SI as [_ SI]. rewrite Hv in SI. specialize (SI Hi).
    destruct SI as (j & Ej & Hj & E). exists j, (trend (yo_rate o1) (rows_of rc input)).
    rewrite <- Erows. auto.
Qed.

(** The same, with the trend and the data spelled out. *)
Lemma circular_block_spec : forall infer sortv choice starts rc ep cl L input o,
  (0 <= L)%Z -> NoDup (times input) ->
  (forall st, In st starts -> (length input <= length st * Z.to_nat L)%nat) ->
  degradation_year_on_year infer sortv choice starts rc ep cl (CircularBlock L) input = Ok o ->
  (exists o0, degradation_year_on_year infer sortv choice starts rc ep cl NoUncertainty input = Ok o0 /\
     yo_rate o0 = yo_rate o /\ yo_values o0 = yo_values o /\ yo_renorm o0 = yo_renorm o /\
     yo_usage o0 = yo_usage o) /\
  exists (data : series) (line : nat -> fl) metrics ci ex,
    yo_ci o = Some ci /\ yo_exceedance o = Some ex /\
    percentile_ci cl metrics = Ok ci /\ exceedance ep metrics = Ok ex /\
    length metrics = length starts /\
    Permutation (map (fun r => (fst r, fdiv (snd r) (yo_renorm o))) input) data /\
    Sorted Z.lt (times data) /\
    (forall i rate f l, (i < length input)%nat -> yo_rate o = Fin rate -> is_first input f -> is_last input l ->
       line i = Fin (1 + rate / qz 100 *
         (qz (Z.of_nat i) * (qz ((l - f) / days 1)%Z / qz (Z.of_nat (length input))) / qz 365))) /\
    forall k, (k < length starts)%nat -> exists sample o',
      degradation_year_on_year infer sortv choice [] false ep cl NoUncertainty sample = Ok o' /\
      yo_rate o' = nth k metrics NaN /\
      times sample = times data /\
      forall i, (i < length input)%nat ->
        exists j, j = ((nth (i / Z.to_nat L) (nth k starts []) 0 + i mod Z.to_nat L) mod length input)%nat /\
          (j < length input)%nat /\
          nth i (vals sample) NaN = fmul (line i) (fdiv (nth j (vals data) NaN) (line j)).
Proof.
  intros infer sortv choice starts rc ep cl L input o HL HN HA H.
  destruct (circular_block_result _ _ _ _ _ _ _ _ _ _ HL HN HA H)
    as [HR (metrics & ci & ex & H1 & H2 & H3 & H4 & H5 & H6)].
  split; [exact HR |].
  destruct (full_core _ _ _ _ _ _ _ _ _ _ H) as (o' & rows & HCo & _ & _ & E3 & _).
  destruct (core_Ok _ _ _ _ _ _ _ HCo) as (_ & _ & _ & Er & ER & _).
  exists (rows_of rc input), (fun i => nth i (trend (yo_rate o) (rows_of rc input)) NaN), metrics, ci, ex.
  split; [exact H1 |]. split; [exact H2 |]. split; [exact H3 |]. split; [exact H4 |]. split; [exact H5 |].
  split; [| split; [| split]].
  - rewrite E3, ER. unfold rows_of. apply Permutation_map. apply isort_perm.
  - rewrite rows_times. apply (sorted_times_exists input HN).
  - intros i rate f l Hi Hr Hf Hl. rewrite Hr.
    assert (length (rows_of rc input) = length input) as Hlen
      by (unfold rows_of; rewrite map_length; unfold sort_index; apply isort_length).
    rewrite <- Hlen. apply trend_nth.
    + lia.
    + unfold is_first in *. rewrite rows_times.
      destruct (sorted_times_exists input HN) as [P _]. destruct Hf as [F1 F2]. split.
      * apply (Permutation_in _ P), F1.
      * intros t Ht. apply F2, (Permutation_in _ (Permutation_sym P)), Ht.
    + unfold is_last in *. rewrite rows_times.
      destruct (sorted_times_exists input HN) as [P _]. destruct Hl as [F1 F2]. split.
      * apply (Permutation_in _ P), F1.
      * intros t Ht. apply F2, (Permutation_in _ (Permutation_sym P)), Ht.
    + unfold rows_of. pose proof (sort_index_sorted input) as S.
      induction S as [| a l0 Hl0 IH Ha]; cbn; constructor; auto.
      apply Forall_forall. intros y Hy. apply in_map_iff in Hy. destruct Hy as (b & <- & Hb). cbn [fst].
      rewrite Forall_forall in Ha. apply Ha, Hb.
  - intros k Hk. destruct (H6 k Hk) as (sample & o2 & S1 & S2 & S3 & S4 & S5).
    exists sample, o2. split; [exact S1 |]. split; [exact S2 |]. split.
    + rewrite rows_times. apply sorted_times_unique; assumption.
    + intros i Hi. destruct (S5 i Hi) as (j & tr & Ej & Hj & -> & E). exists j. auto.
Qed.
