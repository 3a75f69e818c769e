(** The subsystem losses of all rows. *)

From Coq Require Import QArith Qcanon List ZArith Bool Arith Lia Permutation Sorted.
From Verif.Base Require Import QcExtra ISort Quantile Fl TimeSeries Calendar Rolling.
From Verif.Spec Require Import Stats Availability.
From Verif.Model Require Import Utilities Clipping Availability.
From Verif.Proofs Require Import StatsP FiltersP ClipP ClipP4 AvailP.
Import ListNotations.
Open Scope list_scope.
Open Scope Qc_scope.

Lemma nth_error_Some_lt : forall A (l : list A) i x, nth_error l i = Some x -> (i < length l)%nat.
Proof. intros A l i x H. apply nth_error_Some. congruence. Qed.


Lemma filled_data : forall n rows, frame n rows -> map (map (fillna (fz 0))) rows = map (map Fin) (data rows).
Proof.
  intros n rows H. unfold data. rewrite map_map. apply map_ext_in. intros r Hr. destruct (H r Hr) as [_ N].
  rewrite map_map. apply map_ext_in. intros x Hx. destruct (N x Hx) as [N1 N2]. destruct x; try reflexivity; contradiction.
Qed.

Lemma data_length : forall n rows r, frame n rows -> In r (data rows) -> length r = n.
Proof.
  intros n rows r H Hr. unfold data in Hr. apply in_map_iff in Hr. destruct Hr as (r' & <- & Hr'). rewrite map_length. apply (H r' Hr').
Qed.

Definition full_rows (n : nat) (D : list (list Qc)) : Prop := forall r, In r D -> length r = n.

Lemma column_data : forall n D j, full_rows n D -> (j < n)%nat -> column j (map (map Fin) D) = map Fin (in_column j D).
Proof.
  intros n D j H Hj. unfold column, in_column. rewrite !map_map. apply map_ext_in. intros r Hr.
  rewrite (nth_indep _ NaN (Fin 0)) by (rewrite map_length, (H r Hr); exact Hj). apply map_nth.
Qed.

Lemma columns_nth : forall n rows j, nth_error (columns n rows) j = if (j <? n)%nat then Some (column j rows) else None.
Proof. intros. unfold columns. rewrite nth_error_map_some, nth_error_seq. destruct (j <? n)%nat; reflexivity. Qed.

Lemma noinf_map_Fin : forall l, noinf (map Fin l).
Proof. intros l x H. apply in_map_iff in H. destruct H as (q & <- & _). split; discriminate. Qed.

Lemma thresholds_spec : forall n given D thr, full_rows n D -> D <> [] -> length thr = n -> is_threshold given D thr ->
  thresholds n given (map (map Fin) D) = map Fin thr.
Proof.
  intros n given D thr HD Hne Hl H. unfold thresholds. destruct given as [l |]; [exact H |]. cbn [is_threshold] in H.
  apply nth_error_ext. intros j. rewrite !nth_error_map_some, columns_nth.
  destruct (Nat.ltb_spec j n) as [Hj | Hj].
  - destruct (nth_error thr j) as [t |] eqn:Et; [| apply nth_error_None in Et; lia].
    destruct (H j t Et) as (v & Hv & ->). rewrite (column_data n D j HD Hj).
    assert (in_column j D <> []) as Nc by (destruct D; [contradiction | discriminate]).
    rewrite fquantile_noinf; [| apply noinf_map_Fin | rewrite finvals_map_Fin; exact Nc | discriminate | discriminate].
    rewrite finvals_map_Fin. rewrite (is_percentile_unique (qz 99) _ v Nc ltac:(discriminate) ltac:(discriminate) Hv).
    replace (qz 99 / qz 100) with q99 by qc_canon. reflexivity.
  - replace (nth_error thr j) with (@None Qc) by (symmetry; apply nth_error_None; lia). reflexivity.
Qed.

Lemma online_powers : forall thr r, finvals (reporting (map Fin thr) (map Fin r)) = powers_online thr r /\ noinf (reporting (map Fin thr) (map Fin r)).
Proof.
  intros thr r. unfold reporting, looks_online, powers_online, zip. revert thr. induction r as [| p r IH]; intros [| t thr]; cbn [map combine finvals filter];
    try (split; [reflexivity | intros x []]).
  destruct (IH thr) as [I1 I2]. cbn [fst snd]. change (fgt (Fin p) (Fin t)) with (qlt t p). destruct (qlt t p) eqn:E; cbn [finvals map fst].
  - rewrite I1. split; [reflexivity |]. intros x [<- | Hx]; [split; discriminate | exact (I2 x Hx)].
  - split; [exact I1 |]. intros x [<- | Hx]; [split; discriminate | exact (I2 x Hx)].
Qed.

Lemma online_pos : forall thr r x, Forall (fun t => 0 <= t) thr -> In x (powers_online thr r) -> 0 < x.
Proof.
  intros thr r x Ht Hx. unfold powers_online in Hx. apply in_map_iff in Hx. destruct Hx as ([p t] & <- & Hx).
  apply filter_In in Hx. destruct Hx as [Hc E]. cbn [fst snd] in *. apply qlt_spec in E. apply in_combine_r in Hc.
  rewrite Forall_forall in Ht. specialize (Ht t Hc). cbn beta in Ht. qlra.
Qed.

Lemma qmean_pos : forall l, l <> [] -> (forall x, In x l -> 0 < x) -> 0 < qmean l.
Proof.
  intros l Hne H. unfold qmean. apply Qc_lt_div; [exact (qlen_pos _ l Hne) |].
  replace (0 * qlen l) with 0 by ring. destruct l as [| x l]; [contradiction |]. rewrite qsum_cons.
  pose proof (H x (or_introl eq_refl)).
  assert (0 <= qsum l) by (apply qsum_nonneg; apply Forall_forall; intros y Hy; apply Qclt_le_weak; apply H; right; exact Hy). qlra.
Qed.

(** Relative powers of one column. *)
Lemma normalised_column : forall n D thr j, full_rows n D -> length thr = n -> (j < n)%nat -> Forall (fun t => 0 <= t) thr ->
  let c := column j (map (fun row => let r := reporting (map Fin thr) row in map (fun x => fdiv x (fmean r)) r) (map (map Fin) D)) in
  finvals c = relative_powers thr j D /\ noinf c.
Proof.
  intros n D thr j HD Hl Hj Ht. unfold column, relative_powers. rewrite !map_map.
  induction D as [| r D IH]; [split; [reflexivity | intros x []] |].
  destruct (IH (fun r' H => HD r' (or_intror H))) as [I1 I2]. cbn [map filter].
  assert (length r = n) as Lr by (apply HD; left; reflexivity).
  set (rest := map _ D) in *. set (hd := nth j _ NaN).
  assert (hd = if qlt (nth j thr 0) (nth j r 0) then Fin (nth j r 0 / qmean (powers_online thr r)) else NaN) as ->.
  { unfold hd. set (g := fun x => fdiv x _).
    assert (nth_error (reporting (map Fin thr) (map Fin r)) j = Some (if qlt (nth j thr 0) (nth j r 0) then Fin (nth j r 0) else NaN)) as E.
    { unfold reporting, looks_online. rewrite !zip_nth, !nth_error_map_some.
      rewrite (nth_error_nth' r 0) by lia. rewrite (nth_error_nth' thr 0) by lia. reflexivity. }
    rewrite (nth_error_nth (map g _) j NaN (x := g (if qlt (nth j thr 0) (nth j r 0) then Fin (nth j r 0) else NaN))); [| rewrite nth_error_map_some, E; reflexivity].
    destruct (qlt (nth j thr 0) (nth j r 0)) eqn:Eo; [| reflexivity]. unfold g.
    destruct (online_powers thr r) as [O1 O2].
    assert (powers_online thr r <> []) as No.
    { intros Z. assert (In (nth j r 0) (powers_online thr r)) as K; [| rewrite Z in K; contradiction].
      unfold powers_online. apply in_map_iff. exists (nth j r 0, nth j thr 0). split; [reflexivity |]. apply filter_In. split; [| exact Eo].
      apply nth_error_In with (n := j). rewrite nth_error_combine, (nth_error_nth' r 0), (nth_error_nth' thr 0) by lia. reflexivity. }
    rewrite (fmean_noinf _ O2) by (rewrite O1; exact No). rewrite O1. fold (qmean (powers_online thr r)).
    pose proof (qmean_pos _ No (fun x => online_pos thr r x Ht)) as P. cbn.
    destruct (qeq (qmean (powers_online thr r)) 0) eqn:E0; [apply qeq_spec in E0; rewrite E0 in P; discriminate | reflexivity]. }
  destruct (qlt (nth j thr 0) (nth j r 0)); cbn [finvals map].
  - rewrite I1. split; [reflexivity |]. intros x [<- | Hx]; [split; discriminate | exact (I2 x Hx)].
  - split; [exact I1 |]. intros x [<- | Hx]; [split; discriminate | exact (I2 x Hx)].
Qed.

Definition size_fl (s : option Qc) : fl := match s with Some q => Fin q | None => NaN end.

Lemma sizes_spec : forall n given D thr sizes, full_rows n D -> length thr = n -> length sizes = n ->
  (given = None -> Forall (fun t => 0 <= t) thr) -> is_size given D thr sizes ->
  sizes_of n given (map Fin thr) (map (map Fin) D) = map size_fl sizes.
Proof.
  intros n given D thr sizes HD Hl Hs Ht H. unfold sizes_of. destruct given as [l |]; [exact H |]. cbn [is_size] in H.
  specialize (Ht eq_refl). apply nth_error_ext. intros j. rewrite !nth_error_map_some, columns_nth.
  destruct (Nat.ltb_spec j n) as [Hj | Hj].
  - destruct (nth_error sizes j) as [s |] eqn:Es; [| apply nth_error_None in Es; lia]. specialize (H j s Es).
    destruct (normalised_column n D thr j HD Hl Hj Ht) as [C1 C2]. cbv zeta in C1, C2. cbn [option_map]. apply f_equal. destruct s as [m |].
    + assert (relative_powers thr j D <> []) as Nr.
      { intros Z. rewrite Z in H. destruct H as (k & [P _] & R). apply Permutation_nil in P. subst k. destruct R as [(k & K & _) | (k & K & _)]; cbn in K; lia. }
      rewrite (fmedian_noinf _ C2) by (rewrite C1; exact Nr). rewrite C1. cbn [size_fl]. f_equal.
      symmetry. apply is_median_unique; assumption.
    + apply fmedian_empty. rewrite (dropna_noinf _ C2), C1, H. reflexivity.
  - replace (nth_error sizes j) with (@None (option Qc)) by (symmetry; apply nth_error_None; lia). reflexivity.
Qed.

Lemma sizes_positive : forall D thr sizes s, Forall (fun t => 0 <= t) thr -> full_rows (length thr) D -> length sizes = length thr ->
  is_size None D thr sizes -> In (Some s) sizes -> 0 < s.
Proof.
  intros D thr sizes s Ht HD Hs H Hin. apply In_nth_error in Hin. destruct Hin as [j Hj]. specialize (H j (Some s) Hj). cbn iota in H.
  assert (j < length sizes)%nat as Lj by (apply nth_error_Some; congruence).
  assert (forall x, In x (relative_powers thr j D) -> 0 < x) as P.
  { intros x Hx. unfold relative_powers in Hx. apply in_map_iff in Hx. destruct Hx as (r & <- & Hr). apply filter_In in Hr. destruct Hr as [Hr E].
    apply qlt_spec in E. assert (0 <= nth j thr 0) as T by (rewrite Forall_forall in Ht; apply Ht; apply nth_In; lia).
    assert (In (nth j r 0) (powers_online thr r)) as K.
    { unfold powers_online. apply in_map_iff. exists (nth j r 0, nth j thr 0). split; [reflexivity |]. apply filter_In. split; [| apply qlt_spec; exact E].
      apply nth_error_In with (n := j). rewrite nth_error_combine, (nth_error_nth' r 0), (nth_error_nth' thr 0) by (try rewrite (HD r Hr); lia). reflexivity. }
    assert (powers_online thr r <> []) as No by (intros Z; rewrite Z in K; contradiction).
    pose proof (qmean_pos _ No (fun x => online_pos thr r x Ht)). apply Qc_lt_div; [assumption |]. qlra. }
  destruct H as (k & [Pk Sk] & R).
  assert (forall i, (i < length k)%nat -> 0 < nth i k 0) as N.
  { intros i Hi. apply P. apply (Permutation_in _ (Permutation_sym Pk)). apply nth_In. exact Hi. }
  destruct R as [(i & Li & ->) | (i & Li & ->)].
  - apply N. lia.
  - pose proof (N i ltac:(lia)). pose proof (N (i + 1)%nat ltac:(lia)). apply Qc_lt_div; [reflexivity |]. qlra.
Qed.

(** Thresholds and sizes exist. *)
Lemma thresholds_exist : forall n D, D <> [] -> exists thr, length thr = n /\ is_threshold None D thr.
Proof.
  intros n D Hne. exists (map (fun j => qquantile (qz 99 / qz 100) (in_column j D) / qz 1000) (seq 0 n)).
  split; [rewrite map_length, seq_length; reflexivity |]. intros j t Hj. rewrite nth_error_map_some, nth_error_seq in Hj.
  destruct (j <? n)%nat; [| discriminate]. cbn in Hj. injection Hj as <-. eexists. split; [| reflexivity].
  apply qpercentile_spec; [destruct D; [contradiction | discriminate] | discriminate | discriminate].
Qed.

Lemma sizes_exist : forall n D thr, exists sizes, length sizes = n /\ is_size None D thr sizes.
Proof.
  intros n D thr.
  exists (map (fun j => match relative_powers thr j D with [] => None | _ => Some (qmedian (relative_powers thr j D)) end) (seq 0 n)).
  split; [rewrite map_length, seq_length; reflexivity |]. intros j s Hj. rewrite nth_error_map_some, nth_error_seq in Hj.
  destruct (j <? n)%nat; [| discriminate]. cbn in Hj. injection Hj as <-.
  destruct (relative_powers thr j D) as [| x l] eqn:E; [reflexivity |]. apply qmedian_spec. discriminate.
Qed.

(** ** All rows *)
Lemma subsystems_maps : forall n row thr sizes, length row = n -> length thr = n -> length sizes = n ->
  length (subsystems row thr sizes) = n /\
  map (fun u => Fin (s_power u)) (subsystems row thr sizes) = map Fin row /\
  map (fun u => Fin (s_threshold u)) (subsystems row thr sizes) = map Fin thr /\
  map (fun u => match s_size u with Some q => Fin q | None => NaN end) (subsystems row thr sizes) = map size_fl sizes.
Proof.
  intros n row. revert n. unfold subsystems. induction row as [| p row IH]; intros n [| t thr] [| s sizes] H1 H2 H3; cbn in *; try lia.
  - repeat split; assumption.
  - destruct (IH (length row) thr sizes eq_refl ltac:(lia) ltac:(lia)) as (I0 & I1 & I2 & I3). repeat split; try (f_equal; assumption).
    rewrite I0. exact H1.
Qed.

Lemma subsystems_size : forall row thr sizes u s, In u (subsystems row thr sizes) -> s_size u = Some s -> In (Some s) sizes.
Proof.
  intros row thr sizes u s Hu Es. unfold subsystems in Hu. apply in_map_iff in Hu. destruct Hu as ([[p t] z] & <- & Hin).
  apply in_combine_r in Hin. cbn in Es. subst z. exact Hin.
Qed.


Lemma loss_subsystem_spec : forall n low_threshold relative_sizes limits power rows thr sizes,
  frame n rows -> rows <> [] -> noinf power -> length power = length rows ->
  match limits with Some l => length l = length rows | None => True end ->
  length thr = n -> is_threshold low_threshold (data rows) thr ->
  length sizes = n -> is_size relative_sizes (data rows) thr sizes ->
  match relative_sizes with None => Forall (fun t => 0 <= t) thr | Some _ => forall s, In (Some s) sizes -> 0 < s end ->
  exists masks loss, calc_loss_subsystem n low_threshold relative_sizes limits power rows = (masks, map Fin loss) /\
    length masks = length rows /\ length loss = length rows /\
    forall i row, nth_error (data rows) i = Some row ->
      let l := subsystems row thr sizes in
      nth_error masks i = Some (map onlineb l) /\
      exists p x, nth_error power i = Some p /\ nth_error loss i = Some x /\ loss_at l (limit_at limits i) p x.
Proof.
  intros n low_threshold relative_sizes limits power rows thr sizes HF Hne Np Lp Ll Lt Ht Ls Hs Hpos.
  assert (full_rows n (data rows)) as HD by (intros r Hr; exact (data_length n rows r HF Hr)).
  assert (data rows <> []) as HDne by (destruct rows; [contradiction | discriminate]).
  assert (forall s, In (Some s) sizes -> 0 < s) as SP.
  { intros s Hin. destruct relative_sizes; [exact (Hpos s Hin) |]. subst n. apply (sizes_positive (data rows) thr sizes s); assumption. }
  unfold calc_loss_subsystem. rewrite (filled_data n rows HF). rewrite (thresholds_spec n _ (data rows) thr HD HDne Lt Ht).
  rewrite (sizes_spec n _ (data rows) thr sizes HD Lt Ls); [| intros ->; exact Hpos | exact Hs].
  set (lim := match limits with None => _ | Some l => _ end).
  assert (length lim = length rows) as Llim by (unfold lim; destruct limits; rewrite !map_length; [exact Ll | exact Lp]).
  set (F := fun (pl : fl * option fl) row => row_loss n (map Fin thr) (map size_fl sizes) (snd pl) (fst pl) row).
  assert (forall i row, nth_error (data rows) i = Some row -> exists p x, nth_error power i = Some p /\
    loss_at (subsystems row thr sizes) (limit_at limits i) p x /\
    nth_error (zip F (combine (map (clip_lower (fz 0)) power) lim) (map (map Fin) (data rows))) i = Some (Fin x)) as Hrow.
  { intros i row Hi. assert (i < length rows)%nat as Li.
    { apply nth_error_Some_lt in Hi. unfold data in Hi. rewrite map_length in Hi. exact Hi. }
    destruct (nth_error power i) as [p |] eqn:Ep; [| apply nth_error_None in Ep; lia]. exists p.
    assert (nth_error lim i = Some (limit_at limits i)) as El.
    { unfold lim, limit_at. destruct limits as [l |]; rewrite !nth_error_map_some.
      - destruct (nth_error l i) as [m |] eqn:Em; [reflexivity | apply nth_error_None in Em; lia].
      - rewrite Ep. reflexivity. }
    rewrite zip_nth, nth_error_combine, !nth_error_map_some, Ep, El, Hi. cbn [option_map]. unfold F. cbn [fst snd].
    assert (length row = n) as Lr by (apply HD; apply nth_error_In with (n := i); exact Hi).
    destruct (subsystems_maps n row thr sizes Lr Lt Ls) as (M0 & M1 & M2 & M3).
    assert (forall u s, In u (subsystems row thr sizes) -> s_size u = Some s -> 0 < s) as SU.
    { intros u s Hu Es. apply SP. exact (subsystems_size row thr sizes u s Hu Es). }
    destruct (Np p (nth_error_In _ _ Ep)) as [N1 N2]. destruct p as [| | q |]; try contradiction.
    - exists 0. split; [reflexivity |]. split; [reflexivity |].
      pose proof (row_loss_missing (subsystems row thr sizes) (limit_at limits i)) as R. rewrite M0, M1, M2, M3 in R.
      change (clip_lower (fz 0) NaN) with NaN. rewrite R. reflexivity.
    - assert (clip_lower (fz 0) (Fin q) = Fin (qmax 0 q)) as ->.
      { unfold clip_lower, flt, fz, qmax. change (qz 0) with 0. destruct (qlt q 0) eqn:E1; destruct (qle 0 q) eqn:E2; qb; try (exfalso; qlra); reflexivity. }
      assert (0 <= qmax 0 q) as Pq by (unfold qmax; qcases; qlra).
      destruct (row_loss_spec (subsystems row thr sizes) SU (limit_at limits i) (qmax 0 q) Pq) as (x0 & x & R & U & C).
      rewrite M0, M1, M2, M3 in R. exists x. split; [reflexivity |]. split; [exists x0; split; assumption |]. rewrite R. reflexivity. }
  exists (map (looks_online (map Fin thr)) (map (map Fin) (data rows))).
  set (Z := zip F _ _) in *.
  assert (length Z = length rows) as LZ.
  { unfold Z. rewrite zip_length, combine_length, !map_length. unfold data. rewrite map_length. lia. }
  assert (exists loss, Z = map Fin loss) as [loss EZ].
  { assert (forall y, In y Z -> exists x, y = Fin x) as A.
    { intros y Hy. apply In_nth_error in Hy. destruct Hy as [i Hi]. assert (i < length Z)%nat as L by (apply nth_error_Some_lt in Hi; exact Hi).
      destruct (nth_error (data rows) i) as [row |] eqn:Er; [| apply nth_error_None in Er; unfold data in Er; rewrite map_length in Er; lia].
      destruct (Hrow i row Er) as (p & x & _ & _ & E). rewrite E in Hi. injection Hi as <-. exists x. reflexivity. }
    clear - A. induction Z as [| y Z IH]; [exists []; reflexivity |]. destruct IH as [l ->]; [intros y' Hy'; apply A; right; exact Hy' |].
    destruct (A y (or_introl eq_refl)) as [x ->]. exists (x :: l). reflexivity. }
  exists loss. rewrite EZ in *. split; [reflexivity |]. split; [unfold data; rewrite !map_length; reflexivity |].
  split; [rewrite map_length in LZ; exact LZ |]. intros i row Hi. cbv zeta. split.
  - rewrite !nth_error_map_some, Hi. cbn [option_map]. f_equal.
    assert (length row = n) as Lr by (apply HD; apply nth_error_In with (n := i); exact Hi).
    destruct (subsystems_maps n row thr sizes Lr Lt Ls) as (M0 & M1 & M2 & M3). rewrite <- M1, <- M2. apply row_online.
  - destruct (Hrow i row Hi) as (p & x & Ep & La & E). exists p, x. split; [exact Ep |]. split; [| exact La].
    rewrite nth_error_map_some in E. destruct (nth_error loss i) as [y |]; [| discriminate]. injection E as ->. reflexivity.
Qed.

(** ** Consequences *)
Section Loss.
Variable l : list subsystem.
Hypothesis sizes_pos : forall u s, In u l -> s_size u = Some s -> 0 < s.

Lemma fraction_bounds : forall p f, 0 <= p -> online_fraction l p f -> online_share l <= f /\ 0 < f /\ f <= 1.
Proof.
  intros p f Hp (F & [HF _] & ->). pose proof (share_pos l sizes_pos HF). pose proof (share_le_1 l sizes_pos).
  unfold qmin, qmax. repeat split; qcases; qlra.
Qed.

(** The loss without a limit, as in the code. *)
Lemma uncapped_cases : forall p x, 0 <= p -> uncapped_loss l p x ->
  x = 0 \/ (downtime l p /\ exists f, online_fraction l p f /\ (x + p) * f = p).
Proof.
  intros p x Hp [H1 H2]. destruct (row_loss_spec l sizes_pos None p Hp) as (x0 & x1 & _ & [U1 U2] & C). cbn [capped] in C. subst x1.
  destruct (Qc_eq_dec x 0) as [E | E]; [left; exact E |]. right.
  assert (~ ~ downtime l p) as NN by (intros K; apply E; exact (H2 K)).
  assert (downtime l p) as D.
  { (* decidable *)
    assert (downtime l p \/ ~ downtime l p) as [D | D]; [| exact D | exfalso; exact (NN D)].
    destruct (Bool.bool_dec (forallb (fun b => b) (map onlineb l)) false) as [Ea | Ea].
    - destruct (list_eq_dec Qc_eq_dec (specific_powers l) []) as [Ez | Ez]; [right; intros (_ & F & s & [K _] & _); contradiction |].
      destruct (row_smallest l sizes_pos) as (s & Hs & _). set (F := qmean (specific_powers l) * qlen l).
      assert (full_power l F) as HF by (split; [exact Ez | reflexivity]).
      destruct (Qc_eq_dec F 0) as [E0 | E0]; [right; intros (_ & F' & s' & HF' & NF & _); apply NF; rewrite (full_unique l _ _ HF' HF); exact E0 |].
      destruct (Qclt_le_dec (qf 3 4 * s) (1 - p / F)) as [K | K].
      + left. split; [rewrite <- row_online in Ea; apply row_all in Ea; exact Ea |]. exists F, s. repeat split; assumption || reflexivity.
      + right. intros (_ & F' & s' & HF' & _ & Hs' & K'). rewrite (full_unique l _ _ HF' HF), (smallest_unique l _ _ Hs' Hs) in K'. qlra.
    - right. intros (Ho & _). apply Ea. rewrite <- row_online. apply row_all. exact Ho. }
  split; [exact D |]. destruct (H1 D) as (f & Hf & ->). exists f. split; [exact Hf |]. destruct (fraction_bounds p f Hp Hf) as (_ & Pf & _).
  field. apply Qc_pos_neq. exact Pf.
Qed.

Lemma uncapped_nonneg : forall p x, 0 <= p -> uncapped_loss l p x -> 0 <= x.
Proof.
  intros p x Hp H. destruct (uncapped_cases p x Hp H) as [-> | (_ & f & Hf & E)]; [apply Qcle_refl |].
  destruct (fraction_bounds p f Hp Hf) as (_ & Pf & Lf).
  destruct (Qclt_le_dec x 0) as [K | K]; [| exact K]. exfalso. assert (0 < (- x) * f) by (apply Qc_mul_pos; qlra).
  assert (0 <= p * (1 - f)) by (apply Qc_mul_nonneg; qlra).
  assert (x * f = p * (1 - f)) as E2 by (transitivity ((x + p) * f - p * f); [ring | rewrite E; ring]).
  assert (- x * f = - (p * (1 - f))) by (rewrite <- E2; ring). qlra.
Qed.

Lemma loss_bounds : forall limit power x, loss_at l limit power x ->
  0 <= x /\
  ((forall u, In u l -> online u) -> x = 0) /\
  (forall m, limit = Some (Fin m) -> noinf [power] -> power <> NaN -> x + system_power power <= qmax m (system_power power)) /\
  (limit = None -> x <> 0 -> exists f, online_share l <= f /\ 0 < f /\ f <= 1 /\ (x + system_power power) * f = system_power power).
Proof.
  intros limit power x H. unfold loss_at in H. destruct power as [| | p |].
  1,2,4: subst x; split; [apply Qcle_refl |]; split; [reflexivity |]; split; [intros m _ N K | intros _ K; contradiction];
    (contradiction || (destruct (N _ (or_introl eq_refl)); contradiction)).
  destruct H as (x0 & U & C). assert (0 <= qmax 0 p) as Pq by (unfold qmax; qcases; qlra). unfold system_power. cbn [known_or_0].
  set (q := qmax 0 p) in *. pose proof (uncapped_nonneg q x0 Pq U) as P0.
  assert ((forall u, In u l -> online u) -> x0 = 0) as Z0.
  { intros A. apply (proj2 U). intros ((u & Hu & No) & _). exact (No (A u Hu)). }
  split; [| split; [| split]].
  - destruct limit as [[| | m |] |]; cbn [capped] in C; subst x; try assumption; try apply Qcle_refl. unfold qmax. qcases; qlra.
  - intros A. specialize (Z0 A). subst x0. destruct limit as [[| | m |] |]; cbn [capped] in C; subst x; try reflexivity.
    destruct (qlt m (0 + q)) eqn:E; [| reflexivity]. apply qlt_spec in E. unfold qmax. destruct (qle 0 (m - q)) eqn:E2; [| reflexivity].
    apply qle_spec in E2. exfalso. qlra.
  - intros m -> _ _. cbn [capped] in C. subst x. destruct (qlt m (x0 + q)) eqn:E; qb; unfold qmax; qcases; qlra.
  - intros -> Nx. cbn [capped] in C. subst x. destruct (uncapped_cases q x0 Pq U) as [E | (_ & f & Hf & E)]; [contradiction |].
    exists f. destruct (fraction_bounds q f Pq Hf) as (A & B & C). repeat split; assumption.
Qed.
End Loss.
