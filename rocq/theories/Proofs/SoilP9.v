(** One realisation. *)

From Coq Require Import QArith Qcanon List ZArith Bool Arith Lia Sorted String.
From Verif.Base Require Import QcExtra ISort Quantile Fl TimeSeries Calendar Rolling Segments.
From Verif.Spec Require Import Stats Filters Soiling.
From Verif.Model Require Import Soiling.
From Verif.Spec Require Import SoilingTable.
From Verif.Proofs Require Import StatsP FiltersP2 SoilP SoilP2 SoilP3 SoilP4 SoilP5 SoilP6 SoilP7 SoilP8.
Import ListNotations.
Open Scope list_scope.
Open Scope Qc_scope.

(** ** Weighted mean *)

Lemma ratio_sums : forall xs ws, noinf ws -> List.length ws = List.length xs ->
  fsum (map (fun x => fmul (fst x) (snd x)) (combine (map Fin xs) ws)) = Fin (qsum (map (fun r => fst r * snd r) (known_rows xs ws))) /\
  fsum (map snd (filter (fun x => notnan (fmul (fst x) (snd x))) (combine (map Fin xs) ws))) = Fin (qsum (map snd (known_rows xs ws))).
Proof.
  induction xs as [| x xs IH]; intros [| w ws] N L; try discriminate; [split; reflexivity |].
  destruct (IH ws (fun y Hy => N y (or_intror Hy)) ltac:(cbn in L; lia)) as [E1 E2]. destruct (N w (or_introl eq_refl)) as [N1 N2].
  assert (forall q l, fsum (Fin q :: l) = fadd (Fin q) (fsum l)) as FC by reflexivity. assert (forall l, fsum (NaN :: l) = fsum l) as FN by reflexivity.
  unfold known_rows in *. destruct w; try contradiction; cbn [map combine filter fst snd fmul notnan isnan negb flat_map app].
  - rewrite FN. split; [exact E1 | exact E2].
  - rewrite !FC, E1, E2, !qsum_cons. split; reflexivity.
Qed.

Lemma weighted_ratio_spec : forall xs ws, noinf ws -> List.length ws = List.length xs ->
  let rows := known_rows xs ws in
  (qsum (map snd rows) <> 0 -> exists q, weighted_ratio (map Fin xs) ws = Fin q /\ weighted_mean rows q) /\
  (qsum (map snd rows) = 0 -> (forall r, In r rows -> 0 <= snd r) -> weighted_ratio (map Fin xs) ws = NaN).
Proof.
  intros xs ws N L rows. unfold weighted_ratio. destruct (ratio_sums xs ws N L) as [E1 E2]. fold rows in E1, E2. cbv zeta. rewrite E1, E2. split.
  - intros NZ. cbn [fdiv]. destruct (qeq (qsum (map snd rows)) 0) eqn:E; qb; [contradiction |].
    eexists. split; [reflexivity |]. unfold weighted_mean. apply Qc_div_mul. exact NZ.
  - intros Z0 H. assert (forall r, In r rows -> snd r = 0) as K.
    { clear -Z0 H. induction rows as [| r rows IH]; intros x Hx; [destruct Hx |]. cbn [map] in Z0. rewrite qsum_cons in Z0. pose proof (H r (or_introl eq_refl)) as H0.
      assert (0 <= qsum (map snd rows)) as HS.
      { clear -H. assert (forall x, In x rows -> 0 <= snd x) as HR by (intros y Hy; apply H; right; exact Hy). clear H. induction rows as [| y rows IH]; [discriminate |]. cbn [map]. rewrite qsum_cons. pose proof (HR y (or_introl eq_refl)). specialize (IH (fun z Hz => HR z (or_intror Hz))). qlra. }
      destruct Hx as [<- | Hx]; [qlra |]. apply IH; [qlra | intros y Hy; apply H; right; exact Hy | exact Hx]. }
    assert (qsum (map (fun r => fst r * snd r) rows) = 0) as E.
    { clear -K. induction rows as [| r rows IH]; [reflexivity |]. cbn [map]. rewrite qsum_cons, IH by (intros y Hy; apply K; right; exact Hy). rewrite (K r (or_introl eq_refl)). ring. }
    rewrite E, Z0. reflexivity.
Qed.

Lemma mean_between : forall rows q lo hi, weighted_mean rows q -> 0 < qsum (map snd rows) -> (forall r, In r rows -> 0 <= snd r /\ lo <= fst r /\ fst r <= hi) -> lo <= q /\ q <= hi.
Proof.
  intros rows q lo hi W P H. unfold weighted_mean in W.
  assert (lo * qsum (map snd rows) <= qsum (map (fun r => fst r * snd r) rows) /\ qsum (map (fun r => fst r * snd r) rows) <= hi * qsum (map snd rows)) as [A B].
  { clear -H. induction rows as [| r rows IH]; [cbn; split; qlra |]. destruct (IH (fun x Hx => H x (or_intror Hx))) as [A B]. destruct (H r (or_introl eq_refl)) as (H0 & H1 & H2).
    cbn [map]. rewrite !qsum_cons. assert (0 <= (fst r - lo) * snd r) by (apply Qc_mul_nonneg; qlra). assert (0 <= (hi - fst r) * snd r) by (apply Qc_mul_nonneg; qlra). split.
    - replace (fst r * snd r) with ((fst r - lo) * snd r + lo * snd r) by ring. replace (lo * (snd r + qsum (map snd rows))) with (lo * snd r + lo * qsum (map snd rows)) by ring. qlra.
    - replace (fst r * snd r) with (hi * snd r - (hi - fst r) * snd r) by ring. replace (hi * (snd r + qsum (map snd rows))) with (hi * snd r + hi * qsum (map snd rows)) by ring. qlra. }
  rewrite <- W in A, B. set (S := qsum (map snd rows)) in *. clearbody S. split.
  - destruct (Qclt_le_dec q lo) as [C | C]; [| exact C]. exfalso. assert (0 < (lo - q) * S) by (apply Qc_mul_pos; qlra). replace ((lo - q) * S) with (lo * S - q * S) in H0 by ring. qlra.
  - destruct (Qclt_le_dec hi q) as [C | C]; [| exact C]. exfalso. assert (0 < (q - hi) * S) by (apply Qc_mul_pos; qlra). replace ((q - hi) * S) with (q * S - hi * S) in H0 by ring. qlra.
Qed.

(** ** Slopes *)

Lemma slopes_any : forall u (l : list interval) o,
  (forall b : nat -> Qc * Qc, (forall k i, nth_error l k = Some i -> i_slope_low i = Fin (fst (b k)) /\ i_slope_high i = Fin (snd (b k))) ->
     map_result (fun p => uniform (u (fst p)) (i_slope_low (snd p)) (i_slope_high (snd p))) (combine (seq o (List.length l)) l) =
     Ok (map Fin (map (fun k => between (b k) (u (o + k)%nat)) (seq 0 (List.length l))))) /\
  ((exists i, In i l /\ forall x y, i_slope_low i = Fin x -> i_slope_high i <> Fin y) ->
     map_result (fun p => uniform (u (fst p)) (i_slope_low (snd p)) (i_slope_high (snd p))) (combine (seq o (List.length l)) l) = Raise OverflowError).
Proof.
  intros u. induction l as [| i l IH]; intros o.
  - split; [intros b _; reflexivity | intros (i & [] & _)].
  - destruct (IH (S o)) as [IH1 IH2]. split.
    + intros b H. cbn [List.length seq combine map_result fst snd map]. destruct (H 0%nat i eq_refl) as [E1 E2]. rewrite E1, E2. cbn [uniform bind].
      rewrite (IH1 (fun k => b (S k))) by (intros k j Hj; apply (H (S k) j Hj)). cbn [bind]. rewrite Nat.add_0_r. unfold between at 1. do 3 f_equal.
      rewrite <- seq_shift, !map_map. apply map_ext. intros k. rewrite Nat.add_succ_r. reflexivity.
    + intros (j & Hj & NF). cbn [List.length seq combine map_result fst snd].
      destruct (uniform (u o) (i_slope_low i) (i_slope_high i)) as [x | e] eqn:E.
      * cbn [bind]. rewrite IH2; [reflexivity |]. destruct Hj as [<- | Hj]; [| eauto]. exfalso. unfold uniform in E. destruct (i_slope_low i) eqn:E1; try discriminate. destruct (i_slope_high i) eqn:E2; try discriminate. apply (NF q q0); auto.
      * unfold uniform in E. destruct (i_slope_low i); destruct (i_slope_high i); try discriminate; injection E as <-; reflexivity.
Qed.

Lemma losses_spec : forall (table : list interval) qs, List.length qs = List.length table ->
  run_losses table (map Fin qs) = map Fin (map (fun p => snd p * qz (i_length (fst p))) (combine table qs)).
Proof.
  intros table qs _. unfold run_losses. revert qs. induction table as [| i t IH]; intros [| q qs]; try reflexivity. cbn [map combine fst snd]. rewrite IH. reflexivity.
Qed.
Lemma nth_losses : forall (table : list interval) qs k i, nth_error table k = Some i -> (k < List.length qs)%nat ->
  nth k (map (fun p => snd p * qz (i_length (fst p))) (combine table qs)) 0 = nth k qs 0 * qz (i_length i).
Proof.
  intros table qs k i Hi Hk. apply nth_error_nth. rewrite nth_error_map_some, nth_error_combine, Hi. rewrite (nth_error_nth' qs 0 Hk). reflexivity.
Qed.

(** ** Rows of the profile *)

Lemma filter_first : forall A (f : A -> bool) l k x, nth_error l k = Some x -> f x = true -> (forall j y, (j < k)%nat -> nth_error l j = Some y -> f y = false) ->
  exists rest, filter f l = x :: rest.
Proof.
  intros A f. induction l as [| y l IH]; intros [| k] x H Hf HB; try discriminate.
  - cbn in H. injection H as ->. cbn. rewrite Hf. eauto.
  - cbn. rewrite (HB 0%nat y ltac:(lia) eq_refl). apply (IH k); [exact H | exact Hf |]. intros j z Hj Hz. apply (HB (S j) z); [lia | exact Hz].
Qed.
Lemma profile_at : forall table starts slopes a k i, List.length starts = List.length table -> List.length slopes = List.length table ->
  nth_error table k = Some i -> i_run i = a_run a -> (forall j i', (j < k)%nat -> nth_error table j = Some i' -> i_run i' <> a_run a) ->
  profile_row (combine table (combine (map Fin starts) (map Fin slopes))) a = Fin (nth k starts 0 + qz ((a_date a - i_start i) / ns_day) * nth k slopes 0).
Proof.
  intros table starts slopes a k i L1 L2 Hk Hr HB. unfold profile_row. assert (k < List.length table)%nat as Lk by (apply nth_error_Some; congruence).
  destruct (filter_first _ (fun p => (i_run (fst p) =? a_run a)%Z) (combine table (combine (map Fin starts) (map Fin slopes))) k (i, (Fin (nth k starts 0), Fin (nth k slopes 0)))) as (rest & ->).
  - rewrite !nth_error_combine, !nth_error_map_some, Hk, (nth_error_nth' starts 0), (nth_error_nth' slopes 0) by lia. reflexivity.
  - apply Z.eqb_eq. exact Hr.
  - intros j [i' y] Hj E. rewrite nth_error_combine in E. destruct (nth_error table j) as [i'' |] eqn:Ej; [| discriminate]. destruct (nth_error (combine (map Fin starts) _) j); [| discriminate]. injection E as -> _. apply Z.eqb_neq. apply (HB j); assumption.
  - reflexivity.
Qed.

(** ** One realisation *)

Lemma levels_ext : forall half z valid loss loss' rec start, (forall j, nth_error valid j = Some true -> loss j = loss' j) ->
  levels_ok half z valid loss rec start -> levels_ok half z valid loss' rec start.
Proof. intros half z valid loss loss' rec start E H k Hk. destruct (H k Hk) as [H1 H2]. split; [exact H1 |]. intros j Hj. rewrite <- E; [apply H2; exact Hj |]. destruct Hj as (_ & Vj & _). exact Vj. Qed.
Lemma fill_ext : forall u valid loss loss' start, (forall j, nth_error valid j = Some true -> loss j = loss' j) ->
  fill_ok u valid loss start -> fill_ok u valid loss' start.
Proof.
  intros u valid loss loss' start E H k Hk. destruct (H k Hk) as (p & n & L & N & S). exists p, n. split; [| split; [exact N | exact S]].
  destruct L as [(j & Hj & Ep) | L]; [| right; exact L]. left. exists j. split; [exact Hj |]. rewrite Ep, <- E; [reflexivity |]. destruct Hj as (_ & Vj & _). exact Vj.
Qed.
Lemma row_at_nth : forall s k, (k < List.length (s_table s))%nat -> nth_error (map fst (s_table s)) k = Some (row_at s k).
Proof. intros s k H. unfold row_at. rewrite nth_error_map_some, (nth_error_nth' _ (Interval 0 0 0 0 NaN NaN NaN NaN NaN NaN false, NaN) H). reflexivity. Qed.
Lemma row_at_In : forall s k, (k < List.length (s_table s))%nat -> exists rec, In (row_at s k, rec) (s_table s).
Proof.
  intros s k H. unfold row_at. exists (snd (nth k (s_table s) (Interval 0 0 0 0 NaN NaN NaN NaN NaN NaN false, NaN))). rewrite <- surjective_pairing. apply nth_In. exact H.
Qed.
Lemma between_nonpos : forall x u, fst x <= 0 -> snd x <= 0 -> 0 <= u -> u <= 1 -> between x u <= 0.
Proof.
  intros [l h] u Hl Hh U0 U1. cbn [fst snd between] in *. unfold between. cbn [fst snd]. assert (0 <= (- l) * (1 - u)) by (apply Qc_mul_nonneg; qlra). assert (0 <= (- h) * u) by (apply Qc_mul_nonneg; qlra).
  replace (l + (h - l) * u) with (- (- l * (1 - u)) - (- h) * u) by ring. qlra.
Qed.
Lemma mul_days : forall d s, (0 <= d)%Z -> s <= 0 -> qz d * s <= 0.
Proof. intros d s Hd Hs. assert (0 <= qz d) by (apply qz_nonneg; exact Hd). assert (0 <= qz d * (- s)) by (apply Qc_mul_nonneg; qlra). replace (qz d * s) with (- (qz d * (- s))) by ring. qlra. Qed.

Section Realisation.
Variables (visit : list Z -> list Z) (s : srr_intervals) (d : draws).
Hypothesis WF : well_formed s.
Hypothesis HV : forall l, set_order l (visit l).

Lemma realization_overflow : forall method, (exists i rec, In (i, rec) (s_table s) /\ forall x y, i_slope_low i = Fin x -> i_slope_high i <> Fin y) ->
  realization method visit s d = Raise OverflowError.
Proof.
  intros method (i & rec & Hi & NF). unfold realization. cbv zeta. unfold interval_slopes. rewrite (proj2 (slopes_any (dr_slope d) (map fst (s_table s)) 0)); [reflexivity |].
  exists i. split; [| exact NF]. apply in_map_iff. exists (i, rec). auto.
Qed.

Variable b : nat -> Qc * Qc.
Hypothesis HB : bounded s b.
Let n := List.length (s_table s).
Let slope (k : nat) := between (b k) (dr_slope d k).
Let loss (k : nat) := slope k * qz (i_length (row_at s k)).
Let ls := map (fun k => loss k) (seq 0 n).
Let slopes := map slope (seq 0 n).

Lemma slopes_code : interval_slopes (dr_slope d) (map fst (s_table s)) = Ok (map Fin slopes).
Proof.
  unfold interval_slopes. rewrite (proj1 (slopes_any (dr_slope d) (map fst (s_table s)) 0) b).
  - unfold slopes, slope. rewrite map_length. reflexivity.
  - intros k i Hi. assert (k < n)%nat as Hk by (unfold n; rewrite <- (map_length fst); apply nth_error_Some; congruence). rewrite (row_at_nth s k Hk) in Hi. injection Hi as <-. apply HB. exact Hk.
Qed.
Lemma losses_code : run_losses (map fst (s_table s)) (map Fin slopes) = map Fin ls.
Proof.
  rewrite losses_spec by (unfold slopes; rewrite !map_length, seq_length; reflexivity). f_equal. apply ext_nth. intros k. unfold ls, slopes.
  rewrite !(nth_error_map_some _ _ (fun p => snd p * qz (i_length (fst p)))), nth_error_combine, (nth_error_map_some _ _ slope), (nth_error_map_some _ _ (fun k => loss k)), !nth_error_seq. cbn [Nat.add]. destruct (k <? n)%nat eqn:E.
  - apply Nat.ltb_lt in E. rewrite (row_at_nth s k E). cbn [option_map fst snd]. reflexivity.
  - apply Nat.ltb_ge in E. cbn [option_map]. destruct (nth_error (map fst (s_table s)) k); reflexivity.
Qed.
Lemma loss_nth : forall k, (k < n)%nat -> nth k ls 0 = loss k.
Proof. intros k H. unfold ls. apply (map_seq_nth _ loss). exact H. Qed.

(** Everything about a realisation once the starts are known. *)
Lemma realization_from : forall method starts, starts_of method visit d (s_table s) (map Fin ls) = Ok (map Fin starts) -> List.length starts = n ->
  exists profile ratio, realization method visit s d = Ok (map Fin profile, ratio) /\ List.length profile = List.length (s_daily s) /\
    (forall p a k, nth_error (s_daily s) p = Some a -> (k < n)%nat -> i_run (row_at s k) = a_run a ->
       nth p profile 0 = nth k starts 0 + qz ((a_date a - i_start (row_at s k)) / ns_day) * slope k) /\
    (noinf (map a_insol (s_daily s)) ->
       let rows := known_rows profile (map a_insol (s_daily s)) in
       (qsum (map snd rows) <> 0 -> exists q, ratio = Fin q /\ weighted_mean rows q) /\
       (qsum (map snd rows) = 0 -> (forall r, In r rows -> 0 <= snd r) -> ratio = NaN)).
Proof.
  intros method starts ES LS. assert (forall a, In a (s_daily s) -> exists k, (k < n)%nat /\ i_run (row_at s k) = a_run a) as COV.
  { intros a Ha. destruct (wf_daily s WF a Ha) as (x & Hx & Er & _). apply (In_nth _ _ (Interval 0 0 0 0 NaN NaN NaN NaN NaN NaN false, NaN)) in Hx. destruct Hx as (k & Hk & Ek). exists k. split; [exact Hk |]. unfold row_at. rewrite Ek. exact Er. }
  assert (forall a k, In a (s_daily s) -> (k < n)%nat -> i_run (row_at s k) = a_run a ->
    profile_row (combine (map fst (s_table s)) (combine (map Fin starts) (map Fin slopes))) a = Fin (nth k starts 0 + qz ((a_date a - i_start (row_at s k)) / ns_day) * slope k)) as PR.
  { intros a k Ha Hk Er. rewrite (profile_at (map fst (s_table s)) starts slopes a k (row_at s k)).
    - do 3 f_equal. unfold slopes. apply (map_seq_nth _ slope). exact Hk.
    - rewrite map_length. exact LS.
    - unfold slopes. rewrite !map_length, seq_length. reflexivity.
    - apply row_at_nth. exact Hk.
    - exact Er.
    - intros j i' Hj Hi' C. pose proof (wf_runs s WF) as ND. rewrite <- (map_map fst i_run) in ND. assert (j = k) as D; [| lia].
      apply (proj1 (NoDup_nth_error (map i_run (map fst (s_table s)))) ND); [rewrite !map_length; unfold n in Hk; lia |].
      rewrite (nth_error_map_some _ _ i_run _ j), (nth_error_map_some _ _ i_run _ k), Hi', (row_at_nth s k Hk). cbn [option_map]. congruence. }
  set (value := fun a => match profile_row (combine (map fst (s_table s)) (combine (map Fin starts) (map Fin slopes))) a with Fin q => q | _ => 0 end).
  exists (map value (s_daily s)). eexists. unfold realization. cbv zeta. rewrite slopes_code. cbn [bind]. rewrite losses_code, ES. cbn [bind].
  assert (map (profile_row (combine (map fst (s_table s)) (combine (map Fin starts) (map Fin slopes)))) (s_daily s) = map Fin (map value (s_daily s))) as EP.
  { rewrite map_map. apply map_ext_in. intros a Ha. unfold value. destruct (COV a Ha) as (k & Hk & Er). rewrite (PR a k Ha Hk Er). reflexivity. }
  split; [rewrite EP; reflexivity |]. split; [apply map_length |]. split.
  - intros p a k Hp Hk Er. apply nth_error_nth. rewrite nth_error_map_some, Hp. cbn [option_map]. unfold value. rewrite (PR a k (nth_error_In _ _ Hp) Hk Er). reflexivity.
  - intros N. apply (weighted_ratio_spec (map value (s_daily s)) (map a_insol (s_daily s)) N). rewrite !map_length. reflexivity.
Qed.

Lemma recs_noinf : forall x, In x (s_table s) -> snd x <> PInf /\ snd x <> NInf.
Proof. intros x Hx. destruct (wf_recovery s WF x Hx) as [-> | (q & -> & _)]; split; discriminate. Qed.
Lemma ls_length : List.length ls = List.length (s_table s).
Proof. unfold ls. rewrite map_length, seq_length. reflexivity. Qed.

(** Losses are not positive. *)
Lemma ls_nonpos : (forall k, (k < n)%nat -> fst (b k) <= 0) -> in_unit (dr_slope d) -> (forall k, (k < n)%nat -> slope k <= 0) /\ forall q, In q ls -> q <= 0.
Proof.
  intros HL HU. assert (forall k, (k < n)%nat -> slope k <= 0) as HS.
  { intros k Hk. destruct (HB k Hk) as [_ E]. destruct (row_at_In s k Hk) as (rec & Hin). pose proof (wf_high s WF _ _ Hin E) as HH. destruct (HU k). apply between_nonpos; auto. }
  split; [exact HS |]. intros q Hq. unfold ls in Hq. apply in_map_iff in Hq. destruct Hq as (k & <- & Hk). apply in_seq in Hk. unfold loss. rewrite Qcmult_comm. apply mul_days; [| apply HS; lia].
  destruct (row_at_In s k ltac:(unfold n in Hk; lia)) as (rec & Hin). apply (wf_length s WF _ Hin).
Qed.

(** Starts of every method. *)
Lemma starts_method : forall method, known_method method -> exists starts,
  starts_of method visit d (s_table s) (map Fin ls) = Ok (map Fin starts) /\ List.length starts = n /\
  (method = "perfect_clean"%string -> forall k, (k < n)%nat -> nth k starts 0 = 1) /\
  (method = "half_norm_clean"%string -> levels_ok true (dr_clean d) (the_valid s) loss (the_recovery s) (fun k => nth k starts 0)) /\
  (method = "random_clean"%string -> levels_ok false (dr_clean d) (the_valid s) loss (the_recovery s) (fun k => nth k starts 0)) /\
  (method <> "perfect_clean"%string -> (forall l, visit l = zset l) -> fill_ok (dr_level d) (the_valid s) loss (fun k => nth k starts 0)) /\
  ((method = "random_clean"%string -> in_unit (dr_clean d)) -> in_unit (dr_level d) -> (forall q, In q ls -> q <= 0) -> forall x, In x starts -> x <= 1).
Proof.
  assert (forall j, nth_error (the_valid s) j = Some true -> nth j ls 0 = loss j) as EX.
  { intros j Hj. apply loss_nth. unfold n. rewrite <- (map_length (fun x => i_valid (fst x)) (s_table s)). apply nth_error_Some. unfold the_valid in Hj. congruence. }
  intros method [-> | [-> | ->]].
  - destruct (random_starts_spec HalfNorm d (s_table s) ls visit ls_length recs_noinf HV) as (starts & E & L & HL & HF & H1). exists starts. split; [exact E |]. split; [exact L |].
    split; [discriminate |]. split; [intros _; apply (levels_ext _ _ _ (fun k => nth k ls 0)); [exact EX | exact HL] |]. split; [discriminate |].
    split; [intros _ HZ; apply (fill_ext _ _ (fun k => nth k ls 0)); [exact EX | apply HF; exact HZ] |]. intros _ HU HN. apply H1; [discriminate | exact HU | exact HN].
  - destruct (random_starts_spec RandomClean d (s_table s) ls visit ls_length recs_noinf HV) as (starts & E & L & HL & HF & H1). exists starts. split; [exact E |]. split; [exact L |].
    split; [discriminate |]. split; [discriminate |]. split; [intros _; apply (levels_ext _ _ _ (fun k => nth k ls 0)); [exact EX | exact HL] |].
    split; [intros _ HZ; apply (fill_ext _ _ (fun k => nth k ls 0)); [exact EX | apply HF; exact HZ] |]. intros HC HU HN. apply H1; [intros _; apply HC; reflexivity | exact HU | exact HN].
  - exists (map (fun _ => 1) (s_table s)). split; [cbn; rewrite map_map; reflexivity |]. split; [apply map_length |].
    split; [intros _ k Hk; apply nth_error_nth; rewrite nth_error_map_some; destruct (nth_error (s_table s) k) eqn:E; [reflexivity | apply nth_error_None in E; unfold n in Hk; lia] |].
    split; [discriminate |]. split; [discriminate |]. split; [intros C; contradiction |]. intros _ _ _ x Hx. apply in_map_iff in Hx. destruct Hx as (y & <- & _). apply Qcle_refl.
Qed.

Lemma realization_unknown : forall method, ~ known_method method -> realization method visit s d = Raise ValueError.
Proof.
  intros method N. unfold realization. cbv zeta. rewrite slopes_code. cbn [bind]. unfold starts_of.
  destruct (String.eqb_spec method "half_norm_clean") as [E | _]; [contradiction N; left; exact E |].
  destruct (String.eqb_spec method "random_clean") as [E | _]; [contradiction N; right; left; exact E |].
  destruct (String.eqb_spec method "perfect_clean") as [E | _]; [contradiction N; right; right; exact E |]. reflexivity.
Qed.

Theorem realization_spec : forall method, known_method method -> exists starts profile ratio,
  realization method visit s d = Ok (map Fin profile, ratio) /\ List.length starts = n /\ List.length profile = List.length (s_daily s) /\
  (method = "perfect_clean"%string -> forall k, (k < n)%nat -> nth k starts 0 = 1) /\
  (method = "half_norm_clean"%string -> levels_ok true (dr_clean d) (the_valid s) loss (the_recovery s) (fun k => nth k starts 0)) /\
  (method = "random_clean"%string -> levels_ok false (dr_clean d) (the_valid s) loss (the_recovery s) (fun k => nth k starts 0)) /\
  (method <> "perfect_clean"%string -> (forall l, visit l = zset l) -> fill_ok (dr_level d) (the_valid s) loss (fun k => nth k starts 0)) /\
  (forall p a k, nth_error (s_daily s) p = Some a -> (k < n)%nat -> i_run (row_at s k) = a_run a ->
     nth p profile 0 = nth k starts 0 + qz ((a_date a - i_start (row_at s k)) / ns_day) * slope k) /\
  (noinf (map a_insol (s_daily s)) ->
     let rows := known_rows profile (map a_insol (s_daily s)) in
     (qsum (map snd rows) <> 0 -> exists q, ratio = Fin q /\ weighted_mean rows q) /\
     (qsum (map snd rows) = 0 -> (forall r, In r rows -> 0 <= snd r) -> ratio = NaN)) /\
  ((method = "random_clean"%string -> in_unit (dr_clean d)) -> in_unit (dr_level d) -> in_unit (dr_slope d) -> (forall k, (k < n)%nat -> fst (b k) <= 0) ->
     (forall x, In x starts -> x <= 1) /\ (forall x, In x profile -> x <= 1) /\
     (forall p q a a', (p <= q)%nat -> nth_error (s_daily s) p = Some a -> nth_error (s_daily s) q = Some a' -> a_run a = a_run a' -> nth q profile 0 <= nth p profile 0)).
Proof.
  intros method HM. destruct (starts_method method HM) as (starts & E & L & S1 & S2 & S3 & S4 & S5). destruct (realization_from method starts E L) as (profile & ratio & ER & LP & HP & HR).
  exists starts, profile, ratio. split; [exact ER |]. split; [exact L |]. split; [exact LP |]. split; [exact S1 |]. split; [exact S2 |]. split; [exact S3 |]. split; [exact S4 |]. split; [exact HP |]. split; [exact HR |].
  intros HC HU HS HL. destruct (ls_nonpos HL HS) as [SN LN]. pose proof (S5 HC HU LN) as B1.
  assert (forall a, In a (s_daily s) -> exists k, (k < n)%nat /\ i_run (row_at s k) = a_run a /\ (i_start (row_at s k) <= a_date a)%Z) as COV.
  { intros a Ha. destruct (wf_daily s WF a Ha) as (x & Hx & Er & Es). apply (In_nth _ _ (Interval 0 0 0 0 NaN NaN NaN NaN NaN NaN false, NaN)) in Hx. destruct Hx as (k & Hk & Ek). exists k. split; [exact Hk |]. unfold row_at. rewrite Ek. split; [exact Er | lia]. }
  split; [exact B1 |]. split.
  - intros x Hx. apply (In_nth _ _ 0) in Hx. destruct Hx as (p & Hp & <-). rewrite LP in Hp. destruct (nth_error (s_daily s) p) as [a |] eqn:Ea; [| apply nth_error_None in Ea; lia].
    destruct (COV a (nth_error_In _ _ Ea)) as (k & Hk & Er & Es). rewrite (HP p a k Ea Hk Er). assert (nth k starts 0 <= 1) by (apply B1, nth_In; rewrite L; exact Hk).
    assert (qz ((a_date a - i_start (row_at s k)) / ns_day) * slope k <= 0) by (apply mul_days; [apply Z.div_pos; [lia | unfold ns_day; lia] | apply SN; exact Hk]). qlra.
  - intros p q a a' Hpq Ha Ha' Er. destruct (COV a (nth_error_In _ _ Ha)) as (k & Hk & Ek & Es). rewrite (HP p a k Ha Hk Ek), (HP q a' k Ha' Hk ltac:(congruence)).
    assert (a_date a <= a_date a')%Z as LE.
    { destruct (Nat.eq_dec p q) as [-> | NE]; [replace a' with a by congruence; lia |]. pose proof (wf_dates s WF p q a a' ltac:(lia) Ha Ha'). lia. }
    assert ((a_date a - i_start (row_at s k)) / ns_day <= (a_date a' - i_start (row_at s k)) / ns_day)%Z as LD by (apply Z.div_le_mono; [unfold ns_day; lia | lia]).
    set (x := ((a_date a - i_start (row_at s k)) / ns_day)%Z) in *. set (y := ((a_date a' - i_start (row_at s k)) / ns_day)%Z) in *.
    assert (qz (y - x) * slope k <= 0) by (apply mul_days; [lia | apply SN; exact Hk]). replace (qz (y - x)) with (qz y - qz x) in H by (rewrite <- qz_sub; reflexivity).
    replace (nth k starts 0 + qz y * slope k) with (nth k starts 0 + qz x * slope k + (qz y - qz x) * slope k) by ring. qlra.
Qed.
End Realisation.
