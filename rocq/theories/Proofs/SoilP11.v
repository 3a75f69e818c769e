(** Annual soiling ratios. *)

From Coq Require Import QArith Qcanon List ZArith Bool Arith Lia Sorted String.
From Verif.Base Require Import QcExtra ISort Quantile Fl TimeSeries Calendar Rolling Segments.
From Verif.Spec Require Import Stats Filters Soiling.
From Verif.Model Require Import Soiling SoilingSummary.
From Verif.Spec Require Import SoilingTable SoilingSummary.
From Verif.Proofs Require Import StatsP FiltersP2 SoilP3 SoilP4 SoilP5 SoilP8 SoilP9 SoilP10.
Import ListNotations.
Open Scope list_scope.
Open Scope Qc_scope.

Lemma levels_eq : forall c, quantile_levels c = ((qz 50 - c / qz 2) / qz 100, (qz 50 + c / qz 2) / qz 100).
Proof. intros c. unfold quantile_levels. f_equal; rewrite <- half_eq; unfold Qcdiv; ring. Qed.

Lemma level_range : forall c, let p := qz 50 - c / qz 2 in let q := qz 50 + c / qz 2 in
  (- qz 100 <= c -> c <= qz 100 -> (0 <= p /\ p <= qz 100) /\ (0 <= q /\ q <= qz 100)) /\
  (c < - qz 100 \/ qz 100 < c -> p < 0 \/ qz 100 < p).
Proof.
  intros c p q. unfold p, q. assert (c = c / qz 2 * qz 2) as E by (symmetry; apply Qc_div_mul; discriminate). set (h := c / qz 2) in *. clearbody h. subst c. split.
  - intros H1 H2. repeat split; qlra.
  - intros [H | H]; [right | left]; qlra.
Qed.
Lemma level_test : forall c, let '(low, high) := quantile_levels c in
  (- qz 100 <= c -> c <= qz 100 -> qle 0 low && qle low 1 && qle 0 high && qle high 1 = true) /\
  (c < - qz 100 \/ qz 100 < c -> qle 0 low && qle low 1 && qle 0 high && qle high 1 = false).
Proof.
  intros c. rewrite levels_eq. destruct (level_range c) as [H1 H2]. split.
  - intros A B. destruct (H1 A B) as [[P0 P1] [Q0 Q1]]. destruct (div100_range _ P0 P1). destruct (div100_range _ Q0 Q1). rewrite !(proj2 (qle_spec _ _)) by assumption. reflexivity.
  - intros A. destruct (H2 A) as [C | C].
    + assert (qle 0 ((qz 50 - c / qz 2) / qz 100) = false) as ->; [| reflexivity]. apply qle_false. apply Qc_div_lt; qlra.
    + assert (qle ((qz 50 - c / qz 2) / qz 100) 1 = false) as ->; [| rewrite andb_false_r; reflexivity]. apply qle_false. apply Qc_lt_div; qlra.
Qed.

Lemma three_levels : forall c qs, qs <> [] -> - qz 100 <= c -> c <= qz 100 ->
  let '(low, high) := quantile_levels c in exists m lo hi,
  fquantile (qf 1 2) (map Fin qs) = Fin m /\ fquantile low (map Fin qs) = Fin lo /\ fquantile high (map Fin qs) = Fin hi /\
  is_median qs m /\ is_percentile (qz 50 - c / qz 2) qs lo /\ is_percentile (qz 50 + c / qz 2) qs hi /\
  (0 <= c -> lo <= m /\ m <= hi) /\ (c = qz 100 -> is_min qs lo /\ is_max qs hi) /\
  forall a b, (forall q, In q qs -> a <= q /\ q <= b) -> (a <= m /\ m <= b) /\ (a <= lo /\ lo <= b) /\ (a <= hi /\ hi <= b).
Proof.
  intros c qs NE C0 C1. rewrite levels_eq. destruct (level_range c) as [H1 _]. destruct (H1 C0 C1) as [[P0 P1] [Q0 Q1]]. clear H1.
  pose proof (div100_range _ P0 P1) as [R1 R2]. pose proof (div100_range _ Q0 Q1) as [R3 R4]. destruct half_range as [R5 R6].
  assert (forall q, 0 <= q -> q <= 1 -> fquantile q (map Fin qs) = Fin (qquantile q qs)) as FQ.
  { intros q A B. rewrite fquantile_noinf; [rewrite finvals_map_Fin; reflexivity | apply noinf_map_Fin | rewrite finvals_map_Fin; exact NE | exact A | exact B]. }
  do 3 eexists. split; [apply FQ; assumption |]. split; [apply FQ; assumption |]. split; [apply FQ; assumption |]. rewrite <- (qmedian_quantile qs NE).
  split; [apply qmedian_spec; exact NE |]. split; [apply qpercentile_spec; assumption |]. split; [apply qpercentile_spec; assumption |]. split; [| split].
  - intros CP. assert (0 <= c / qz 2) by (apply Qc_le_div; qlra). rewrite qmedian_quantile, <- half_eq by exact NE. split; apply qquantile_mono; auto; rewrite ?half_eq; auto; rewrite <- ?half_eq; apply div100_mono; qlra.
  - intros ->. replace ((qz 50 - qz 100 / qz 2) / qz 100) with 0 by qc_canon. replace ((qz 50 + qz 100 / qz 2) / qz 100) with 1 by qc_canon. split; [apply qquantile_0_min | apply qquantile_1_max]; exact NE.
  - intros a b H. split; [apply qmedian_bounds; assumption |]. split; apply qquantile_bounds; assumption.
Qed.

Lemma F2_seq : forall A B (P : A -> B -> Prop) (f : nat -> B) l o, (forall j p, nth_error l j = Some p -> P p (f (o + j)%nat)) -> Forall2 P l (map f (seq o (List.length l))).
Proof.
  induction l as [| p l IH]; intros o K; [constructor |]. cbn [List.length seq map]. constructor.
  - specialize (K 0%nat p eq_refl). rewrite Nat.add_0_r in K. exact K.
  - apply IH. intros j p' Hj. specialize (K (S j) p' Hj). rewrite Nat.add_succ_r in K. exact K.
Qed.

(** ** Rows of a year *)

Lemma notnan_lookup : forall p t, noinf (vals p) -> notnan (lookup p t) = true -> exists v, lookup p t = Fin v /\ In t (times p).
Proof.
  intros p t N H. unfold lookup in *. destruct (find (fun r => (fst r =? t)%Z) p) as [[t' x] |] eqn:E; [| discriminate]. apply find_some in E. destruct E as [Hin Et]. cbn in Et. apply Z.eqb_eq in Et. subst t'.
  cbn [snd] in *. destruct (N x) as [N1 N2]; [unfold vals; apply in_map_iff; exists (t, x); auto |]. destruct x; try discriminate; try contradiction. exists q. split; [reflexivity |]. unfold times. apply in_map_iff. exists (t, Fin q). auto.
Qed.
Lemma lookup_noinf : forall p t, noinf (vals p) -> lookup p t <> PInf /\ lookup p t <> NInf.
Proof.
  intros p t N. unfold lookup. destruct (find _ p) as [[t' x] |] eqn:E; [| split; discriminate]. apply find_some in E. destruct E as [Hin _]. apply N. unfold vals. apply in_map_iff. exists (t', x). auto.
Qed.
Lemma sorted_zfilter : forall (f : Z -> bool) l, StronglySorted Z.lt l -> StronglySorted Z.lt (filter f l).
Proof.
  intros f l H. induction H as [| x l H IH F]; [constructor |]. cbn. destruct (f x); [| exact IH]. constructor; [exact IH |]. rewrite Forall_forall in *. intros y Hy. apply filter_In in Hy. apply F, Hy.
Qed.

Section Annual.
Variables (profiles : list series) (insolation : series).
Hypothesis sorted_p : forall p, In p profiles -> sorted_index p /\ noinf (vals p).
Hypothesis noinf_i : noinf (vals insolation).

Lemma complete_times : forall y p, In p profiles ->
  filter (fun t => complete profiles t && (ts_year t =? y)%Z) (zset (flat_map times profiles)) = filter (fun t => complete profiles t && (ts_year t =? y)%Z) (times p).
Proof.
  intros y p Hp. apply sorted_lt_unique; [apply sorted_zfilter, zset_sorted | apply sorted_zfilter; apply (sorted_p p Hp) |]. intros t. rewrite !filter_In, zset_In, in_flat_map.
  split; intros [H1 H2]; (split; [| exact H2]); [| eauto]. apply andb_true_iff in H2. destruct H2 as [H2 _]. unfold complete in H2. rewrite forallb_forall in H2.
  destruct (notnan_lookup p t) as (v & _ & Hin); [apply (sorted_p p Hp) | apply (H2 p Hp) | exact Hin].
Qed.

Lemma year_mine : forall y, filter (fun r => (ts_year (fst r) =? y)%Z) (complete_rows profiles) =
  map (fun t => (t, map (fun p => lookup p t) profiles)) (filter (fun t => complete profiles t && (ts_year t =? y)%Z) (zset (flat_map times profiles))).
Proof.
  intros y. unfold complete_rows. induction (zset (flat_map times profiles)) as [| t l IH]; [reflexivity |]. cbn [map filter snd]. unfold complete at 1.
  assert (forallb notnan (map (fun p => lookup p t) profiles) = forallb (fun p => notnan (lookup p t)) profiles) as -> by (clear; induction profiles as [| p l IH]; [reflexivity |]; cbn; rewrite IH; reflexivity).
  destruct (forallb (fun p => notnan (lookup p t)) profiles); cbn [andb]; [| exact IH]. cbn [filter fst]. destruct (ts_year t =? y)%Z; cbn [map]; [rewrite IH; reflexivity | exact IH].
Qed.

Lemma ratio_spec : forall y j p, nth_error profiles j = Some p ->
  let rows := year_rows profiles insolation y p in
  let ratio := year_ratio insolation (filter (fun r => (ts_year (fst r) =? y)%Z) (complete_rows profiles)) j in
  (qsum (map snd rows) <> 0 -> exists q, ratio = Fin q /\ weighted_mean rows q) /\
  (qsum (map snd rows) = 0 -> (forall r, In r rows -> 0 <= snd r) -> ratio = NaN).
Proof.
  intros y j p Hj rows ratio. pose proof (nth_error_In _ _ Hj) as Hp. unfold ratio, year_ratio. cbv zeta. rewrite year_mine, (complete_times y p Hp), !map_map. cbn [fst snd].
  set (ts := filter _ (times p)). unfold rows, year_rows. fold ts.
  assert (forall t, In t ts -> exists v, lookup p t = Fin v) as HT.
  { intros t Ht. unfold ts in Ht. apply filter_In in Ht. destruct Ht as [_ Ht]. apply andb_true_iff in Ht. destruct Ht as [Ht _]. unfold complete in Ht. rewrite forallb_forall in Ht.
    destruct (notnan_lookup p t) as (v & E & _); [apply (sorted_p p Hp) | apply (Ht p Hp) | eauto]. }
  clearbody ts. set (xs := map (fun t => fin_of (lookup p t)) ts). set (ws := map (fun t => lookup insolation t) ts).
  assert (noinf ws) as NW by (intros w Hw; unfold ws in Hw; apply in_map_iff in Hw; destruct Hw as (t & <- & _); apply lookup_noinf; exact noinf_i).
  assert (flat_map (fun t => match lookup p t, lookup insolation t with Fin v, Fin w => [(v, w)] | _, _ => [] end) ts = known_rows xs ws) as ER.
  { unfold known_rows, xs, ws. clear xs ws NW. induction ts as [| t ts IH]; [reflexivity |]. cbn [flat_map map combine fst snd]. destruct (HT t (or_introl eq_refl)) as (v & ->). cbn [fin_of]. rewrite IH by (intros t' H'; apply HT; right; exact H'). reflexivity. }
  rewrite ER. clear ER. destruct (ratio_sums xs ws NW) as [E1 E2]; [unfold xs, ws; rewrite !map_length; reflexivity |].
  assert (fsum (map (fun t => fmul (nth j (map (fun p0 => lookup p0 t) profiles) NaN) (lookup insolation t)) ts) = Fin (qsum (map (fun r => fst r * snd r) (known_rows xs ws)))) as ->.
  { rewrite <- E1. f_equal. unfold xs, ws. clear -HT Hj. induction ts as [| t ts IH]; [reflexivity |]. cbn [map combine fst snd]. rewrite IH by (intros t' H'; apply HT; right; exact H'). f_equal. f_equal.
    destruct (HT t (or_introl eq_refl)) as (v & E). rewrite E. cbn [fin_of]. rewrite <- E. apply nth_error_nth. rewrite nth_error_map_some, Hj. reflexivity. }
  assert (fsum ws = Fin (qsum (map snd (known_rows xs ws)))) as ->.
  { rewrite <- E2. unfold ws, xs. clear -noinf_i. assert (forall q l, fsum (Fin q :: l) = fadd (Fin q) (fsum l)) as FC by reflexivity. assert (forall l, fsum (NaN :: l) = fsum l) as FN by reflexivity.
    induction ts as [| t ts IH]; [reflexivity |]. cbn [map combine filter fst snd]. destruct (lookup_noinf insolation t noinf_i) as [N1 N2]. destruct (lookup insolation t); try contradiction; cbn [fmul notnan isnan negb map snd]; rewrite ?FC, ?FN, IH; reflexivity. }
  clear E1 E2. set (rs := known_rows xs ws). split.
  - intros NZ. unfold fz. cbn [fdiv]. destruct (qeq (qsum (map snd rs)) 0) eqn:E; qb; [contradiction |]. cbn [fmul]. eexists. split; [reflexivity |].
    unfold weighted_mean. rewrite qz_1. set (S := qsum (map snd rs)) in *. unfold Qcdiv. rewrite Qcmult_1_l, <- Qcmult_assoc, (Qcmult_comm (/ S)), Qcmult_inv_r by exact NZ. apply Qcmult_1_r.
  - intros Z0 HN. assert (qsum (map (fun r => fst r * snd r) rs) = 0) as ->.
    { assert (forall r, In r rs -> snd r = 0) as K.
      { clear -Z0 HN. induction rs as [| r rs IH]; intros x Hx; [destruct Hx |]. cbn [map] in Z0. rewrite qsum_cons in Z0. pose proof (HN r (or_introl eq_refl)) as H0.
        assert (forall z, In z rs -> 0 <= snd z) as HR by (intros z Hz; apply HN; right; exact Hz).
        assert (0 <= qsum (map snd rs)) as HS. { clear -HR. induction rs as [| z rs IH]; [discriminate |]. cbn [map]. rewrite qsum_cons. pose proof (HR z (or_introl eq_refl)). specialize (IH (fun u Hu => HR u (or_intror Hu))). qlra. }
        destruct Hx as [<- | Hx]; [qlra |]. apply IH; [qlra | exact HR | exact Hx]. }
      clear -K. induction rs as [| r rs IH]; [reflexivity |]. cbn [map]. rewrite qsum_cons, IH by (intros z Hz; apply K; right; exact Hz). rewrite (K r (or_introl eq_refl)). ring. }
    rewrite Z0. unfold fz. reflexivity.
Qed.

(** The total weight of a year is the same for all realisations. *)
Lemma year_total : forall y p p', In p profiles -> In p' profiles ->
  map snd (year_rows profiles insolation y p) = map snd (year_rows profiles insolation y p').
Proof.
  intros y p p' Hp Hp'. unfold year_rows. rewrite <- (complete_times y p Hp), <- (complete_times y p' Hp').
  assert (forall t, In t (filter (fun t => complete profiles t && (ts_year t =? y)%Z) (zset (flat_map times profiles))) -> (exists v, lookup p t = Fin v) /\ (exists v, lookup p' t = Fin v)) as HT.
  { intros t Ht. apply filter_In in Ht. destruct Ht as [_ Ht]. apply andb_true_iff in Ht. destruct Ht as [Ht _]. unfold complete in Ht. rewrite forallb_forall in Ht.
    split; [destruct (notnan_lookup p t) as (v & E & _) | destruct (notnan_lookup p' t) as (v & E & _)]; eauto; try apply sorted_p; auto. }
  revert HT. generalize (filter (fun t => complete profiles t && (ts_year t =? y)%Z) (zset (flat_map times profiles))) as ts. induction ts as [| t ts IH]; intros HT; [reflexivity |]. cbn [flat_map].
  destruct (HT t (or_introl eq_refl)) as [(v & ->) (v' & ->)]. rewrite !map_app, IH by (intros t' H'; apply HT; right; exact H'). destruct (lookup insolation t); reflexivity.
Qed.
End Annual.

Theorem annual_spec : forall profiles insolation c, profiles <> [] -> (forall p, In p profiles -> sorted_index p /\ noinf (vals p)) -> noinf (vals insolation) ->
  - qz 100 <= c -> c <= qz 100 -> exists table, annual_soiling_ratios profiles insolation c = Ok table /\ StronglySorted Z.lt (map y_year table) /\
  (forall y, In y (map y_year table) <-> exists t, complete profiles t = true /\ ts_year t = y) /\
  forall row, In row table ->
    ((forall p, In p profiles -> qsum (map snd (year_rows profiles insolation (y_year row) p)) <> 0) ->
     exists qs m lo hi, Forall2 (fun p q => weighted_mean (year_rows profiles insolation (y_year row) p) q) profiles qs /\
       y_median row = Fin m /\ y_low row = Fin lo /\ y_high row = Fin hi /\ is_median qs m /\ is_percentile (qz 50 - c / qz 2) qs lo /\ is_percentile (qz 50 + c / qz 2) qs hi /\
       (0 <= c -> lo <= m /\ m <= hi) /\ (c = qz 100 -> is_min qs lo /\ is_max qs hi)) /\
    ((forall p, In p profiles -> qsum (map snd (year_rows profiles insolation (y_year row) p)) = 0 /\ forall r, In r (year_rows profiles insolation (y_year row) p) -> 0 <= snd r) ->
     y_median row = NaN /\ y_low row = NaN /\ y_high row = NaN).
Proof.
  intros profiles insolation c NE SP NI C0 C1. unfold annual_soiling_ratios. destruct profiles as [| p0 ps]; [contradiction |]. set (profiles := p0 :: ps) in *. cbv zeta.
  pose proof (level_test c) as LT. destruct (quantile_levels c) as [low high] eqn:EL. rewrite (proj1 LT C0 C1). eexists. split; [reflexivity |]. rewrite map_map. cbn [y_year]. rewrite map_id.
  split; [apply zset_sorted |]. split.
  - intros y. rewrite zset_In, in_map_iff. unfold complete_rows. split.
    + intros ([t vs] & Ey & Hr). apply filter_In in Hr. destruct Hr as [Hr Hn]. apply in_map_iff in Hr. destruct Hr as (t' & E & _). injection E as -> <-. cbn [fst snd] in *. exists t. split; [| exact Ey].
      unfold complete. rewrite forallb_forall in *. intros p Hp. apply Hn. exact (in_map (fun p => lookup p t) profiles p Hp).
    + intros (t & Hc & Ey). exists (t, map (fun p => lookup p t) profiles). split; [exact Ey |]. apply filter_In. split.
      * apply in_map_iff. exists t. split; [reflexivity |]. apply zset_In. apply in_flat_map. exists p0. split; [left; reflexivity |]. unfold complete in Hc. rewrite forallb_forall in Hc.
        destruct (notnan_lookup p0 t) as (v & _ & Hin); [apply SP; left; reflexivity | apply Hc; left; reflexivity | exact Hin].
      * cbn [snd]. unfold complete in Hc. rewrite forallb_forall in *. intros x Hx. apply in_map_iff in Hx. destruct Hx as (p & <- & Hp). apply Hc. exact Hp.
  - intros row Hrow. apply in_map_iff in Hrow. destruct Hrow as (y & <- & _). cbn [y_year y_median y_low y_high]. set (mine := filter _ (complete_rows profiles)).
    set (ratios := map (year_ratio insolation mine) (seq 0 (List.length profiles))). split.
    + intros HZ. assert (exists qs, ratios = map Fin qs /\ Forall2 (fun p q => weighted_mean (year_rows profiles insolation y p) q) profiles qs) as (qs & EQ & F).
      { exists (map (fun j => fin_of (year_ratio insolation mine j)) (seq 0 (List.length profiles))). split.
        - unfold ratios. rewrite map_map. apply map_ext_in. intros j Hj. apply in_seq in Hj. destruct (nth_error profiles j) as [p |] eqn:Ep; [| apply nth_error_None in Ep; lia].
          destruct (ratio_spec profiles insolation SP NI y j p Ep) as [H _]. destruct (H (HZ p (nth_error_In _ _ Ep))) as (q & Eq & _). fold mine in Eq. rewrite Eq. reflexivity.
        - assert (forall j p, nth_error profiles j = Some p -> weighted_mean (year_rows profiles insolation y p) (fin_of (year_ratio insolation mine j))) as K.
          { intros j p Ep. destruct (ratio_spec profiles insolation SP NI y j p Ep) as [H _]. destruct (H (HZ p (nth_error_In _ _ Ep))) as (q & Eq & W). fold mine in Eq. rewrite Eq. exact W. }
          apply (F2_seq _ _ _ (fun j => fin_of (year_ratio insolation mine j)) profiles 0%nat). exact K. }
      assert (qs <> []) as NQ by (intros ->; inversion F). pose proof (three_levels c qs NQ C0 C1) as T. rewrite EL in T. destruct T as (m & lo & hi & E1 & E2 & E3 & M & P1 & P2 & O & X & _).
      exists qs, m, lo, hi. rewrite EQ. auto 12.
    + intros HZ. assert (forall q, fquantile q ratios = NaN) as K; [| rewrite !K; auto].
      intros q. assert (dropna ratios = []) as ED; [| unfold fquantile; rewrite ED; reflexivity].
      unfold dropna, ratios. apply filter_none. intros x Hx. apply in_map_iff in Hx. destruct Hx as (j & <- & Hj). apply in_seq in Hj. destruct (nth_error profiles j) as [p |] eqn:Ep; [| apply nth_error_None in Ep; lia].
      destruct (ratio_spec profiles insolation SP NI y j p Ep) as [_ H]. destruct (HZ p (nth_error_In _ _ Ep)) as [Z0 HN]. specialize (H Z0 HN). fold mine in H. rewrite H. reflexivity.
Qed.

Theorem annual_errors : forall profiles insolation c, (profiles = [] \/ c < - qz 100 \/ qz 100 < c) -> annual_soiling_ratios profiles insolation c = Raise ValueError.
Proof.
  intros profiles insolation c H. unfold annual_soiling_ratios. destruct profiles as [| p ps]; [reflexivity |]. destruct H as [H | H]; [discriminate |]. cbv zeta. pose proof (level_test c) as LT. destruct (quantile_levels c). rewrite (proj2 LT H). reflexivity.
Qed.
