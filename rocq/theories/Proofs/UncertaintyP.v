(** Uncertainty outputs of the degradation functions: regression covariance, simple
    bootstrap and renormalising factor. *)

From Coq Require Import QArith Qcanon List ZArith Bool Permutation Sorted Lia.
From Verif.Base Require Import QcExtra ISort Quantile Fl Calendar.
From Verif.Spec Require Import Stats Time YoY Filters Regression.
From Verif.Model Require Import Utilities Bootstrap YearOnYear Regression.
From Verif.Proofs Require Import StatsP FlP YoYP YoYP2 BootP FiltersP RegressionP.
Import ListNotations.
Open Scope Qc_scope.

(** ** Order statistics do not depend on the order *)

Lemma is_median_perm : forall l l' m, Permutation l l' -> is_median l m -> is_median l' m.
Proof.
  intros l l' m HP (s & [P S] & H). exists s. split; [split; [| exact S] | exact H].
  apply Permutation_trans with l; [apply Permutation_sym, HP | exact P].
Qed.

Lemma is_percentile_perm : forall p l l' m, Permutation l l' -> is_percentile p l m -> is_percentile p l' m.
Proof.
  intros p l l' m HP (s & k & t & [P S] & H). exists s, k, t. split; [split; [| exact S] | exact H].
  apply Permutation_trans with l; [apply Permutation_sym, HP | exact P].
Qed.

Lemma Permutation_filter' : forall A (f : A -> bool) l l', Permutation l l' -> Permutation (filter f l) (filter f l').
Proof.
  intros A f l l' H. induction H as [| x l l' H IH | x y l | l l' l'' H1 IH1 H2 IH2]; cbn [filter].
  - constructor.
  - destruct (f x); auto.
  - destruct (f x), (f y); auto. apply perm_swap.
  - eapply Permutation_trans; eassumption.
Qed.

Lemma filter_nil_all : forall A (f : A -> bool) l, (forall x, In x l -> f x = false) -> filter f l = [].
Proof.
  intros A f l. induction l as [| a l IH]; intros H; [reflexivity |]. cbn [filter].
  rewrite (H a (or_introl eq_refl)). apply IH. intros x Hx. apply H. right. exact Hx.
Qed.

Lemma filter_all_true : forall A (f : A -> bool) l, (forall x, In x l -> f x = true) -> filter f l = l.
Proof.
  intros A f l. induction l as [| a l IH]; intros H; [reflexivity |]. cbn [filter].
  rewrite (H a (or_introl eq_refl)). f_equal. apply IH. intros x Hx. apply H. right. exact Hx.
Qed.

Lemma finvals_perm : forall l l', Permutation l l' -> Permutation (finvals l) (finvals l').
Proof.
  intros l l' H. induction H as [| x l l' H IH | x y l | l l' l'' H1 IH1 H2 IH2].
  - constructor.
  - destruct x; cbn; auto.
  - destruct x, y; cbn; auto. apply perm_swap.
  - eapply Permutation_trans; eassumption.
Qed.

(** ** Covariance *)

Lemma row_years_points : forall t0 s, row_years t0 s = xs_of (ols_points t0 s).
Proof.
  intros t0 s. induction s as [| [t e] s IH]; [reflexivity |].
  unfold row_years, xs_of in *. destruct e; cbn [flat_map ols_points snd fst map]; auto.
  rewrite <- IH, years_eq. reflexivity.
Qed.

Lemma cov_matrix : forall t0 s, enough_points s ->
  let l := ols_points t0 s in
  is_covariance t0 s (ols_mse l) (fst (fst (ols_cov l))) (snd (fst (ols_cov l))) (snd (ols_cov l)).
Proof.
  intros t0 s HE l. pose proof (enough_rank t0 s HE) as HR. fold l in HR.
  destruct HE as [(t1 & t2 & y1 & y2 & I1 & I2 & Hne) _].
  pose proof (two_times_sxx t0 s t1 t2 y1 y2 I1 I2 Hne) as HS. fold l in HS.
  assert (l <> []) as Hl by (intros E; rewrite E in HR; cbn in HR; lia).
  pose proof (len_ne0 l Hl) as Hn. pose proof (sxx_raw l Hl) as ER. cbv zeta beta in ER.
  unfold is_covariance, sum_1, sum_x, sum_xx. rewrite row_years_points. fold l.
  unfold ols_cov. assert (qeq (sxx l) 0 = false) as -> by (apply qeq_false; exact HS). cbn [fst snd].
  assert (qz (Z.of_nat (length (xs_of l))) = qlen l) as -> by (unfold xs_of, qlen; rewrite map_length; reflexivity).
  assert (map (fun x => x * x) (xs_of l) = map (fun p => fst p * fst p) l) as -> by (unfold xs_of; rewrite map_map; reflexivity).
  assert (qmean (xs_of l) = qsum (xs_of l) / qlen l) as ->
    by (unfold qmean, xs_of, qlen; rewrite map_length; reflexivity).
  change (map (fun p => fst p) l) with (xs_of l) in ER.
  set (e := ols_mse l) in *. set (n := qlen l) in *. set (sx := qsum (xs_of l)) in *.
  set (xx := qsum (map (fun p => fst p * fst p) l)) in *. set (S := sxx l) in *.
  assert (xx = S + sx * sx / n) as -> by (rewrite ER; ring).
  clearbody e n sx S. try clear ER.
  repeat split; field; auto.
Qed.

Lemma ols_uncertainty : forall draws cl t0 e0 s o, let d := (t0, e0) :: s in
  degradation_ols draws cl d = Ok o -> enough_points d ->
  o_mse o * qz (Z.of_nat (length (finvals (map snd d))) - 2) = sq_error t0 d (o_intercept o) (o_slope o) /\
  exists vc, is_covariance t0 d (o_mse o) (o_var_b o) vc (o_var_m o) /\
    forall sample, draws (o_intercept o, o_slope o) (o_var_b o, vc, o_var_m o) =
                   map (fun p => (Fin (fst p), Fin (snd p))) sample ->
      sample <> [] -> (forall p, In p sample -> fst p <> 0) -> 0 <= cl -> cl <= qz 100 ->
      exists lo hi, o_ci o = (Fin (lo * qz 100), Fin (hi * qz 100)) /\
        is_percentile (qz 50 - cl / qz 2) (map (fun p => snd p / fst p) sample) lo /\
        is_percentile (qz 50 + cl / qz 2) (map (fun p => snd p / fst p) sample) hi.
Proof.
  intros draws cl t0 e0 s o d H HE. unfold d in H. cbn [degradation_ols] in H. fold d in H.
  apply regress_Ok in H. destruct H as (Hl & HR & F & _ & HD & HM & HC).
  split.
  - rewrite HM, sq_error_eq. unfold ols_mse. rewrite F.
    destruct HE as [(t1 & t2 & y1 & y2 & I1 & I2 & Hne) H3].
    pose proof (two_times_sxx t0 d t1 t2 y1 y2 I1 I2 Hne) as HS.
    assert (ols_rank (ols_points t0 d) = 2%nat) as ->
      by (unfold ols_rank; assert (qeq (sxx (ols_points t0 d)) 0 = false) as -> by (apply qeq_false; exact HS); reflexivity).
    rewrite ols_points_length. change (vals d) with (map snd d).
    apply Qc_div_mul. apply qz_neq0. lia.
  - exists (snd (fst (ols_cov (ols_points t0 d)))). split.
    + pose proof (cov_matrix t0 d HE) as K. cbv zeta in K. rewrite HC in K. cbn [fst snd] in K.
      rewrite HM. exact K.
    + intros sample HDr Hne HN H0 H1. unfold degradation_CI in HD. rewrite HC in HD at 1. rewrite HDr in HD.
      rewrite map_map in HD. cbn [fst snd] in HD.
      assert (map (fun x : Qc * Qc => fdiv (Fin (snd x)) (Fin (fst x))) sample =
              map Fin (map (fun p => snd p / fst p) sample)) as E.
      { rewrite map_map. apply map_ext_in. intros p Hp. cbn [fdiv].
        assert (qeq (fst p) 0 = false) as -> by (apply qeq_false, HN, Hp). reflexivity. }
      rewrite E in HD.
      destruct (ci_percentiles cl (map (fun p => snd p / fst p) sample)) as (lo & hi & EC & L1 & L2); auto.
      { destruct sample; [congruence | discriminate]. }
      rewrite EC in HD. cbn [bind fst snd fmul fz] in HD. injection HD as HD.
      exists lo, hi. split; [symmetry; exact HD | auto].
Qed.

(** ** Simple bootstrap *)

Lemma nth_fin : forall qs i, (i < length qs)%nat -> nth i (map Fin qs) NaN = Fin (nth i qs 0).
Proof.
  intros qs i H. rewrite (nth_indep _ NaN (Fin 0)) by (rewrite map_length; exact H).
  apply (map_nth Fin).
Qed.

Lemma simple_spec : forall infer sortv choice starts rc ep cl input o,
  degradation_year_on_year infer sortv choice starts rc ep cl Simple input = Ok o ->
  (exists o0, degradation_year_on_year infer sortv choice starts rc ep cl NoUncertainty input = Ok o0 /\
     yo_rate o0 = yo_rate o /\ yo_values o0 = yo_values o /\ yo_renorm o0 = yo_renorm o /\
     yo_usage o0 = yo_usage o /\ yo_ci o0 = None /\ yo_exceedance o0 = None) /\
  forall qs, vals (yo_values o) = map Fin qs ->
    choice (length qs) <> [] ->
    (forall d, In d (choice (length qs)) -> d <> [] /\ forall i, In i d -> (i < length qs)%nat) ->
    0 <= cl -> cl <= qz 100 -> 0 <= ep -> ep <= qz 100 ->
    exists ms lo hi ex,
      Forall2 (fun d m => is_median (map (fun i => nth i qs 0) d) m) (choice (length qs)) ms /\
      yo_ci o = Some (Fin lo, Fin hi) /\ yo_exceedance o = Some (Fin ex) /\
      is_percentile (qz 50 - cl / qz 2) ms lo /\ is_percentile (qz 50 + cl / qz 2) ms hi /\
      is_percentile (qz 100 - ep) ms ex.
Proof.
  intros infer sortv choice starts rc ep cl input o H. unfold degradation_year_on_year in *.
  assert (yoy_core infer sortv rc Simple input = yoy_core infer sortv rc NoUncertainty input) as EC
    by (rewrite !core_eq; reflexivity).
  rewrite EC in H. destruct (yoy_core infer sortv rc NoUncertainty input) as [[o' rows] |] eqn:HC; [| discriminate].
  cbn [bind fst snd] in H |- *.
  destruct (percentile_ci cl _) as [ci |] eqn:E1; [| discriminate]. cbn [bind] in H.
  destruct (exceedance ep _) as [ex |] eqn:E2; [| discriminate]. cbn [bind] in H.
  injection H as <-. cbn [yo_rate yo_values yo_renorm yo_usage yo_ci yo_exceedance]. split.
  - exists o'. split; [reflexivity |]. repeat (split; [reflexivity |]).
    rewrite core_eq in HC. destruct input; [discriminate |]. destruct (too_short _ _ _ _); [discriminate |].
    destruct (circular_guard _ _ _); [| discriminate]. cbn [bind] in HC.
    destruct (yoy_result _); [discriminate |]. injection HC as <- <-. auto.
  - intros qs Hq Hne Hd Hc0 Hc1 He0 He1. unfold resampled_medians in *. rewrite Hq, map_length in *.
    set (ms := map (fun d => qmedian (map (fun i => nth i qs 0) d)) (choice (length qs))).
    assert (map (fun d => fmedian (map (fun i => nth i (map Fin qs) NaN) d)) (choice (length qs)) = map Fin ms) as EM.
    { unfold ms. rewrite map_map. apply map_ext_in. intros d Hin. destruct (Hd d Hin) as [Dne Db].
      assert (map (fun i => nth i (map Fin qs) NaN) d = map Fin (map (fun i => nth i qs 0) d)) as ->.
      { rewrite map_map. apply map_ext_in. intros i Hi. apply nth_fin, Db, Hi. }
      rewrite fmedian_noinf; [| apply noinf_map_Fin | rewrite finvals_map_Fin; destruct d; [congruence | discriminate]].
      rewrite finvals_map_Fin. reflexivity. }
    rewrite EM in E1, E2.
    assert (ms <> []) as Hms by (unfold ms; destruct (choice (length qs)); [congruence | discriminate]).
    destruct (ci_percentiles cl ms Hms Hc0 Hc1) as (lo & hi & EL & L1 & L2). rewrite EL in E1. injection E1 as <-.
    destruct (exceedance_antitone ep ep ms Hms He0 (Qcle_refl _) He1) as (v & v' & EV & _ & _ & LV).
    rewrite EV in E2. injection E2 as <-.
    exists ms, lo, hi, v. split; [| auto].
    unfold ms. clear - Hd. induction (choice (length qs)) as [| d l IH]; cbn [map]; constructor.
    + apply qmedian_spec. destruct (Hd d (or_introl eq_refl)) as [K _]. destruct d; [congruence | discriminate].
    + apply IH. intros d' Hd'. apply Hd. right. exact Hd'.
Qed.

(** ** Renormalising factor *)

Lemma is_first_unique : forall s a b, is_first s a -> is_first s b -> a = b.
Proof. intros s a b [A1 A2] [B1 B2]. apply Z.le_antisymm; auto. Qed.

Lemma factor_spec : forall infer sortv choice starts rc ep cl m input o,
  degradation_year_on_year infer sortv choice starts rc ep cl m input = Ok o ->
  (rc = false -> yo_renorm o = Fin 1) /\
  (rc = true -> forall first part rest l, noinf (vals input) ->
     is_first input first -> Permutation input (part ++ rest) ->
     (forall t, In t (times part) -> (t <= first + days 364)%Z) ->
     (forall t, In t (times rest) -> (first + days 364 < t)%Z) ->
     robust_part (qf 99 100) (vals part) l ->
     (l = [] -> yo_renorm o = NaN) /\
     (l <> [] -> exists v, yo_renorm o = Fin v /\ is_median l v)).
Proof.
  intros infer sortv choice starts rc ep cl m input o H.
  destruct (full_core _ _ _ _ _ _ _ _ _ _ H) as (o' & rows & HC & _ & _ & E3 & _).
  destruct (core_Ok _ _ _ _ _ _ _ HC) as (Hne & _ & _ & _ & ER & _).
  rewrite E3, ER. unfold renorm_of, renorm_factor. split; intros ->; [reflexivity |].
  intros first part rest l HI HF HP H1 H2 HR.
  assert (earliest input = first) as -> by (apply (is_first_unique input); [apply earliest_first, Hne | exact HF]).
  set (f := fun r : Z * fl => ((first <=? fst r) && (fst r <=? first + 364 * ns_day))%Z).
  assert (Permutation (filter f (sort_index input)) part) as PF.
  { apply Permutation_trans with (filter f (part ++ rest)).
    - apply Permutation_filter'. apply Permutation_trans with input; [apply Permutation_sym, isort_perm | exact HP].
    - rewrite filter_app. assert (filter f rest = []) as ->.
      { apply filter_nil_all. intros r Hr. unfold f. apply andb_false_iff. right. apply Z.leb_gt.
        apply H2. unfold times. apply in_map, Hr. }
      rewrite app_nil_r. assert (filter f part = part) as ->; [| apply Permutation_refl].
      apply filter_all_true. intros r Hr. unfold f. apply andb_true_iff. split; apply Z.leb_le.
      + apply HF. unfold times. apply in_map. apply (Permutation_in _ (Permutation_sym HP)), in_or_app. auto.
      + apply H1. unfold times. apply in_map, Hr. }
  set (F := filter f (sort_index input)) in *.
  assert (Permutation (vals F) (vals part)) as PV by (unfold vals; apply Permutation_map, PF).
  assert (part <> []) as Hpart.
  { intros ->. destruct HF as [F1 F2]. unfold times in F1. apply in_map_iff in F1. destruct F1 as (r & E & Hr).
    apply (Permutation_in _ HP) in Hr. cbn in Hr. specialize (H2 (fst r)).
    assert (first + days 364 < fst r)%Z by (apply H2; unfold times; apply in_map, Hr).
    assert (0 <= days 364)%Z by (vm_compute; discriminate). lia. }
  assert (vals F <> []) as HvF.
  { intros E. rewrite E in PV. apply Permutation_nil in PV. destruct part; [congruence | discriminate]. }
  assert (noinf (vals F)) as HIF.
  { intros x Hx. apply HI. unfold vals in *. apply in_map_iff in Hx. destruct Hx as (r & E & Hr).
    apply filter_In in Hr. destruct Hr as [Hr _].
    apply in_map_iff. exists r. split; [exact E |]. apply sort_index_In, Hr. }
  assert (0 <= qf 99 100) as Q0 by (apply qle_spec; reflexivity).
  assert (qf 99 100 <= 1) as Q1 by (apply qle_spec; reflexivity).
  destruct HR as (z & Hz & ->).
  assert (robust_part (qf 99 100) (vals F) (filter (fun v => qlt (z / qz 1000) v) (finvals (vals F)))) as HR'.
  { exists z. split; [| reflexivity]. eapply is_percentile_perm; [| exact Hz].
    apply Permutation_map, Permutation_sym, PV. }
  destruct (robust_median_spec _ _ _ HIF HvF Q0 Q1 HR') as [R1 R2].
  assert (Permutation (filter (fun v => qlt (z / qz 1000) v) (finvals (vals F)))
                      (filter (fun v => qlt (z / qz 1000) v) (finvals (vals part)))) as PL
    by (apply Permutation_filter', finvals_perm, PV).
  split; intros E.
  - apply R1. rewrite E in PL. apply Permutation_sym, Permutation_nil in PL. exact PL.
  - destruct R2 as (v & Ev & Mv).
    + intros E'. apply E. rewrite E' in PL. apply Permutation_nil in PL. exact PL.
    + exists v. split; [exact Ev |]. eapply is_median_perm; eassumption.
Qed.
