(** Year-on-year: adding a linear trend. *)

From Coq Require Import QArith Qcanon List ZArith Bool Permutation Sorted Lia Arith.
From Verif.Base Require Import QcExtra ISort Quantile Fl Calendar.
From Verif.Spec Require Import Stats Time YoY Trend.
From Verif.Model Require Import Utilities Bootstrap YearOnYear.
From Verif.Proofs Require Import StatsP FlP YoYP YoYP2 ClipP4.
Import ListNotations.
Open Scope Qc_scope.

Opaque add_years.

Section Statistics.
  Variables a b : Qc.
  Hypothesis Ha : 0 < a.
  Let g := affine a b.

  Lemma dropna_affine : forall l, dropna (map g l) = map g (dropna l).
  Proof. intros l. unfold dropna. rewrite filter_map_comm. f_equal. apply filter_ext. intros x. unfold notnan. f_equal. apply (isnan_affine a b Ha). Qed.
  Lemma fsort_affine : forall l, fsort (map g l) = map g (fsort l).
  Proof. intros l. unfold fsort. apply isort_map. intros x y. apply (fle_affine a b Ha). Qed.
  Lemma nth_affine : forall i l, nth i (map g l) NaN = g (nth i l NaN).
  Proof. intros i l. change NaN with (g NaN) at 1. apply map_nth. Qed.
  Lemma mean_affine : forall x y, fdiv (fadd (g x) (g y)) (fz 2) = g (fdiv (fadd x y) (fz 2)).
  Proof.
    destruct (affine_cases a b Ha) as (E1 & E2 & E3 & E4).
    intros [| | p |] [| | q |]; unfold g; rewrite ?E1, ?E2, ?E3, ?E4; cbn [fadd];
      try (change (fdiv NaN (fz 2)) with NaN); try (change (fdiv PInf (fz 2)) with PInf); try (change (fdiv NInf (fz 2)) with NInf);
      rewrite ?E1, ?E2, ?E3; try reflexivity.
    change (fdiv (Fin ?x) (fz 2)) with (Fin (x / qz 2)). rewrite E4. f_equal. assert (qz 2 = 1 + 1) as -> by (apply Qc_is_canon; reflexivity). field. discriminate.
  Qed.
  Lemma fmedian_affine : forall l, fmedian (map g l) = g (fmedian l).
  Proof.
    intros l. unfold fmedian. rewrite dropna_affine, fsort_affine. destruct (fsort (dropna l)) as [| x s]; [reflexivity |].
    cbn [map]. change (g x :: map g s) with (map g (x :: s)). rewrite map_length, !nth_affine. destruct (Nat.even _); [apply mean_affine | reflexivity].
  Qed.
  Lemma lerp_affine : forall x y f, fadd (g x) (fmul (fsub (g y) (g x)) (Fin f)) = g (fadd x (fmul (fsub y x) (Fin f))).
  Proof.
    intros x y f. unfold g. rewrite (fsub_affine a b Ha), (fmul_fscale_l a Ha). set (d := fmul _ _).
    destruct (affine_cases a b Ha) as (E1 & E2 & E3 & E4).
    destruct x as [| | p |], d as [| | q |]; cbn [fadd]; rewrite ?(fscale_PInf a Ha), ?(fscale_NInf a Ha), ?fscale_Fin, ?fscale_NaN, ?E1, ?E2, ?E3, ?E4; try reflexivity.
    cbn [fadd]. f_equal. ring.
  Qed.
  Lemma fquantile_affine : forall q l, fquantile q (map g l) = g (fquantile q l).
  Proof.
    intros q l. unfold fquantile. rewrite dropna_affine, fsort_affine. destruct (fsort (dropna l)) as [| x s]; [reflexivity |].
    cbn [map]. change (g x :: map g s) with (map g (x :: s)). rewrite map_length, !nth_affine. apply lerp_affine.
  Qed.
  Lemma np_percentile_affine : forall p l, np_percentile p (map g l) = match np_percentile p l with Ok v => Ok (g v) | Raise e => Raise e end.
  Proof.
    intros p l. unfold np_percentile. destruct (_ && _); [| reflexivity]. f_equal.
    assert (existsb isnan (map g l) = existsb isnan l) as -> by (induction l as [| x l IH]; [reflexivity |]; cbn [map existsb]; rewrite IH; unfold g; rewrite (isnan_affine a b Ha); reflexivity).
    rewrite fquantile_affine. destruct (existsb isnan l); reflexivity.
  Qed.
  Lemma percentile_ci_affine : forall cl l, percentile_ci cl (map g l) = match percentile_ci cl l with Ok c => Ok (g (fst c), g (snd c)) | Raise e => Raise e end.
  Proof.
    intros cl l. unfold percentile_ci. rewrite !np_percentile_affine. destruct (np_percentile (qz 50 - _) l); [| reflexivity]. cbn [bind].
    destruct (np_percentile _ l); reflexivity.
  Qed.
End Statistics.

Lemma fdiv_pinf : forall d, 0 < d -> fdiv PInf (Fin d) = PInf.
Proof.
  intros d H. cbn [fdiv]. destruct (qeq d 0) eqn:E; [reflexivity |]. unfold inf_sgn. rewrite (proj2 (qlt_spec 0 d) H). reflexivity.
Qed.
Lemma fdiv_ninf : forall d, 0 < d -> fdiv NInf (Fin d) = NInf.
Proof.
  intros d H. cbn [fdiv]. destruct (qeq d 0) eqn:E; [reflexivity |]. unfold inf_sgn.
  destruct (qlt 0 (- d)) eqn:F; [apply qlt_spec in F; exfalso; qlra |]. assert (qlt (- d) 0 = true) as -> by (apply qlt_spec; qlra). reflexivity.
Qed.

Section Added.
  Variables k p s : Qc.
  Hypothesis Hk : 0 < k.
  Let hrow (r : Z * fl) : Z * fl := (fst r, affine k (p + s * qz (fst r)) (snd r)).
  Let c := qz 100 * (s * qz (days 365)).
  Let g := affine k c.

  Lemma pair_affine : forall dt e t er, (days 365 <= dt - t)%Z ->
    yoy_value dt (snd (hrow (dt, e))) (Some (hrow (t, er))) = g (yoy_value dt e (Some (t, er))).
  Proof.
    intros dt e t er HD. unfold yoy_value, hrow. cbn [fst snd].
    assert (qz (dt - t) <> 0) as N by (apply qz_neq0; unfold days in HD; lia). pose proof days365_nonzero as N5.
    assert (qz (dt - t) = qz dt - qz t) as ED by apply qz_sub.
    assert (0 < time_diff_years dt t) as T.
    { unfold time_diff_years. apply Qc_lt_div; [reflexivity |]. rewrite Qcmult_0_l. apply qz_pos. unfold days in HD. lia. }
    assert (s * (qz dt - qz t) = s * qz (days 365) * time_diff_years dt t) as EC.
    { rewrite <- ED. unfold time_diff_years. change (365 * ns_day)%Z with (days 365). field. exact N5. }
    set (D := time_diff_years dt t) in *.
    assert (qeq D 0 = false) as ND by (destruct (qeq D 0) eqn:E; [apply qeq_spec in E; rewrite E in T; discriminate T | reflexivity]).
    destruct (affine_cases k (p + s * qz dt) Hk) as (A1 & A2 & A3 & A4). destruct (affine_cases k (p + s * qz t) Hk) as (B1 & B2 & B3 & B4).
    destruct (affine_cases k c Hk) as (C1 & C2 & C3 & C4). unfold g.
    destruct e as [| | x |], er as [| | y |]; rewrite ?A1, ?A2, ?A3, ?A4, ?B1, ?B2, ?B3, ?B4; cbn [fsub fneg fadd];
      try (cbn [fmul fz fdiv]; rewrite C1; reflexivity);
      try (change (fmul (fz 100) PInf) with PInf; rewrite (fdiv_pinf D T), C2; reflexivity);
      try (change (fmul (fz 100) NInf) with NInf; rewrite (fdiv_ninf D T), C3; reflexivity).
    cbn [fmul fz fdiv]. rewrite ND. rewrite C4. f_equal.
    assert (D <> 0) as D0 by (intros E; rewrite E in T; discriminate T).
    transitivity (k * (qz 100 * (x + - y) / D) + qz 100 * (s * (qz dt - qz t)) / D); [field; exact D0 |].
    rewrite EC. unfold c. field. exact D0.
  Qed.

  Lemma last_such_map : forall A B (f : A -> B) (q : B -> bool) l, last_such q (map f l) = option_map f (last_such (fun x => q (f x)) l).
  Proof.
    intros A B f q l. unfold last_such. rewrite filter_map_comm, <- map_rev. destruct (rev _); reflexivity.
  Qed.
  Lemma asof_affine : forall l dt, asof_match (map hrow l) dt = option_map hrow (asof_match l dt).
  Proof.
    intros l dt. unfold asof_match. rewrite last_such_map. cbn [hrow fst].
    destruct (last_such _ l) as [r |]; [| reflexivity]. cbn [option_map hrow fst]. destruct (_ <=? tolerance)%Z; reflexivity.
  Qed.
  Lemma asof_elapsed : forall l dt r, asof_match l dt = Some r -> (days 365 <= dt - fst r)%Z.
  Proof.
    intros l dt r H. unfold asof_match in H. destruct (last_such _ l) as [x |] eqn:E; [| discriminate].
    apply last_such_Some in E. destruct (_ <=? tolerance)%Z; [| discriminate]. injection H as ->.
    assert ((add_years 1 (fst r) <=? dt)%Z = true) as L.
    { destruct E as (l1 & l2 & _ & H & _). exact H. }
    apply Z.leb_le in L. pose proof (add_one_year_bounds (fst r)). unfold days, ns_day in *. lia.
  Qed.

  Variable sortv : series -> series.
  Hypothesis HV : moves_rows sortv.
  Let hy (r : yoy_row) : yoy_row := mk_yoy_row (yr_dt r) (affine k (p + s * qz (yr_dt r)) (yr_energy r)) (option_map hrow (yr_right r)) (g (yr_yoy r)).

  Lemma merged_affine : forall rows, merged sortv (map hrow rows) = map hy (merged sortv rows).
  Proof.
    intros rows. unfold merged. rewrite (HV hrow) by reflexivity. rewrite !map_map. apply map_ext. intros [dt e]. unfold hy. cbn [fst snd yr_dt yr_energy yr_right yr_yoy].
    change (fst (hrow (dt, e))) with dt. rewrite asof_affine. destruct (asof_match (sortv rows) dt) as [[t er] |] eqn:E; cbn [option_map].
    - f_equal. apply pair_affine. exact (asof_elapsed _ _ _ E).
    - f_equal.
  Qed.
  Lemma result_affine : forall df, yoy_result (map hy df) = map (fun r => (fst r, g (snd r))) (yoy_result df).
  Proof.
    intros df. unfold yoy_result. rewrite !map_map, filter_map_comm. rewrite filter_map_comm, !map_map. cbn [hy yr_dt yr_yoy fst snd]. f_equal. apply filter_ext.
    intros r. unfold notnan. f_equal. apply (isnan_affine k c Hk).
  Qed.
  Lemma notnan_affine : forall x, notnan (g x) = notnan x.
  Proof. intros x. unfold notnan, g. rewrite (isnan_affine k c Hk). reflexivity. Qed.
  Lemma used_affine : forall df t, right_used (map hy df) t = right_used df t.
  Proof.
    intros df t. unfold right_used. induction df as [| r df IH]; [reflexivity |]. cbn [map find].
    destruct r as [dt e [[u w] |] y]; cbn [hy yr_right option_map hrow fst yr_yoy yr_dt yr_energy] in *.
    - destruct (u =? t)%Z; [f_equal; apply notnan_affine | exact IH].
    - exact IH.
  Qed.
  Lemma usage_affine : forall df, usage_of_points (map hy df) = usage_of_points df.
  Proof.
    intros df. unfold usage_of_points. rewrite map_map. apply map_ext. intros r. rewrite used_affine. cbn [hy yr_dt yr_yoy]. rewrite notnan_affine. reflexivity.
  Qed.
End Added.

(** ** The whole function *)

Lemma added_sort : forall a b s, sort_index (plus_line a b s) = plus_line a b (sort_index s).
Proof. intros a b s. apply isort_map. reflexivity. Qed.
Lemma added_times : forall a b s, times (plus_line a b s) = times s.
Proof. intros a b s. unfold times, plus_line. rewrite map_map. reflexivity. Qed.
Lemma added_length : forall a b s, length (plus_line a b s) = length s.
Proof. intros a b s. apply map_length. Qed.
Lemma added_earliest : forall a b s, earliest (plus_line a b s) = earliest s.
Proof. intros a b s. unfold earliest. rewrite added_sort. destruct (sort_index s); reflexivity. Qed.
Lemma added_latest : forall a b s, latest (plus_line a b s) = latest s.
Proof.
  intros a b s. unfold latest. rewrite added_sort. destruct (sort_index s) as [| r l] eqn:E; [reflexivity |].
  cbn [plus_line map]. rewrite !last_fst_times.
  change (?x :: map ?f l) with (plus_line a b (r :: l)). rewrite added_times. reflexivity.
Qed.
Lemma added_guard : forall infer m a b s, circular_guard infer m (plus_line a b s) = circular_guard infer m s.
Proof. intros infer m a b s. unfold circular_guard. destruct m; try reflexivity. rewrite added_times, added_length. reflexivity. Qed.

Lemma div_affine : forall e x rho rho', 0 < rho -> 0 < rho' -> fdiv (fadd e (Fin x)) (Fin rho') = affine (rho / rho') (x / rho') (fdiv e (Fin rho)).
Proof.
  intros e x rho rho' H H'. assert (0 < rho / rho') as K by (apply Qc_lt_div; [exact H' | rewrite Qcmult_0_l; exact H]).
  destruct (affine_cases (rho / rho') (x / rho') K) as (C1 & C2 & C3 & C4).
  assert (qeq rho 0 = false) as N by (destruct (qeq rho 0) eqn:E; [apply qeq_spec in E; rewrite E in H; discriminate H | reflexivity]).
  assert (qeq rho' 0 = false) as N' by (destruct (qeq rho' 0) eqn:E; [apply qeq_spec in E; rewrite E in H'; discriminate H' | reflexivity]).
  destruct e as [| | q |]; cbn [fadd].
  - symmetry. exact C1.
  - rewrite (fdiv_ninf rho H), (fdiv_ninf rho' H'). symmetry. exact C3.
  - cbn [fdiv]. rewrite N, N', C4. f_equal. field. split; intros E; [rewrite E in H'; discriminate H' | rewrite E in H; discriminate H].
  - rewrite (fdiv_pinf rho H), (fdiv_pinf rho' H'). symmetry. exact C2.
Qed.

Lemma added_rows : forall rc a b s rho rho', renorm_of rc s = Fin rho -> renorm_of rc (plus_line a b s) = Fin rho' -> 0 < rho -> 0 < rho' ->
  rows_of rc (plus_line a b s) = map (fun r => (fst r, affine (rho / rho') (a / rho' + b / rho' * qz (fst r)) (snd r))) (rows_of rc s).
Proof.
  intros rc a b s rho rho' E E' H H'. unfold rows_of. rewrite E, E', added_sort. unfold plus_line. rewrite !map_map. apply map_ext. intros [t e]. cbn [fst snd].
  f_equal. rewrite (div_affine _ _ rho rho' H H'). f_equal. field. intros F. rewrite F in H'. discriminate H'.
Qed.

(** What the run gives with the trend added, given the run without. *)
Definition shifted (k c : Qc) (o : yoy_out) (rho' : fl) : yoy_out :=
  mk_yoy_out (affine k c (yo_rate o)) (map (fun r => (fst r, affine k c (snd r))) (yo_values o)) rho' (yo_usage o)
    (match yo_ci o with Some x => Some (affine k c (fst x), affine k c (snd x)) | None => None end)
    (match yo_exceedance o with Some x => Some (affine k c x) | None => None end).

Lemma vals_on : forall (f : fl -> fl) (s : series), vals (map (fun r => (fst r, f (snd r))) s) = map f (vals s).
Proof. intros f s. unfold vals. rewrite !map_map. reflexivity. Qed.

Lemma added_core : forall infer sortv rc m a b s rho rho', moves_rows sortv -> renorm_of rc s = Fin rho -> renorm_of rc (plus_line a b s) = Fin rho' -> 0 < rho -> 0 < rho' ->
  yoy_core infer sortv rc m (plus_line a b s) =
  match yoy_core infer sortv rc m s with
  | Ok (o, _) => Ok (shifted (rho / rho') (qz 100 * (b / rho' * qz (days 365))) o (Fin rho'), rows_of rc (plus_line a b s))
  | Raise e => Raise e
  end.
Proof.
  intros infer sortv rc m a b s rho rho' HV E E' H H'. assert (0 < rho / rho') as K by (apply Qc_lt_div; [exact H' | rewrite Qcmult_0_l; exact H]).
  rewrite !core_eq. destruct s as [| r0 s]; [reflexivity |]. set (S := r0 :: s) in *.
  change (match plus_line a b S with [] => ?x | _ :: _ => ?y end) with y.
  change (match S with [] => ?x | _ :: _ => ?y end) with y.
  rewrite added_earliest, added_latest, added_sort, added_times, added_guard. destruct (too_short _ _ _ _); [reflexivity |].
  destruct (circular_guard _ _ _); [| reflexivity]. cbn [bind].
  pose proof (added_rows rc a b S rho rho' E E' H H') as ER.
  pose proof (merged_affine (rho / rho') (a / rho') (b / rho') K sortv HV (rows_of rc S)) as EM. cbv beta zeta in EM.
  rewrite ER, EM. rewrite (result_affine _ _ _ K), (usage_affine _ _ _ K). rewrite E, E'.
  destruct (yoy_result (merged sortv (rows_of rc S))) as [| x l] eqn:EY; [reflexivity |]. rewrite <- EY. 
  destruct (map _ (yoy_result _)) as [| y l'] eqn:EZ; [rewrite EY in EZ; discriminate EZ |]. rewrite <- EZ.
  unfold shifted. cbn [yo_rate yo_values yo_usage yo_ci yo_exceedance]. rewrite vals_on, (fmedian_affine _ _ K). reflexivity.
Qed.

Lemma medians_affine : forall k c choice l, 0 < k -> resampled_medians choice (map (affine k c) l) = map (affine k c) (resampled_medians choice l).
Proof.
  intros k c choice l K. unfold resampled_medians. rewrite map_length, map_map. apply map_ext. intros d.
  rewrite <- (fmedian_affine k c K), map_map. f_equal. apply map_ext. intros i. apply nth_affine.
Qed.

Lemma core_bare : forall infer sortv rc m s o rows, yoy_core infer sortv rc m s = Ok (o, rows) -> yo_ci o = None /\ yo_exceedance o = None.
Proof.
  intros infer sortv rc m s o rows EC. rewrite core_eq in EC. destruct s; [discriminate |]. destruct (too_short _ _ _ _); [discriminate |].
  destruct (circular_guard _ _ _); [| discriminate]. cbn [bind] in EC. destruct (yoy_result _) in EC; [discriminate |]. injection EC as <- <-. split; reflexivity.
Qed.

Lemma added_run : forall infer sortv choice starts rc ep cl m a b s rho rho', moves_rows sortv -> (forall L, m <> CircularBlock L) ->
  renorm_of rc s = Fin rho -> renorm_of rc (plus_line a b s) = Fin rho' -> 0 < rho -> 0 < rho' ->
  degradation_year_on_year infer sortv choice starts rc ep cl m (plus_line a b s) =
  match degradation_year_on_year infer sortv choice starts rc ep cl m s with
  | Ok o => Ok (shifted (rho / rho') (qz 100 * (b / rho' * qz (days 365))) o (Fin rho'))
  | Raise e => Raise e
  end.
Proof.
  intros infer sortv choice starts rc ep cl m a b s rho rho' HV HM E E' H H'. assert (0 < rho / rho') as K by (apply Qc_lt_div; [exact H' | rewrite Qcmult_0_l; exact H]).
  unfold degradation_year_on_year. rewrite (added_core infer sortv rc m a b s rho rho' HV E E' H H').
  destruct (yoy_core infer sortv rc m s) as [[o rows] | e] eqn:EC; [| reflexivity]. destruct (core_bare _ _ _ _ _ _ _ EC) as [N1 N2].
  cbn [bind fst snd]. destruct m as [| L |]; [| destruct (HM L eq_refl) | reflexivity].
  unfold shifted. cbn [yo_rate yo_values yo_renorm yo_usage yo_ci yo_exceedance].
  rewrite vals_on, (medians_affine _ _ _ _ K), (percentile_ci_affine _ _ K). destruct (percentile_ci cl _) as [ci |]; [| reflexivity]. cbn [bind].
  unfold exceedance. rewrite (np_percentile_affine _ _ K). destruct (np_percentile _ _) as [ex |]; reflexivity.
Qed.

Lemma affine_one : forall c v, affine 1 c v = fadd v (Fin c).
Proof.
  intros c v. destruct (affine_cases 1 c ltac:(reflexivity)) as (C1 & C2 & C3 & C4). destruct v; rewrite ?C1, ?C2, ?C3, ?C4; try reflexivity. cbn [fadd]. f_equal. ring.
Qed.

Lemma added_plain : forall infer sortv choice starts ep cl m a b s, moves_rows sortv -> (forall L, m <> CircularBlock L) ->
  degradation_year_on_year infer sortv choice starts false ep cl m (plus_line a b s) =
  match degradation_year_on_year infer sortv choice starts false ep cl m s with
  | Ok o =>
      let up v := fadd v (Fin (qz 100 * (b * qz (days 365)))) in
      Ok (mk_yoy_out (up (yo_rate o)) (map (fun r => (fst r, up (snd r))) (yo_values o)) (yo_renorm o) (yo_usage o)
            (option_map (fun c => (up (fst c), up (snd c))) (yo_ci o)) (option_map up (yo_exceedance o)))
  | Raise e => Raise e
  end.
Proof.
  intros infer sortv choice starts ep cl m a b s HV HM.
  rewrite (added_run infer sortv choice starts false ep cl m a b s 1 1 HV HM eq_refl eq_refl) by reflexivity.
  destruct (degradation_year_on_year infer sortv choice starts false ep cl m s) as [o |] eqn:E; [| reflexivity].
  assert (yo_renorm o = Fin 1) as ER.
  { destruct (full_core _ _ _ _ _ _ _ _ _ _ E) as (o' & rows & HC & _ & _ & E3 & _). destruct (core_Ok _ _ _ _ _ _ _ HC) as (_ & _ & _ & _ & EN & _). rewrite E3, EN. reflexivity. }
  cbv zeta. unfold shifted. rewrite ER.
  assert (1 / 1 = 1) as -> by (apply Qc_is_canon; reflexivity).
  assert (b / 1 = b) as -> by (field; discriminate). f_equal.
  assert (forall (x : Z * fl), (fst x, affine 1 (qz 100 * (b * qz (days 365))) (snd x)) = (fst x, fadd (snd x) (Fin (qz 100 * (b * qz (days 365)))))) as EX by (intros x; rewrite affine_one; reflexivity).
  rewrite (map_ext _ _ EX), affine_one. destruct (yo_ci o) as [[x y] |], (yo_exceedance o); cbn [option_map fst snd]; rewrite ?affine_one; reflexivity.
Qed.

Lemma fadd_zero_r : forall v, fadd v (Fin 0) = v.
Proof. intros [| | q |]; try reflexivity. cbn [fadd]. f_equal. ring. Qed.

Lemma added_constant : forall infer sortv choice starts ep cl m a s, moves_rows sortv -> (forall L, m <> CircularBlock L) ->
  degradation_year_on_year infer sortv choice starts false ep cl m (map (fun r => (fst r, fadd (snd r) (Fin a))) s) =
  degradation_year_on_year infer sortv choice starts false ep cl m s.
Proof.
  intros infer sortv choice starts ep cl m a s HV HM.
  assert (map (fun r => (fst r, fadd (snd r) (Fin a))) s = plus_line a 0 s) as ->.
  { unfold plus_line. apply map_ext. intros r. f_equal. f_equal. f_equal. ring. }
  rewrite (added_plain infer sortv choice starts ep cl m a 0 s HV HM).
  destruct (degradation_year_on_year _ _ _ _ _ _ _ _ _) as [o |]; [| reflexivity]. cbv zeta.
  assert (qz 100 * (0 * qz (days 365)) = 0) as -> by ring. f_equal.
  rewrite (map_ext _ (fun r => r)) by (intros [t v]; cbn [fst snd]; rewrite fadd_zero_r; reflexivity). rewrite map_id, fadd_zero_r.
  destruct o as [rate values renorm usage ci ex]. cbn [yo_rate yo_values yo_renorm yo_usage yo_ci yo_exceedance].
  destruct ci as [[x y] |], ex; cbn [option_map fst snd]; rewrite ?fadd_zero_r; reflexivity.
Qed.

Lemma added_recentered : forall infer sortv choice starts rc ep cl m a b s o o' rho rho', moves_rows sortv ->
  degradation_year_on_year infer sortv choice starts rc ep cl m s = Ok o ->
  degradation_year_on_year infer sortv choice starts rc ep cl m (plus_line a b s) = Ok o' ->
  yo_renorm o = Fin rho -> yo_renorm o' = Fin rho' -> 0 < rho -> 0 < rho' ->
  let up v := fadd (fmul (Fin (rho / rho')) v) (Fin (qz 100 * (b / rho' * qz (days 365)))) in
  yo_rate o' = up (yo_rate o) /\ yo_values o' = map (fun r => (fst r, up (snd r))) (yo_values o) /\ yo_usage o' = yo_usage o /\
  ((forall L, m <> CircularBlock L) -> yo_ci o' = option_map (fun c => (up (fst c), up (snd c))) (yo_ci o) /\ yo_exceedance o' = option_map up (yo_exceedance o)).
Proof.
  intros infer sortv choice starts rc ep cl m a b s o o' rho rho' HV E E' R R' H H'.
  destruct (full_core _ _ _ _ _ _ _ _ _ _ E) as (c & rows & HC & E1 & E2 & E3 & E4).
  destruct (full_core _ _ _ _ _ _ _ _ _ _ E') as (c' & rows' & HC' & E1' & E2' & E3' & E4').
  destruct (core_Ok _ _ _ _ _ _ _ HC) as (_ & _ & _ & _ & EN & _). destruct (core_Ok _ _ _ _ _ _ _ HC') as (_ & _ & _ & _ & EN' & _).
  rewrite E3 in R. rewrite E3' in R'. rewrite R in EN. rewrite R' in EN'. symmetry in EN, EN'.
  pose proof (added_core infer sortv rc m a b s rho rho' HV EN EN' H H') as X. rewrite HC, HC' in X. injection X as X _.
  cbv zeta. rewrite E1', E2', E4', E1, E2, E4, X. split; [reflexivity |]. split; [reflexivity |]. split; [reflexivity |]. intros HM.
  pose proof (added_run infer sortv choice starts rc ep cl m a b s rho rho' HV HM EN EN' H H') as Y. rewrite E, E' in Y. injection Y as ->.
  unfold shifted. cbn [yo_ci yo_exceedance]. destruct (yo_ci o) as [[x y] |], (yo_exceedance o); split; reflexivity.
Qed.
