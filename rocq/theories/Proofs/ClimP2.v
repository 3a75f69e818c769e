(** Clear-sky temperature: columns of smoothed values and the whole estimate. *)

From Coq Require Import QArith Qcanon List ZArith Bool Arith Lia Sorted.
From Verif.Base Require Import QcExtra ISort Quantile Fl TimeSeries Calendar.
From Verif.Spec Require Import Stats Theil Interp Seasonal Climate.
From Verif.Model Require Import Soiling ClearskyTemp.
From Verif.Proofs Require Import FlP YoYP InterpP SoilP13 CodsP4 ClimP.
Import ListNotations.
Open Scope list_scope.
Open Scope Qc_scope.

(** ** Weighted means *)
Definition wterms (weights : list Qc) (l : list fl) (p : nat) : list (Qc * Qc) :=
  flat_map (fun i => match row_at l (Z.of_nat p + Z.of_nat ((length weights - 1) / 2) - Z.of_nat (length weights - 1) + Z.of_nat i) with
      | Fin v => [(nth i weights 0, v)] | _ => [] end) (seq 0 (length weights)).
Definition wmean (weights : list Qc) (l : list fl) (p : nat) : fl :=
  match wterms weights l p with
  | [] => NaN
  | _ => if qeq (qsum (map fst (wterms weights l p))) 0 then NaN else Fin (qsum (map (fun t => fst t * snd t) (wterms weights l p)) / qsum (map fst (wterms weights l p)))
  end.
Lemma rolling_wmean : forall weights l, rolling_weighted weights l = map (wmean weights l) (seq 0 (length l)).
Proof. reflexivity. Qed.
Lemma half_window : forall n p i : nat, (0 < n)%nat -> (Z.of_nat p + Z.of_nat ((n - 1) / 2) - Z.of_nat (n - 1) + Z.of_nat i = Z.of_nat p - Z.of_nat n / 2 + Z.of_nat i)%Z.
Proof.
  intros n p i N. change 2%Z with (Z.of_nat 2). rewrite <- Nat2Z.inj_div. pose proof (Nat.div_mod_eq n 2). pose proof (Nat.div_mod_eq (n - 1) 2). pose proof (Nat.mod_upper_bound n 2 ltac:(lia)). pose proof (Nat.mod_upper_bound (n - 1) 2 ltac:(lia)). lia.
Qed.
Lemma map_nth_seq : forall (l : list Qc), map (fun i => nth i l 0) (seq 0 (length l)) = l.
Proof.
  intros l. apply nth_ext with (d := 0) (d' := 0); rewrite map_length, seq_length; [reflexivity|]. intros n L. rewrite (nth_indep _ 0 (nth 0 l 0)) by (rewrite map_length, seq_length; exact L).
  rewrite (map_nth (fun i => nth i l 0) (seq 0 (length l)) 0%nat n). rewrite seq_nth by exact L. reflexivity.
Qed.
Lemma qsum_pos : forall l, l <> [] -> (forall x, In x l -> 0 < x) -> 0 < qsum l.
Proof.
  induction l as [|x l IH]; intros N H; [contradiction|]. cbn [qsum fold_right]. fold (qsum l). pose proof (H x (or_introl eq_refl)). destruct l as [|y l]; [cbn; qlra|]. assert (0 < qsum (y :: l)) by (apply IH; [discriminate|intros z I; apply H; right; exact I]). qlra.
Qed.
Lemma fm_single : forall (A B : Type) (f : A -> B) (g : A -> list B) l, (forall x, In x l -> g x = [f x]) -> flat_map g l = map f l.
Proof. intros A B f g. induction l as [|x l IH]; intros H; [reflexivity|]. cbn. rewrite (H x (or_introl eq_refl)), IH by (intros y I; apply H; right; exact I). reflexivity. Qed.
Lemma wmean_full : forall weights l p (c : Z -> Qc), weights <> [] -> 0 < qsum weights ->
  (forall i, (i < length weights)%nat -> row_at l (Z.of_nat p - Z.of_nat (length weights) / 2 + Z.of_nat i) = Fin (c (Z.of_nat p - Z.of_nat (length weights) / 2 + Z.of_nat i)%Z)) ->
  wmean weights l p = Fin (smooth weights c (Z.of_nat p)).
Proof.
  intros weights l p c NE PS H. set (n := length weights) in *. assert (N : (0 < n)%nat) by (unfold n; destruct weights; [contradiction|cbn; lia]).
  assert (E : wterms weights l p = map (fun i => (nth i weights 0, c (Z.of_nat p - Z.of_nat n / 2 + Z.of_nat i)%Z)) (seq 0 n)).
  { unfold wterms. fold n. apply fm_single. intros i I. apply in_seq in I. rewrite half_window by exact N. rewrite H by lia. reflexivity. }
  assert (E1 : qsum (map fst (wterms weights l p)) = qsum weights) by (rewrite E, map_map; cbn [fst]; unfold n; rewrite map_nth_seq; reflexivity).
  unfold wmean. rewrite E1. assert (E2 : qsum (map (fun t => fst t * snd t) (wterms weights l p)) = qsum (map (fun i => nth i weights 0 * c (Z.of_nat p - Z.of_nat n / 2 + Z.of_nat i)%Z) (seq 0 n))) by (rewrite E, map_map; reflexivity). rewrite E2.
  destruct (wterms weights l p) as [|x r] eqn:EW; [exfalso; rewrite <- E1 in PS; cbn in PS; qlra|]. destruct (qeq (qsum weights) 0) eqn:Q; [qb; rewrite Q in PS; exfalso; qlra|]. reflexivity.
Qed.
Lemma wterms_In : forall weights l p w v, In (w, v) (wterms weights l p) -> In w weights /\ In (Fin v) l.
Proof.
  intros weights l p w v I. unfold wterms in I. apply in_flat_map in I. destruct I as (i & Hi & I). apply in_seq in Hi. unfold row_at in I. destruct (0 <=? _)%Z; [|destruct I]. destruct (nth _ l NaN) as [| |q|] eqn:EN; try (destruct I; fail). destruct I as [E|[]]. injection E as <- <-. split; [apply nth_In; lia|].
  destruct (Nat.lt_ge_cases (Z.to_nat (Z.of_nat p + Z.of_nat ((length weights - 1) / 2) - Z.of_nat (length weights - 1) + Z.of_nat i)) (length l)) as [L|L]; [rewrite <- EN; apply nth_In; exact L|rewrite nth_overflow in EN by exact L; discriminate EN].
Qed.
Lemma weighted_bound : forall (ts : list (Qc * Qc)) lo hi, (forall t, In t ts -> 0 < fst t /\ lo <= snd t /\ snd t <= hi) ->
  lo * qsum (map fst ts) <= qsum (map (fun t => fst t * snd t) ts) /\ qsum (map (fun t => fst t * snd t) ts) <= hi * qsum (map fst ts).
Proof.
  induction ts as [|[w v] ts IH]; intros lo hi H; cbn [map qsum fold_right fst snd].
  - rewrite !Qcmult_0_r. split; apply Qcle_refl.
  - fold (qsum (map fst ts)). fold (qsum (map (fun t => fst t * snd t) ts)). destruct (IH lo hi (fun t I => H t (or_intror I))) as [I1 I2]. destruct (H (w, v) (or_introl eq_refl)) as (P & A & B). cbn [fst snd] in *.
    assert (0 <= w * (v - lo)) by (apply Qc_mul_nonneg; qlra). assert (0 <= w * (hi - v)) by (apply Qc_mul_nonneg; qlra).
    replace (w * (v - lo)) with (w * v - lo * w) in * by ring. replace (w * (hi - v)) with (hi * w - w * v) in * by ring. rewrite !Qcmult_plus_distr_r. split; qlra.
Qed.
Lemma wmean_bound : forall weights l p lo hi, (forall w, In w weights -> 0 < w) -> (forall v, In (Fin v) l -> lo <= v /\ v <= hi) ->
  wmean weights l p = NaN \/ exists q, wmean weights l p = Fin q /\ lo <= q /\ q <= hi.
Proof.
  intros weights l p lo hi HW HL. unfold wmean. destruct (wterms weights l p) as [|x r] eqn:E; [left; reflexivity|]. rewrite <- E. right.
  assert (HT : forall t, In t (wterms weights l p) -> 0 < fst t /\ lo <= snd t /\ snd t <= hi) by (intros [w v] I; apply wterms_In in I; destruct I as [I1 I2]; split; [apply HW; exact I1|apply HL; exact I2]).
  assert (P : 0 < qsum (map fst (wterms weights l p))) by (apply qsum_pos; [rewrite E; discriminate|intros w I; apply in_map_iff in I; destruct I as (t & <- & I); apply HT; exact I]).
  destruct (weighted_bound _ lo hi HT) as [B1 B2]. destruct (qeq _ 0) eqn:Q; [qb; rewrite Q in P; exfalso; qlra|]. eexists. split; [reflexivity|]. split; [apply Qc_le_div|apply Qc_div_le]; assumption.
Qed.
Lemma wmean_fin : forall weights l p, (forall w, In w weights -> 0 < w) -> weights <> [] -> (exists v, nth p l NaN = Fin v) -> exists q, wmean weights l p = Fin q.
Proof.
  intros weights l p HW NE (v & EV). assert (N : (0 < length weights)%nat) by (destruct weights; [contradiction|cbn; lia]). unfold wmean.
  assert (IN : In (nth (length weights / 2) weights 0, v) (wterms weights l p)).
  { unfold wterms. apply in_flat_map. exists (length weights / 2)%nat. split; [apply in_seq; pose proof (Nat.div_lt (length weights) 2 ltac:(lia) ltac:(lia)); lia|]. rewrite half_window by exact N. rewrite Nat2Z.inj_div. change (Z.of_nat 2) with 2%Z. replace (Z.of_nat p - Z.of_nat (length weights) / 2 + Z.of_nat (length weights) / 2)%Z with (Z.of_nat p) by lia.
    unfold row_at. replace (0 <=? Z.of_nat p)%Z with true by (symmetry; apply Z.leb_le; lia). rewrite Nat2Z.id, EV. left. reflexivity. }
  destruct (wterms weights l p) as [|x r] eqn:E; [destruct IN|]. rewrite <- E in *.
  assert (P : 0 < qsum (map fst (wterms weights l p))) by (apply qsum_pos; [rewrite E; discriminate|intros w I; apply in_map_iff in I; destruct I as ([a b] & <- & I); apply wterms_In in I; apply HW, I]).
  destruct (qeq _ 0) eqn:Q; [qb; rewrite Q in P; exfalso; qlra|]. eexists. reflexivity.
Qed.

(** ** One column *)
Section Column.
  Variables (weights : list Qc) (f first last : Z) (table : list fl).
  Hypotheses (F : (0 < f)%Z) (FL : (first <= last)%Z).
  Let N := Z.to_nat (last + 1 - first).
  Let V (d : Z) : fl := nth (Z.to_nat (d_month (civil_of_day d) - 1)) table NaN.
  Let daily : list fl := map V (arange first (last + 1)).
  Let s : series := combine (map (fun d => (d * ns_day)%Z) (arange first (last + 1))) (rolling_weighted weights daily).
  Let points : list Z := map (fun k => (first * ns_day + f * Z.of_nat k)%Z) (seq 0 (S (Z.to_nat ((last - first) * ns_day / f)))).
  Let u : series := column weights f first last table.

  Lemma column_unfold : u = interp_index (reindex s points).
  Proof. reflexivity. Qed.
  Lemma daily_length : length daily = N.
  Proof. unfold daily, arange. rewrite !map_length, seq_length. reflexivity. Qed.
  Lemma s_rows : s = map (fun i => ((first + Z.of_nat i) * ns_day, wmean weights daily i)%Z) (seq 0 N).
  Proof.
    unfold s. rewrite rolling_wmean, daily_length. unfold arange. rewrite map_map. fold N. generalize (seq 0 N). induction l as [|a l IH]; [reflexivity|]. cbn [map combine]. f_equal. exact IH.
  Qed.
  Lemma s_times : times s = map (fun i => (first + Z.of_nat i) * ns_day)%Z (seq 0 N).
  Proof. rewrite s_rows. unfold times. rewrite map_map. reflexivity. Qed.
  Lemma s_sorted : sorted_index s.
  Proof. unfold sorted_index. rewrite s_times. apply map_sorted. intros i j L. unfold ns_day. lia. Qed.
  Lemma points_In : forall g, In g points <-> (exists k, (0 <= k)%Z /\ g = (first * ns_day + f * k)%Z) /\ (g <= last * ns_day)%Z.
  Proof.
    intros g. unfold points. rewrite in_map_iff. assert (NN : (0 <= (last - first) * ns_day)%Z) by (unfold ns_day; lia). pose proof (Z.div_pos _ f NN F). pose proof (Z.mul_div_le ((last - first) * ns_day) f F). pose proof (Z.mul_succ_div_gt ((last - first) * ns_day) f F). split.
    - intros (k & <- & I). apply in_seq in I. split; [exists (Z.of_nat k); split; [lia|reflexivity]|]. nia.
    - intros [(k & K & ->) L]. exists (Z.to_nat k). split; [rewrite Z2Nat.id by exact K; reflexivity|]. apply in_seq. split; [lia|]. cbn [Nat.add]. assert (k < Z.succ ((last - first) * ns_day / f))%Z; [|lia]. nia.
  Qed.
  Lemma points_sorted : StronglySorted Z.lt points.
  Proof. apply map_sorted. intros i j L. nia. Qed.
  Lemma u_times : times u = points.
  Proof. rewrite column_unfold. unfold interp_index, times, reindex. rewrite !map_map. cbn [fst]. apply map_id. Qed.
  Lemma u_sorted : sorted_index u.
  Proof. unfold sorted_index. rewrite u_times. exact points_sorted. Qed.
  Lemma u_In : forall g v, In (g, v) u <-> In g points /\ v = if isnan (lookup s g) then interp_at (available (reindex s points)) g else lookup s g.
  Proof.
    intros g v. rewrite column_unfold. unfold interp_index. rewrite in_map_iff. split.
    - intros ([a b] & E & I). cbn [fst snd] in E. injection E as <- <-. apply reindex_In in I. destruct I as [I ->]. auto.
    - intros [I ->]. exists (g, lookup s g). split; [reflexivity|]. apply reindex_In. auto.
  Qed.
  Lemma nearest_row : forall t, points <> [] -> exists g v, In (g, v) u /\ nearest u t = v.
  Proof.
    intros t NE. unfold nearest. destruct (last_such _ u) as [l|] eqn:E1; destruct (find _ u) as [r|] eqn:E2.
    - assert (I1 : In l u). { unfold last_such in E1. destruct (rev (filter _ u)) as [|x rest] eqn:ER; [discriminate E1|]. injection E1 as ->. assert (In l (rev (filter (fun r => (fst r <=? t)%Z) u))) by (rewrite ER; left; reflexivity). apply in_rev in H. apply filter_In in H. apply H. }
      apply find_some in E2. destruct E2 as [I2 _]. destruct (_ <? _)%Z; [exists (fst l), (snd l)|exists (fst r), (snd r)]; (split; [|reflexivity]); [destruct l; exact I1|destruct r; exact I2].
    - assert (I1 : In l u). { unfold last_such in E1. destruct (rev (filter _ u)) as [|x rest] eqn:ER; [discriminate E1|]. injection E1 as ->. assert (In l (rev (filter (fun r => (fst r <=? t)%Z) u))) by (rewrite ER; left; reflexivity). apply in_rev in H. apply filter_In in H. apply H. }
      exists (fst l), (snd l). split; [destruct l; exact I1|reflexivity].
    - apply find_some in E2. destruct E2 as [I2 _]. exists (fst r), (snd r). split; [destruct r; exact I2|reflexivity].
    - exfalso. rewrite <- u_times in NE. destruct u as [|[a b] u']; [contradiction NE; reflexivity|]. cbn in E2. destruct (t <=? a)%Z eqn:L; [discriminate E2|]. rewrite last_such_None in E1. specialize (E1 _ (or_introl eq_refl)). cbn in E1. lia.
  Qed.

  (** Bounds. *)
  Section Bounds.
    Variables lo hi : Qc.
    Hypothesis W : forall w, In w weights -> 0 < w.
    Hypothesis T : forall v, In (Fin v) table -> lo <= v /\ v <= hi.
    Definition fits (v : fl) : Prop := v = NaN \/ exists q, v = Fin q /\ lo <= q /\ q <= hi.
    Lemma s_fits : forall t v, In (t, v) s -> fits v.
    Proof.
      intros t v I. rewrite s_rows in I. apply in_map_iff in I. destruct I as (i & E & _). injection E as _ <-. apply wmean_bound; [exact W|]. intros q J. unfold daily in J. apply in_map_iff in J. destruct J as (d & E & _). apply T. unfold V in E.
      destruct (Nat.lt_ge_cases (Z.to_nat (d_month (civil_of_day d) - 1)) (length table)) as [L|L]; [rewrite <- E; apply nth_In; exact L|rewrite nth_overflow in E by exact L; discriminate E].
    Qed.
    Lemma u_fits : forall t v, In (t, v) u -> fits v.
    Proof.
      intros t v I. apply u_In in I. destruct I as [IP ->]. destruct (lookup_cases s t) as [(w & J & EL)|[_ EL]].
      - rewrite EL. destruct (isnan w) eqn:EN; [|apply (s_fits _ _ J)]. apply isnan_spec in EN. subst w. assert (G : forall a b, In (a, b) (available (reindex s points)) -> exists q, b = Fin q /\ lo <= q /\ q <= hi).
        { intros a b K. apply available_In in K. destruct K as [K NN]. apply reindex_In in K. destruct K as [_ ->]. destruct (lookup_cases s a) as [(z & Z1 & Z2)|[_ Z2]]; rewrite Z2 in *; [|contradiction NN; reflexivity]. destruct (s_fits _ _ Z1) as [->|G]; [contradiction NN; reflexivity|exact G]. }
        revert G. generalize (available_sorted _ (reindex_sorted s points points_sorted)). generalize (available (reindex s points)). intros df SD G. unfold interp_at. pose proof (row_before df t SD) as RB. pose proof (row_after df t SD) as RA. destruct (last_such _ df) as [[t1 v1]|]; [|left; reflexivity]. destruct RB as (I1 & L1 & _). destruct (G _ _ I1) as (q1 & -> & A1 & B1). destruct (find _ df) as [[t2 v2]|]; [|right; exists q1; auto]. destruct RA as (I2 & L2 & _). destruct (G _ _ I2) as (q2 & -> & A2 & B2). right. rewrite lin_chord by lia. eexists. split; [reflexivity|]. destruct (chord_between t1 q1 t2 q2 t ltac:(lia)) as [[C1 C2]|[C1 C2]]; split; qlra.
      - rewrite EL. cbn [isnan]. assert (G : forall a b, In (a, b) (available (reindex s points)) -> exists q, b = Fin q /\ lo <= q /\ q <= hi).
        { intros a b K. apply available_In in K. destruct K as [K NN]. apply reindex_In in K. destruct K as [_ ->]. destruct (lookup_cases s a) as [(z & Z1 & Z2)|[_ Z2]]; rewrite Z2 in *; [|contradiction NN; reflexivity]. destruct (s_fits _ _ Z1) as [->|G]; [contradiction NN; reflexivity|exact G]. }
        revert G. generalize (available_sorted _ (reindex_sorted s points points_sorted)). generalize (available (reindex s points)). intros df SD G. unfold interp_at. pose proof (row_before df t SD) as RB. pose proof (row_after df t SD) as RA. destruct (last_such _ df) as [[t1 v1]|]; [|left; reflexivity]. destruct RB as (I1 & L1 & _). destruct (G _ _ I1) as (q1 & -> & A1 & B1). destruct (find _ df) as [[t2 v2]|]; [|right; exists q1; auto]. destruct RA as (I2 & L2 & _). destruct (G _ _ I2) as (q2 & -> & A2 & B2). right. rewrite lin_chord by lia. eexists. split; [reflexivity|]. destruct (chord_between t1 q1 t2 q2 t ltac:(lia)) as [[C1 C2]|[C1 C2]]; split; qlra.
    Qed.
    Lemma points_nonempty : points <> [].
    Proof. discriminate. Qed.
    Theorem nearest_fits : forall t, fits (nearest u t).
    Proof. intros t. destruct (nearest_row t points_nonempty) as (g & v & I & ->). exact (u_fits _ _ I). Qed.
  End Bounds.

  (** All months known and a frequency that divides the day. *)
  Section Known.
    Variable values : list Qc.
    Hypothesis W : forall w, In w weights -> 0 < w.
    Hypothesis NE : weights <> [].
    Hypothesis DIV : (f | ns_day)%Z.
    Hypothesis KN : forall k, (k < 12)%nat -> nth k table NaN = Fin (nth k values 0).
    Lemma month_index : forall d, (Z.to_nat (d_month (civil_of_day d) - 1) < 12)%nat.
    Proof. intros d. destruct (civil_of_day_spec d) as [VD _]. destruct VD as [M _]. lia. Qed.
    Lemma V_fin : forall d, V d = Fin (monthly values d).
    Proof. intros d. unfold V, monthly. apply KN. apply month_index. Qed.
    Lemma daily_nth : forall i, (i < N)%nat -> nth i daily NaN = Fin (monthly values (first + Z.of_nat i)).
    Proof.
      intros i L. unfold daily, arange. rewrite map_map. rewrite (nth_indep _ NaN (V (first + Z.of_nat 0)%Z)) by (rewrite map_length, seq_length; exact L).
      rewrite (map_nth (fun x => V (first + Z.of_nat x)%Z) (seq 0 (Z.to_nat (last + 1 - first))) 0%nat i). rewrite seq_nth by exact L. apply V_fin.
    Qed.
    Definition day_mean (d : Z) : Qc := match wmean weights daily (Z.to_nat (d - first)) with Fin q => q | _ => 0 end.
    Lemma day_mean_spec : forall d, (first <= d <= last)%Z -> wmean weights daily (Z.to_nat (d - first)) = Fin (day_mean d).
    Proof.
      intros d D. unfold day_mean. destruct (wmean_fin weights daily (Z.to_nat (d - first)) W NE) as (q & E); [|rewrite E; reflexivity]. eexists. apply daily_nth. unfold N. lia.
    Qed.
    Lemma day_mean_smooth : forall d, (first <= d - Z.of_nat (length weights) / 2)%Z -> (d - Z.of_nat (length weights) / 2 + Z.of_nat (length weights) - 1 <= last)%Z -> day_mean d = smooth weights (monthly values) d.
    Proof.
      intros d L1 L2. assert (NN : (0 < length weights)%nat) by (destruct weights; [contradiction NE; reflexivity|cbn; lia]). assert (HB : (0 <= Z.of_nat (length weights) / 2 <= Z.of_nat (length weights) - 1)%Z) by (split; [apply Z.div_pos; lia|]; pose proof (Z.mul_div_le (Z.of_nat (length weights)) 2 ltac:(lia)); lia).
      assert (E : wmean weights daily (Z.to_nat (d - first)) = Fin (smooth weights (fun z => monthly values (first + z)) (Z.of_nat (Z.to_nat (d - first))))).
      { apply wmean_full; [exact NE|apply qsum_pos; [exact NE|exact W]|]. intros i I. unfold row_at. replace (0 <=? Z.of_nat (Z.to_nat (d - first)) - Z.of_nat (length weights) / 2 + Z.of_nat i)%Z with true by (symmetry; apply Z.leb_le; lia). rewrite daily_nth by (unfold N; lia). do 2 f_equal. lia. }
      unfold day_mean. rewrite E. unfold smooth. f_equal. f_equal. apply map_ext. intros i. f_equal. f_equal. lia.
    Qed.
    Lemma s_at : forall d, (first <= d <= last)%Z -> In (d * ns_day, Fin (day_mean d))%Z s.
    Proof.
      intros d D. rewrite s_rows. apply in_map_iff. exists (Z.to_nat (d - first)). split; [|apply in_seq; unfold N; lia]. rewrite <- (day_mean_spec d D). do 2 f_equal. lia.
    Qed.
    Lemma s_In : forall t v, In (t, v) s -> exists d, (first <= d <= last)%Z /\ t = (d * ns_day)%Z /\ v = Fin (day_mean d).
    Proof.
      intros t v I. rewrite s_rows in I. apply in_map_iff in I. destruct I as (i & E & I). apply in_seq in I. injection E as <- <-. exists (first + Z.of_nat i)%Z. split; [unfold N in I; lia|]. split; [reflexivity|]. rewrite <- day_mean_spec by (unfold N in I; lia). f_equal. lia.
    Qed.
    Lemma points_mult : forall g, In g points <-> (g mod f = 0)%Z /\ (first * ns_day <= g <= last * ns_day)%Z.
    Proof.
      intros g. rewrite points_In. destruct DIV as [m M]. rewrite M. split.
      - intros [(k & K & ->) L]. assert (0 <= f * k)%Z by (apply Z.mul_nonneg_nonneg; lia). split; [|split; [lia|exact L]]. replace (first * (m * f) + f * k)%Z with ((first * m + k) * f)%Z by ring. apply Z.mod_mul. lia.
      - intros [MG [L1 L2]]. split; [|exact L2]. pose proof (Z.div_mod g f ltac:(lia)) as DM. exists (g / f - first * m)%Z. split; [|nia]. assert (first * m <= g / f)%Z; [|lia]. apply Z.div_le_lower_bound; [exact F|nia].
    Qed.
    Theorem u_value : forall g v, In (g, v) u -> v = Fin (between_days day_mean g).
    Proof.
      intros g v I. apply u_In in I. destruct I as [IP ->]. apply points_mult in IP. destruct IP as [MG [L1 L2]]. assert (ND : (0 < ns_day)%Z) by reflexivity. pose proof (Z.div_mod g ns_day ltac:(lia)) as DM. pose proof (Z.mod_pos_bound g ns_day ND) as MB. unfold between_days. set (d := (g / ns_day)%Z) in *. set (r := (g mod ns_day)%Z) in *.
      assert (D1 : (first <= d)%Z) by (apply Z.div_le_lower_bound; [exact ND|lia]). assert (D2 : (d <= last)%Z) by nia.
      destruct (Z.eq_dec r 0) as [R|R].
      - assert (EG : g = (d * ns_day)%Z) by lia. rewrite EG. rewrite (lookup_In s _ _ s_sorted (s_at d ltac:(lia))). cbn [isnan]. f_equal. rewrite R. replace (qz 0) with 0 by (apply Qc_is_canon; reflexivity). unfold Qcdiv. ring.
      - assert (D3 : (d < last)%Z) by nia. assert (LK : lookup s g = NaN). { apply lookup_none. intros J. apply in_map_iff in J. destruct J as ([a b] & E & J). cbn in E. subst a. apply s_In in J. destruct J as (e & _ & E & _). apply R. unfold r. rewrite E. apply Z.mod_mul. lia. }
        rewrite LK. cbn [isnan].
        assert (AV : forall a b, In (a, b) (available (reindex s points)) <-> exists e, (first <= e <= last)%Z /\ a = (e * ns_day)%Z /\ b = Fin (day_mean e)).
        { intros a b. rewrite available_In. split.
          - intros [J NNa]. apply reindex_In in J. destruct J as [_ ->]. destruct (lookup_cases s a) as [(z & Z1 & Z2)|[_ Z2]]; [|contradiction]. rewrite Z2. apply s_In. exact Z1.
          - intros (e & E1 & -> & ->). split; [|discriminate]. apply reindex_In. split; [|symmetry; apply (lookup_In s _ _ s_sorted), s_at; exact E1]. apply points_mult. split; [|nia]. destruct DIV as [m M]. rewrite M. replace (e * (m * f))%Z with ((e * m) * f)%Z by ring. apply Z.mod_mul. lia. }
        assert (A1 := proj2 (AV _ _) (ex_intro _ d (conj (conj D1 D2) (conj eq_refl eq_refl)))). assert (D4 : (first <= d + 1 <= last)%Z) by lia. assert (A2 := proj2 (AV _ _) (ex_intro _ (d + 1)%Z (conj D4 (conj eq_refl eq_refl)))).
        pose proof (available_sorted _ (reindex_sorted s points points_sorted)) as SD. unfold interp_at. pose proof (row_before _ g SD) as RB. pose proof (row_after _ g SD) as RA. destruct (last_such _ _) as [[t1 v1]|]; [|specialize (RB _ _ A1); lia]. destruct RB as (I1 & B1 & M1). apply AV in I1. destruct I1 as (e1 & _ & -> & ->). specialize (M1 _ _ A1 ltac:(lia)). assert (e1 = d) by nia. subst e1.
        destruct (find _ _) as [[t2 v2]|]; [|specialize (RA _ _ A2); lia]. destruct RA as (I2 & B2 & M2). apply AV in I2. destruct I2 as (e2 & _ & -> & ->). specialize (M2 _ _ A2 ltac:(lia)). assert (e2 = d + 1)%Z by nia. subst e2.
        rewrite lin_chord by lia. f_equal. unfold on_chord. replace (g - d * ns_day)%Z with r by lia. replace ((d + 1) * ns_day - d * ns_day)%Z with ns_day by lia. reflexivity.
    Qed.
    Theorem nearest_value : forall t, (first * ns_day <= t <= last * ns_day)%Z -> exists g, on_grid f t g /\ (t / ns_day * ns_day <= g)%Z /\ (g <= (t / ns_day + 1) * ns_day)%Z /\ (first * ns_day <= g <= last * ns_day)%Z /\ nearest u t = Fin (between_days day_mean g).
    Proof.
      intros t [T1 T2]. assert (ND : (0 < ns_day)%Z) by reflexivity. pose proof (Z.div_mod t f ltac:(lia)) as DM. pose proof (Z.mod_pos_bound t f F) as MB. set (g1 := (f * (t / f))%Z) in *. destruct DIV as [m M]. assert (M0 : (0 < m)%Z) by nia.
      assert (P1 : In g1 points). { apply points_mult. split; [unfold g1; rewrite Z.mul_comm; apply Z.mod_mul; lia|]. split; [|unfold g1; lia]. assert (first * m <= t / f)%Z by (apply Z.div_le_lower_bound; [exact F|rewrite M in T1; nia]). unfold g1. rewrite M. nia. }
      pose proof (Z.div_mod t ns_day ltac:(lia)) as DN. pose proof (Z.mod_pos_bound t ns_day ND) as NB. set (d := (t / ns_day)%Z) in *.
      assert (Q1 : (d * ns_day <= g1)%Z). { assert (d * m <= t / f)%Z by (apply Z.div_le_lower_bound; [exact F|rewrite M in DN, NB; nia]). unfold g1. rewrite M. nia. }
      assert (Q2 : (t mod f <> 0 -> g1 + f <= (d + 1) * ns_day)%Z). { intros _. assert (t / f < (d + 1) * m)%Z by (apply Z.div_lt_upper_bound; [exact F|rewrite M in DN, NB; nia]). unfold g1. rewrite M. nia. }
      assert (Q3 : (t mod f <> 0 -> In (g1 + f)%Z points)%Z). { intros R. apply points_mult. split; [unfold g1; replace (f * (t / f) + f)%Z with ((t / f + 1) * f)%Z by ring; apply Z.mod_mul; lia|]. split; [unfold g1 in *; apply points_mult in P1; lia|]. assert (t < last * ns_day)%Z by (destruct (Z.eq_dec t (last * ns_day)) as [E|E]; [exfalso; apply R; rewrite E, M; replace (last * (m * f))%Z with ((last * m) * f)%Z by ring; apply Z.mod_mul; lia|lia]).
        assert (t / f < last * m)%Z by (apply Z.div_lt_upper_bound; [exact F|rewrite M in H; nia]). unfold g1. rewrite M. nia. }
      unfold nearest. assert (X1 : last_such (fun r => (fst r <=? t)%Z) u = last_such (fun r => (fst r <? t + 1)%Z) u). { unfold last_such. erewrite filter_ext; [reflexivity|]. intros a. destruct (Z.leb_spec (fst a) t); destruct (Z.ltb_spec (fst a) (t + 1)); lia || reflexivity. }
      assert (X2 : find (fun r => (t <=? fst r)%Z) u = find (fun r => (t - 1 <? fst r)%Z) u). { generalize u. induction u0 as [|a l IH]; [reflexivity|]. cbn [find]. rewrite IH. destruct (Z.leb_spec t (fst a)); destruct (Z.ltb_spec (t - 1) (fst a)); lia || reflexivity. }
      rewrite X1, X2. pose proof (row_before u (t + 1) u_sorted) as RB. pose proof (row_after u (t - 1) u_sorted) as RA.
      assert (TU : forall g, In g points -> In (g, Fin (between_days day_mean g)) u). { intros g I. assert (J := proj2 (u_In g _) (conj I eq_refl)). pose proof (u_value _ _ J) as E. rewrite E in J. exact J. }
      destruct (last_such (fun r => (fst r <? t + 1)%Z) u) as [[a v1]|]; [|specialize (RB _ _ (TU _ P1)); lia]. destruct RB as (I1 & B1 & M1). specialize (M1 _ _ (TU _ P1) ltac:(lia)). assert (IA : In a points) by (rewrite <- u_times; apply in_map_iff; exists (a, v1); auto). apply points_mult in IA. destruct IA as [IA IA2].
      assert (EA : a = g1). { pose proof (Z.div_mod a f ltac:(lia)). assert (a / f <= t / f)%Z by (apply Z.div_le_mono; lia). unfold g1 in *. nia. } subst a. pose proof (u_value _ _ I1) as E1. subst v1.
      destruct (Z.eq_dec (t mod f) 0) as [R|R].
      - assert (ET : g1 = t) by lia. destruct (find (fun r => (t - 1 <? fst r)%Z) u) as [[b v2]|]; [|specialize (RA _ _ I1); lia]. destruct RA as (I2 & B2 & M2). specialize (M2 _ _ I1 ltac:(lia)). assert (b = t) by lia. subst b. cbn [fst snd]. pose proof (u_value _ _ I2) as E2. subst v2. replace (t - g1 <? t - t)%Z with false by (symmetry; apply Z.ltb_ge; lia). exists t. split; [unfold on_grid; split; [exact R|lia]|]. split; [lia|]. split; [lia|]. split; [lia|]. reflexivity.
      - specialize (Q2 R). specialize (Q3 R). destruct (find (fun r => (t - 1 <? fst r)%Z) u) as [[b v2]|]; [|specialize (RA _ _ (TU _ Q3)); lia]. destruct RA as (I2 & B2 & M2). specialize (M2 _ _ (TU _ Q3) ltac:(lia)). assert (IB : In b points) by (rewrite <- u_times; apply in_map_iff; exists (b, v2); auto). apply points_mult in IB. destruct IB as [IB IB2].
        assert (EB : b = (g1 + f)%Z). { pose proof (Z.div_mod b f ltac:(lia)). unfold g1 in *. assert (t / f < b / f)%Z by nia. nia. } subst b. pose proof (u_value _ _ I2) as E2. subst v2. cbn [fst snd].
        destruct (Z.ltb_spec (t - g1) (g1 + f - t)) as [L|L].
        + exists g1. split; [unfold on_grid; split; [exact IA|lia]|]. split; [lia|]. split; [lia|]. split; [lia|]. reflexivity.
        + exists (g1 + f)%Z. split; [unfold on_grid; split; [exact IB|lia]|]. split; [lia|]. split; [lia|]. split; [lia|]. reflexivity.
    Qed.
  End Known.

  Section Missing.
    Hypothesis MISS : forall k, (k < 12)%nat -> nth k table NaN = NaN.
    Hypothesis W : forall w, In w weights -> 0 < w.
    Theorem nearest_missing : forall t, nearest u t = NaN.
    Proof.
      intros t. assert (NF : forall v, ~ In (Fin v) daily). { intros v I. unfold daily in I. apply in_map_iff in I. destruct I as (d & E & _). unfold V in E. rewrite MISS in E; [discriminate E|]. destruct (civil_of_day_spec d) as [VD _]. destruct VD as [M _]. lia. }
      assert (SN : forall a b, In (a, b) s -> b = NaN). { intros a b I. rewrite s_rows in I. apply in_map_iff in I. destruct I as (i & E & _). injection E as _ <-. destruct (wmean_bound weights daily i 1 0 W) as [E|(q & _ & H1 & H2)]; [intros v J; contradiction (NF v)|exact E|]. exfalso. assert (day_mean := Qcle_trans _ _ _ H1 H2). apply day_mean. reflexivity. }
      destruct (nearest_row t ltac:(discriminate)) as (g & v & I & ->). apply u_In in I. destruct I as [_ ->]. assert (LN : forall a, lookup s a = NaN) by (intros a; destruct (lookup_cases s a) as [(z & Z1 & Z2)|[_ Z2]]; rewrite Z2; [apply (SN _ _ Z1)|reflexivity]).
      rewrite LN. cbn [isnan]. assert (EA : available (reindex s points) = []). { destruct (available (reindex s points)) as [|[a b] r] eqn:E; [reflexivity|]. assert (J : In (a, b) (available (reindex s points))) by (rewrite E; left; reflexivity). apply available_In in J. destruct J as [J NNa]. apply reindex_In in J. destruct J as [_ ->]. rewrite LN in NNa. contradiction NNa; reflexivity. }
      rewrite EA. reflexivity.
    Qed.
  End Missing.
End Column.

(** ** The whole estimate *)
Lemma pixel_cell : forall data i j k, get_pixel_value data i j k 0 = cell_value data i j k.
Proof.
  intros data i j k. unfold cell_value. destruct (_ && _)%bool eqn:E.
  - rewrite !andb_true_iff in E. destruct E as [[[E1 E2] E3] E4]. apply Z.leb_le in E1, E3. apply Z.ltb_lt in E2, E4. apply pixel_inside; [lia|lia|reflexivity].
  - apply pixel_outside. intros [H1 H2]. rewrite !andb_false_iff in E. destruct E as [[[E|E]|E]|E]; (apply Z.leb_gt in E || apply Z.ltb_ge in E); lia.
Qed.
Lemma table_nth : forall (h : nat -> fl) k, nth k (map h (seq 0 12)) NaN = if (k <? 12)%nat then h k else NaN.
Proof.
  intros h k. destruct (Nat.ltb_spec k 12) as [L|L]; [|apply nth_overflow; rewrite map_length, seq_length; exact L].
  rewrite (nth_indep _ NaN (h 0%nat)) by (rewrite map_length, seq_length; exact L). rewrite (map_nth h (seq 0 12) 0%nat k). rewrite seq_nth by exact L. reflexivity.
Qed.
Lemma clock_spec : forall t, qz (t mod ns_day / 3600000000000) + qz (t mod 3600000000000 / 60000000000) / qz 60 = clock t.
Proof.
  intros t. unfold clock. change (60 * 1000000000)%Z with 60000000000%Z. replace (t mod 3600000000000)%Z with ((t mod ns_day) mod 3600000000000)%Z.
  2:{ change ns_day with (3600000000000 * 24)%Z. rewrite Z.rem_mul_r by lia. rewrite (Z.mul_comm 3600000000000), Z.mod_add by lia. apply Z.mod_mod. lia. }
  set (x := (t mod ns_day)%Z). assert (E : (x / 60000000000 = 60 * (x / 3600000000000) + x mod 3600000000000 / 60000000000)%Z).
  { rewrite (Z.div_mod x 3600000000000) at 1 by lia. replace (3600000000000 * (x / 3600000000000) + x mod 3600000000000)%Z with (x mod 3600000000000 + (60 * (x / 3600000000000)) * 60000000000)%Z by ring. rewrite Z.div_add by lia. ring. }
  rewrite E. rewrite qz_add, qz_mul. assert (NZ : qz 60 <> 0) by discriminate. field. exact NZ.
Qed.
Lemma phase_spec : forall longitude utc_offset t,
  (clock t + (longitude / qz 180 * qz 12 - utc_offset) + qz 8) / qz 24 = solar_phase longitude utc_offset t.
Proof.
  intros longitude utc_offset t. unfold solar_phase. f_equal. replace (longitude / qz 180 * qz 12) with (longitude / qz 15); [ring|]. unfold Qcdiv. replace (/ qz 15) with (/ qz 180 * qz 12) by (apply Qc_is_canon; reflexivity). ring.
Qed.
Lemma between_ext : forall (a b : Z -> Qc) g, a (g / ns_day)%Z = b (g / ns_day)%Z -> (g mod ns_day <> 0 -> a (g / ns_day + 1) = b (g / ns_day + 1))%Z -> between_days a g = between_days b g.
Proof.
  intros a b g H1 H2. unfold between_days. rewrite H1. destruct (Z.eq_dec (g mod ns_day) 0) as [R|R]; [|rewrite H2 by exact R; reflexivity]. rewrite R. replace (qz 0) with 0 by (apply Qc_is_canon; reflexivity). unfold Qcdiv. ring.
Qed.
Lemma Ok_inj : forall (A : Type) (a b : A), Ok a = Ok b -> a = b.
Proof. intros A a b E. injection E. auto. Qed.
Section Chain.
  Variables (turn : Qc -> Qc) (weights : list Qc) (day night : grid) (f : Z) (utc_offset latitude longitude : Qc).
  Hypotheses (F : (0 < f)%Z).
  Let i := lon_index (columns day) longitude.
  Let j := lat_index (rows day) latitude.
  Let estimate ts := get_clearsky_tamb turn weights day night f utc_offset ts latitude longitude.
  Lemma sorted_ends : forall t0 ts t, StronglySorted Z.le (t0 :: ts) -> In t (t0 :: ts) -> (t0 <= t <= List.last (t0 :: ts) t0)%Z.
  Proof.
    intros t0 ts t S I. split.
    - apply StronglySorted_inv in S. destruct S as [_ S]. rewrite Forall_forall in S. destruct I as [->|I]; [lia|apply S; exact I].
    - assert (G : forall l d u, StronglySorted Z.le l -> In u l -> (u <= List.last l d)%Z).
      { induction l as [|a l IH]; intros d u SS J0; [destruct J0|]. destruct J0 as [->|J].
        - apply StronglySorted_inv in SS. destruct SS as [SS H]. destruct l as [|b l]; [cbn; lia|]. change (u <= List.last (b :: l) d)%Z. rewrite Forall_forall in H. specialize (H b (or_introl eq_refl)). specialize (IH d b SS (or_introl eq_refl)). lia.
        - apply StronglySorted_inv in SS. destruct SS as [SS H]. destruct l as [|b l]; [destruct J|]. change (u <= List.last (b :: l) d)%Z. apply IH; assumption. }
      apply G; assumption.
  Qed.
  Lemma estimate_rows : forall t0 ts, estimate (t0 :: ts) = Ok (map (fun t => (t, get_temperature turn (clock t)
      (nearest (column weights f (ts_day t0 - Z.of_nat (length weights)) (ts_day (List.last (t0 :: ts) t0) + Z.of_nat (length weights)) (map (cell_value night i j) (seq 0 12))) t)
      (nearest (column weights f (ts_day t0 - Z.of_nat (length weights)) (ts_day (List.last (t0 :: ts) t0) + Z.of_nat (length weights)) (map (cell_value day i j) (seq 0 12))) t)
      (longitude / qz 180 * qz 12 - utc_offset))) (t0 :: ts)).
  Proof.
    intros t0 ts. unfold estimate, get_clearsky_tamb. cbv zeta. fold i. fold j.
    rewrite (map_ext (fun k => get_pixel_value night i j k 0) (cell_value night i j)) by (intros k; apply pixel_cell). rewrite (map_ext (fun k => get_pixel_value day i j k 0) (cell_value day i j)) by (intros k; apply pixel_cell).
    f_equal. apply map_ext. intros t. rewrite clock_spec. reflexivity.
  Qed.
  Theorem estimate_empty : estimate [] = Raise IndexError.
  Proof. reflexivity. Qed.
  Lemma ends : forall t0 ts, StronglySorted Z.le (t0 :: ts) -> (ts_day t0 - Z.of_nat (length weights) <= ts_day (List.last (t0 :: ts) t0) + Z.of_nat (length weights))%Z.
  Proof.
    intros t0 ts S. destruct (sorted_ends t0 ts t0 S (or_introl eq_refl)) as [_ H]. unfold ts_day. assert (t0 / ns_day <= List.last (t0 :: ts) t0 / ns_day)%Z by (apply Z.div_le_mono; [reflexivity|exact H]). lia.
  Qed.

  Theorem chain_spec : forall days nights ts, (f | ns_day)%Z -> weights <> [] -> (forall w, In w weights -> 0 < w) -> ts <> [] -> StronglySorted Z.le ts ->
    (forall k, (k < 12)%nat -> cell_value day i j k = Fin (nth k days 0)) -> (forall k, (k < 12)%nat -> cell_value night i j k = Fin (nth k nights 0)) ->
    exists s, estimate ts = Ok s /\ times s = ts /\
      forall t v, In (t, v) s -> exists g, on_grid f t g /\ v = Fin (clear_sky turn weights days nights longitude utc_offset t g).
  Proof.
    intros days nights ts DIV NE W TS S KD KN. destruct ts as [|t0 ts]; [contradiction|]. rewrite estimate_rows. eexists. split; [reflexivity|]. split; [unfold times; rewrite map_map; cbn [fst]; apply map_id|].
    intros t v I. apply in_map_iff in I. destruct I as (t' & E & I). apply pair_equal_spec in E. destruct E as [-> <-]. destruct (sorted_ends t0 ts t S I) as [T1 T2]. pose proof (ends t0 ts S) as FL. set (n := Z.of_nat (length weights)) in *. set (first := (ts_day t0 - n)%Z) in *. set (last := (ts_day (List.last (t0 :: ts) t0) + n)%Z) in *.
    assert (NN : (0 < n)%Z) by (unfold n; destruct weights; [contradiction NE; reflexivity|cbn; lia]). assert (ND : (0 < ns_day)%Z) by reflexivity.
    assert (D1 : (t0 / ns_day <= t / ns_day)%Z) by (apply Z.div_le_mono; assumption). assert (D2 : (t / ns_day <= List.last (t0 :: ts) t0 / ns_day)%Z) by (apply Z.div_le_mono; assumption).
    assert (DMt := Z.div_mod t ns_day ltac:(lia)). assert (MBt := Z.mod_pos_bound t ns_day ND).
    assert (R : (first * ns_day <= t <= last * ns_day)%Z) by (unfold first, last, ts_day in *; nia).
    assert (K1 : forall k, (k < 12)%nat -> nth k (map (cell_value day i j) (seq 0 12)) NaN = Fin (nth k days 0)) by (intros k L; rewrite table_nth; rewrite (proj2 (Nat.ltb_lt k 12) L); apply KD, L).
    assert (K2 : forall k, (k < 12)%nat -> nth k (map (cell_value night i j) (seq 0 12)) NaN = Fin (nth k nights 0)) by (intros k L; rewrite table_nth; rewrite (proj2 (Nat.ltb_lt k 12) L); apply KN, L).
    destruct (nearest_value weights f first last (map (cell_value day i j) (seq 0 12)) F FL days W NE DIV K1 t R) as (g & G & GA & GB & GC & E1).
    destruct (nearest_value weights f first last (map (cell_value night i j) (seq 0 12)) F FL nights W NE DIV K2 t R) as (g' & G' & _ & _ & _ & E2).
    assert (EG : g' = g). { destruct G as (A1 & A2 & A3). destruct G' as (B1 & B2 & B3). pose proof (Z.div_mod g f ltac:(lia)). pose proof (Z.div_mod g' f ltac:(lia)). assert (g / f = g' / f)%Z by nia. nia. } subst g'.
    exists g. split; [exact G|]. rewrite E1, E2. rewrite temperature_spec. rewrite phase_spec. unfold clear_sky. cbv zeta.
    assert (HB : (0 <= n / 2 <= n - 1)%Z) by (split; [apply Z.div_pos; lia|]; pose proof (Z.mul_div_le n 2 ltac:(lia)); lia).
    pose proof (Z.div_mod g ns_day ltac:(lia)) as DMg. pose proof (Z.mod_pos_bound g ns_day ND) as MBg.
    assert (X1 : (t / ns_day <= g / ns_day <= t / ns_day + 1)%Z) by nia. assert (X2 : (g mod ns_day <> 0 -> g / ns_day <= t / ns_day)%Z) by (intros; nia).
    assert (P : forall table values, (forall k, (k < 12)%nat -> nth k table NaN = Fin (nth k values 0)) -> between_days (day_mean weights first last table) g = between_days (smooth weights (monthly values)) g).
    { intros table values K. apply between_ext; intros; apply day_mean_smooth with (f := f) || apply day_mean_smooth; try assumption; fold n; unfold first, last, ts_day; try specialize (X2 H); lia. }
    rewrite (P _ _ K1), (P _ _ K2). reflexivity.
  Qed.

  Theorem chain_band : forall lo hi ts, (forall w, In w weights -> 0 < w) -> (forall x, -(1) <= turn x /\ turn x <= 1) -> StronglySorted Z.le ts ->
    (forall k v, (k < 12)%nat -> cell_value day i j k = Fin v \/ cell_value night i j k = Fin v -> lo <= v /\ v <= hi) ->
    forall s, estimate ts = Ok s -> times s = ts /\ forall t v, In (t, v) s -> v = NaN \/ exists q, v = Fin q /\ lo <= q /\ q <= hi.
  Proof.
    intros lo hi ts W TN S B s E. destruct ts as [|t0 ts]; [discriminate E|]. rewrite estimate_rows in E. apply Ok_inj in E. subst s. split; [unfold times; rewrite map_map; cbn [fst]; apply map_id|].
    intros t v I. apply in_map_iff in I. destruct I as (t' & E & I). apply pair_equal_spec in E. destruct E as [-> <-]. pose proof (ends t0 ts S) as FL. set (first := (ts_day t0 - _)%Z) in *. set (last := (_ + _)%Z) in *.
    assert (T1 : forall v, In (Fin v) (map (cell_value day i j) (seq 0 12)) -> lo <= v /\ v <= hi) by (intros v J; apply in_map_iff in J; destruct J as (k & EK & J); apply in_seq in J; apply (B k); [lia|left; exact EK]).
    assert (T2 : forall v, In (Fin v) (map (cell_value night i j) (seq 0 12)) -> lo <= v /\ v <= hi) by (intros v J; apply in_map_iff in J; destruct J as (k & EK & J); apply in_seq in J; apply (B k); [lia|right; exact EK]).
    destruct (nearest_fits weights f first last _ F FL lo hi W T1 t) as [->|(d & -> & A1 & A2)]; [left; apply temperature_missing; right; reflexivity|].
    destruct (nearest_fits weights f first last _ F FL lo hi W T2 t) as [->|(n & -> & A3 & A4)]; [left; apply temperature_missing; left; reflexivity|].
    right. rewrite temperature_spec. eexists. split; [reflexivity|]. destruct (TN ((clock t + (longitude / qz 180 * qz 12 - utc_offset) + qz 8) / qz 24)) as [V1 V2]. apply (temperature_band lo hi d n _ V1 V2 A1 A2 A3 A4).
  Qed.

  Theorem chain_missing : forall ts, (forall w, In w weights -> 0 < w) -> StronglySorted Z.le ts ->
    (forall k, (k < 12)%nat -> cell_value day i j k = NaN) \/ (forall k, (k < 12)%nat -> cell_value night i j k = NaN) ->
    forall s, estimate ts = Ok s -> times s = ts /\ forall t v, In (t, v) s -> v = NaN.
  Proof.
    intros ts W S B s E. destruct ts as [|t0 ts]; [discriminate E|]. rewrite estimate_rows in E. apply Ok_inj in E. subst s. split; [unfold times; rewrite map_map; cbn [fst]; apply map_id|].
    intros t v I. apply in_map_iff in I. destruct I as (t' & E & I). apply pair_equal_spec in E. destruct E as [-> <-]. pose proof (ends t0 ts S) as FL. set (first := (ts_day t0 - _)%Z) in *. set (last := (_ + _)%Z) in *.
    apply temperature_missing. destruct B as [B|B]; [right|left]; apply nearest_missing; try assumption; intros k L; rewrite table_nth, (proj2 (Nat.ltb_lt k 12) L); apply B, L.
  Qed.
End Chain.
Lemma cell_of_indices : forall day latitude longitude i j, qz (-180) <= longitude -> longitude < qz 180 -> cell_of day latitude longitude i j ->
  lon_index (columns day) longitude = i /\ lat_index (rows day) latitude = j.
Proof.
  intros day latitude longitude i j L1 L2 [H1 H2]. split.
  - apply (nearest_unique (qz (columns day) * share_east longitude)); [|exact H1]. apply (pixel_column (columns day) longitude); [unfold columns; lia|exact L1|exact L2].
  - apply (nearest_unique (qz (rows day) * share_south latitude)); [|exact H2]. unfold lat_index. replace (qz (rows day) * (qz 90 - latitude) / qz 180) with (qz (rows day) * share_south latitude) by (unfold share_south, Qcdiv; ring). apply round_even_spec.
Qed.
Theorem estimate_known : forall turn weights day night f utc_offset ts latitude longitude i j days nights,
  (0 < f)%Z -> (f | ns_day)%Z -> weights <> [] -> (forall w, In w weights -> 0 < w) -> ts <> [] -> StronglySorted Z.le ts ->
  qz (-180) <= longitude -> longitude < qz 180 -> cell_of day latitude longitude i j ->
  (forall k, (k < 12)%nat -> cell_value day i j k = Fin (nth k days 0)) -> (forall k, (k < 12)%nat -> cell_value night i j k = Fin (nth k nights 0)) ->
  exists s, get_clearsky_tamb turn weights day night f utc_offset ts latitude longitude = Ok s /\ times s = ts /\
    forall t v, In (t, v) s -> exists g, on_grid f t g /\ v = Fin (clear_sky turn weights days nights longitude utc_offset t g).
Proof.
  intros turn weights day night f utc_offset ts latitude longitude i j days nights F DIV NE W TS S L1 L2 CO KD KN. destruct (cell_of_indices _ _ _ _ _ L1 L2 CO) as [<- <-]. apply chain_spec; assumption.
Qed.
Theorem estimate_band : forall turn weights day night f utc_offset ts latitude longitude i j lo hi s,
  (0 < f)%Z -> (forall w, In w weights -> 0 < w) -> (forall x, -(1) <= turn x /\ turn x <= 1) -> StronglySorted Z.le ts ->
  qz (-180) <= longitude -> longitude < qz 180 -> cell_of day latitude longitude i j ->
  (forall k v, (k < 12)%nat -> cell_value day i j k = Fin v \/ cell_value night i j k = Fin v -> lo <= v /\ v <= hi) ->
  get_clearsky_tamb turn weights day night f utc_offset ts latitude longitude = Ok s ->
  times s = ts /\ forall t v, In (t, v) s -> v = NaN \/ exists q, v = Fin q /\ lo <= q /\ q <= hi.
Proof.
  intros turn weights day night f utc_offset ts latitude longitude i j lo hi s F W TN S L1 L2 CO B E. destruct (cell_of_indices _ _ _ _ _ L1 L2 CO) as [<- <-]. revert E. apply chain_band; assumption.
Qed.
Theorem estimate_missing : forall turn weights day night f utc_offset ts latitude longitude i j s,
  (0 < f)%Z -> (forall w, In w weights -> 0 < w) -> StronglySorted Z.le ts ->
  qz (-180) <= longitude -> longitude < qz 180 -> cell_of day latitude longitude i j ->
  (forall k, (k < 12)%nat -> cell_value day i j k = NaN) \/ (forall k, (k < 12)%nat -> cell_value night i j k = NaN) ->
  get_clearsky_tamb turn weights day night f utc_offset ts latitude longitude = Ok s ->
  times s = ts /\ forall t v, In (t, v) s -> v = NaN.
Proof.
  intros turn weights day night f utc_offset ts latitude longitude i j s F W S L1 L2 CO B E. destruct (cell_of_indices _ _ _ _ _ L1 L2 CO) as [<- <-]. revert E. apply chain_missing; assumption.
Qed.
Theorem estimate_edge : forall turn weights day night f utc_offset ts latitude longitude s,
  (0 < f)%Z -> (forall w, In w weights -> 0 < w) -> StronglySorted Z.le ts ->
  qz (-180) <= longitude -> longitude < qz 180 -> qz (-90) <= latitude -> latitude <= qz 90 ->
  let lons := qz (Z.of_nat (length day)) in let lats := qz (Z.of_nat (length (nth 0 day []))) in
  lons - qf 1 2 < lons * share_east longitude \/ lats - qf 1 2 < lats * share_south latitude ->
  get_clearsky_tamb turn weights day night f utc_offset ts latitude longitude = Ok s ->
  times s = ts /\ forall t v, In (t, v) s -> v = NaN.
Proof.
  intros turn weights day night f utc_offset ts latitude longitude s F W S L1 L2 L3 L4 lons lats B E. revert E. apply chain_missing; try assumption. left. intros k K. unfold cell_value. destruct (_ && _)%bool eqn:EB; [|reflexivity]. exfalso. rewrite !andb_true_iff in EB. destruct EB as [[[_ E2] _] E4]. apply Z.ltb_lt in E2, E4.
  destruct (pixel_column (columns day) longitude ltac:(unfold columns; lia) L1 L2) as (_ & _ & P & _). destruct (pixel_row (rows day) latitude ltac:(unfold rows; lia) L3 L4) as (_ & _ & Q & _).
  destruct B as [B|B]; [rewrite (P B) in E2|rewrite (Q B) in E4]; unfold columns, rows in *; lia.
Qed.
