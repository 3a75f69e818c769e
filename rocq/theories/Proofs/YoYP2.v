(** Year-on-year: linear data, scaling, permutation, errors, usage counts. *)

From Coq Require Import QArith Qcanon List ZArith Bool Permutation Sorted Lia Arith.
From Verif.Base Require Import QcExtra ISort Quantile Fl Calendar.
From Verif.Spec Require Import Stats Time YoY.
From Verif.Model Require Import Utilities Bootstrap YearOnYear.
From Verif.Proofs Require Import StatsP FlP YoYP.
Import ListNotations.
Open Scope Qc_scope.

Opaque add_years.

(** ** Values available *)

Lemma pair_value_nan : forall rho dt e r, e = NaN \/ snd r = NaN -> pair_value rho dt e r = NaN.
Proof.
  intros rho dt e [t er] [-> | E]; cbn [snd] in *; unfold pair_value.
  - reflexivity.
  - cbn [snd]. rewrite E. cbn [fdiv]. unfold fsub. cbn [fneg].
    destruct (fdiv e rho); reflexivity.
Qed.

Lemma days365_nonzero : qz (days 365) <> 0.
Proof. apply qz_neq0. discriminate. Qed.

Lemma pair_value_fin : forall rho dt e t er, rho <> 0 -> (days 365 <= dt - t)%Z ->
  pair_value (Fin rho) dt (Fin e) (t, Fin er) =
  Fin (qz 100 * (e / rho - er / rho) / (qz (dt - t) / qz (days 365))).
Proof.
  intros rho dt e t er Hr Hd. unfold pair_value. cbn [snd fst fdiv].
  destruct (qeq rho 0) eqn:E; [qb; contradiction |].
  cbn [fsub fneg fadd fmul fz fdiv].
  destruct (qeq (qz (dt - t) / qz (days 365)) 0) eqn:E'.
  - qb. exfalso. assert (qz (dt - t) <> 0) as N by (apply qz_neq0; unfold days in Hd; lia).
    apply N. rewrite <- (Qc_div_mul (qz (dt - t)) _ days365_nonzero), E'. ring.
  - reflexivity.
Qed.

(** ** C03: exactly linear data *)

Definition on_line (a b : Qc) (input : series) : Prop :=
  forall t e, In (t, e) input -> e = NaN \/ e = Fin (a + b * qz t).

Lemma line_pair : forall a b rho dt t, rho <> 0 -> (days 365 <= dt - t)%Z ->
  qz 100 * ((a + b * qz dt) / rho - (a + b * qz t) / rho) / (qz (dt - t) / qz (days 365)) =
  qz 100 * (b * qz (days 365)) / rho.
Proof.
  intros a b rho dt t Hr Hd.
  assert (qz dt - qz t <> 0) as N.
  { rewrite <- qz_sub. apply qz_neq0. unfold days in Hd. lia. }
  rewrite qz_sub. pose proof days365_nonzero.
  field. auto.
Qed.

Lemma yoy_linear : forall infer sortv choice starts rc ep cl m input o a b rho,
  sorts_by_shifted sortv ->
  degradation_year_on_year infer sortv choice starts rc ep cl m input = Ok o ->
  on_line a b input -> yo_renorm o = Fin rho -> rho <> 0 ->
  yo_rate o = Fin (qz 100 * (b * qz (days 365)) / rho) /\
  forall dt v, In (dt, v) (yo_values o) -> v = Fin (qz 100 * (b * qz (days 365)) / rho).
Proof.
  intros infer sortv choice starts rc ep cl m input o a b rho HS H HL HR Hrho.
  assert (forall dt v, In (dt, v) (yo_values o) -> v = Fin (qz 100 * (b * qz (days 365)) / rho)) as HV.
  { intros dt v Hv.
    destruct (yoy_values_sound _ _ _ _ _ _ _ _ _ _ HS H dt v Hv) as [Hn (e & [t er] & H1 & H2 & H3 & H4)].
    cbn [fst] in H4. subst v. rewrite HR in *.
    pose proof (HL _ _ H1) as He. destruct H2 as [H2 _]. pose proof (HL _ _ H2) as Her.
    destruct He as [-> | ->]; [exfalso; apply Hn, pair_value_nan; left; reflexivity |].
    destruct Her as [-> | ->]; [exfalso; apply Hn, pair_value_nan; right; reflexivity |].
    rewrite pair_value_fin by (auto; lia). f_equal. apply line_pair; [exact Hrho | lia]. }
  split; [| exact HV].
  destruct (full_core _ _ _ _ _ _ _ _ _ _ H) as (o' & rows & HC & E1 & E2 & E3 & _).
  destruct (core_Ok _ _ _ _ _ _ _ HC) as (_ & _ & _ & _ & _ & EV & Hne & ERt & _).
  rewrite E1, ERt, <- E2. rewrite <- E2 in Hne.
  set (c := qz 100 * (b * qz (days 365)) / rho) in *.
  assert (vals (yo_values o) = map (fun _ => Fin c) (yo_values o)) as EQ.
  { unfold vals. apply map_ext_in. intros [dt v] Hin. cbn [snd]. eapply HV. exact Hin. }
  rewrite EQ. rewrite <- (map_map (fun _ => c) Fin).
  rewrite fmedian_noinf.
  - f_equal. rewrite finvals_map_Fin. apply qmedian_const.
    + destruct (yo_values o); [congruence | discriminate].
    + intros x Hx. apply in_map_iff in Hx. destruct Hx as [? [<- _]]. reflexivity.
  - apply noinf_map_Fin.
  - rewrite finvals_map_Fin. destruct (yo_values o); [congruence | discriminate].
Qed.

(** ** C04: units *)

Definition scale_series (k : Qc) (s : series) : series := map (fun r => (fst r, fscale k (snd r))) s.

Lemma scale_sort : forall k s, sort_index (scale_series k s) = scale_series k (sort_index s).
Proof. intros k s. apply isort_map. reflexivity. Qed.

Lemma scale_times : forall k s, times (scale_series k s) = times s.
Proof. intros k s. unfold times, scale_series. rewrite map_map. reflexivity. Qed.

Lemma scale_length : forall k s, length (scale_series k s) = length s.
Proof. intros k s. apply map_length. Qed.

Lemma last_map : forall A B (f : A -> B) l d, List.last (map f l) (f d) = f (List.last l d).
Proof.
  intros A B f l d. induction l as [| x l IH]; [reflexivity |].
  destruct l as [| y l]; [reflexivity |]. cbn [map List.last] in *. exact IH.
Qed.

Lemma scale_earliest : forall k s, earliest (scale_series k s) = earliest s.
Proof. intros k s. unfold earliest. rewrite scale_sort. destruct (sort_index s); reflexivity. Qed.

Lemma last_fst_times : forall (s : series) r, fst (List.last s r) = List.last (times s) (fst r).
Proof. intros s r. unfold times. symmetry. apply last_map. Qed.

Lemma scale_latest : forall k s, latest (scale_series k s) = latest s.
Proof.
  intros k s. unfold latest. rewrite scale_sort.
  destruct (sort_index s) as [| r l] eqn:E; [reflexivity |].
  cbn [scale_series map]. rewrite !last_fst_times.
  change ((fst r, fscale k (snd r)) :: map (fun r0 => (fst r0, fscale k (snd r0))) l)
    with (scale_series k (r :: l)).
  rewrite scale_times. reflexivity.
Qed.

Section C04.
  Variable k : Qc.
  Hypothesis Hk : 0 < k.

  Lemma scale_renorm : forall s, renorm_of true (scale_series k s) = fscale k (renorm_of true s).
  Proof.
    intros s. unfold renorm_of, renorm_factor. rewrite scale_earliest, scale_sort.
    rewrite <- robust_median_fscale by exact Hk. f_equal.
    unfold scale_series, vals. rewrite filter_map_comm, !map_map. reflexivity.
  Qed.

  Lemma scale_rows : forall s, rows_of true (scale_series k s) = rows_of true s.
  Proof.
    intros s. unfold rows_of. rewrite scale_renorm, scale_sort. unfold scale_series.
    rewrite map_map. apply map_ext. intros [t e]. cbn [fst snd].
    rewrite fdiv_fscale by exact Hk. reflexivity.
  Qed.

  Lemma scale_core : forall infer sortv m s,
    yoy_core infer sortv true m (scale_series k s) =
    match yoy_core infer sortv true m s with
    | Ok (o, rows) =>
        Ok (mk_yoy_out (yo_rate o) (yo_values o) (fscale k (yo_renorm o)) (yo_usage o) None None, rows)
    | Raise e => Raise e
    end.
  Proof.
    intros infer sortv m s. rewrite !core_eq.
    destruct s as [| r s]; [reflexivity |].
    set (s' := r :: s). change (scale_series k s') with ((fst r, fscale k (snd r)) :: scale_series k s).
    cbv iota. change ((fst r, fscale k (snd r)) :: scale_series k s) with (scale_series k s').
    subst s'. cbv iota.
    rewrite scale_rows, scale_renorm, scale_earliest, scale_latest, scale_sort, scale_times.
    destruct (too_short _ _ _ _); [reflexivity |].
    assert (circular_guard infer m (scale_series k (sort_index (r :: s))) =
            circular_guard infer m (sort_index (r :: s))) as ->.
    { unfold circular_guard. destruct m; try reflexivity.
      rewrite scale_times, scale_length. reflexivity. }
    destruct (circular_guard _ _ _); [| reflexivity]. cbn [bind].
    destruct (yoy_result _); reflexivity.
  Qed.

  Lemma yoy_scale : forall infer sortv choice starts ep cl m s,
    degradation_year_on_year infer sortv choice starts true ep cl m (scale_series k s) =
    match degradation_year_on_year infer sortv choice starts true ep cl m s with
    | Ok o => Ok (mk_yoy_out (yo_rate o) (yo_values o) (fscale k (yo_renorm o)) (yo_usage o)
                             (yo_ci o) (yo_exceedance o))
    | Raise e => Raise e
    end.
  Proof.
    intros infer sortv choice starts ep cl m s. unfold degradation_year_on_year.
    rewrite scale_core. destruct (yoy_core infer sortv true m s) as [[o rows] | e] eqn:EC; [| reflexivity].
    cbn [bind fst snd yo_rate yo_values yo_renorm yo_usage].
    destruct m as [| L |].
    - destruct (percentile_ci _ _) as [ci |]; [| reflexivity]. cbn [bind].
      destruct (exceedance _ _) as [ex |]; reflexivity.
    - destruct (make_samples _ _ _ _ _) as [ss |]; [| reflexivity]. cbn [bind].
      destruct (construct_ci _ _ _ _) as [[[ci ex] ms] |]; reflexivity.
    - assert (yo_ci o = None /\ yo_exceedance o = None) as [-> ->]; [| reflexivity].
      rewrite core_eq in EC. destruct s; [discriminate |].
      destruct (too_short _ _ _ _); [discriminate |].
      destruct (circular_guard _ _ _); [| discriminate]. cbn [bind] in EC.
      destruct (yoy_result _) in EC; [discriminate |]. injection EC as <- <-. split; reflexivity.
  Qed.
End C04.

(** ** C05: row order *)

Lemma core_perm : forall infer sortv rc m s s', NoDup (times s) -> Permutation s s' ->
  yoy_core infer sortv rc m s = yoy_core infer sortv rc m s'.
Proof.
  intros infer sortv rc m s s' HN HP. unfold yoy_core.
  rewrite (sort_index_perm_eq s s' HN HP). reflexivity.
Qed.

Lemma yoy_perm : forall infer sortv choice starts rc ep cl m s s',
  NoDup (times s) -> Permutation s s' ->
  degradation_year_on_year infer sortv choice starts rc ep cl m s =
  degradation_year_on_year infer sortv choice starts rc ep cl m s'.
Proof.
  intros infer sortv choice starts rc ep cl m s s' HN HP.
  unfold degradation_year_on_year. rewrite (core_perm _ _ _ _ s s' HN HP). reflexivity.
Qed.

(** ** C06: errors and the median *)

Lemma years_later_spec : forall n t, years_later n t (add_years n t).
Proof.
  Transparent add_years.
  intros n t. destruct (ts_split t) as [E R]. unfold add_years, ts_date.
  destruct (civil_of_day_spec (ts_day t)) as [V D].
  destruct (civil_of_day (ts_day t)) as [y m d] eqn:C.
  exists y, m, d, (t mod ns_day)%Z. split; [exact V |]. split; [exact R |].
  split; [rewrite D; exact E |].
  cbn [add_years_date].
  assert (Z.min d (days_in_month (y + n) m) =
          if (m =? 2)%Z && (d =? 29)%Z && negb (leap (y + n)) then 28%Z else d) as ->; [| reflexivity].
  destruct V as [Vm Vd]. cbn [d_year d_month d_day] in *.
  unfold days_in_month in *.
  destruct (m =? 2)%Z eqn:M2; cbn [andb].
  - destruct (d =? 29)%Z eqn:D29; cbn [andb]; destruct (leap (y + n)), (leap y); cbn [negb]; lia.
  - destruct ((m =? 4) || (m =? 6) || (m =? 9) || (m =? 11))%Z; lia.
Qed.
Opaque add_years.

Lemma years_later_eq : forall n t t', years_later n t t' -> t' = add_years n t.
Proof.
  intros n t t' (y & m & d & tod & V & R & Et & Et').
  destruct (years_later_spec n t) as (y2 & m2 & d2 & tod2 & V2 & R2 & E2 & E2').
  rewrite E2', Et'.
  assert (day_of_civil (mkdate y m d) = day_of_civil (mkdate y2 m2 d2) /\ tod = tod2) as [Ed ->].
  { pose proof ns_day_pos as P. rewrite E2 in Et.
    set (a := day_of_civil (mkdate y m d)) in *. set (b := day_of_civil (mkdate y2 m2 d2)) in *.
    clearbody a b. apply (Z.div_mod_unique ns_day); [left; exact R | left; exact R2 |]. lia. }
  assert (mkdate y m d = mkdate y2 m2 d2) as E.
  { rewrite <- (civil_of_day_inv _ V), <- (civil_of_day_inv _ V2), Ed. reflexivity. }
  injection E as -> -> ->. reflexivity.
Qed.

Lemma earliest_first : forall s, s <> [] -> is_first s (earliest s).
Proof.
  intros s Hs. unfold earliest. pose proof (sort_index_sorted s) as S.
  destruct (sort_index s) as [| r l] eqn:E.
  - exfalso. apply Hs. apply (isort_nil_iff row_le). exact E.
  - split.
    + unfold times. apply in_map. apply sort_index_In. rewrite E. left. reflexivity.
    + intros t Ht. unfold times in Ht. apply in_map_iff in Ht. destruct Ht as (x & <- & Hx).
      apply sort_index_In in Hx. rewrite E in Hx.
      apply StronglySorted_inv in S. destruct S as [_ S]. rewrite Forall_forall in S.
      destruct Hx as [-> | Hx]; [lia | apply S, Hx].
Qed.

Lemma last_In : forall A (l : list A) d, l <> [] -> In (List.last l d) l.
Proof.
  intros A l d H. rewrite (app_removelast_last d H) at 2. apply in_or_app. right. left. reflexivity.
Qed.

Lemma latest_last : forall s, s <> [] -> is_last s (latest s).
Proof.
  intros s Hs. unfold latest. pose proof (sort_index_sorted s) as S.
  destruct (sort_index s) as [| r l] eqn:E.
  - exfalso. apply Hs. apply (isort_nil_iff row_le). exact E.
  - set (q := List.last (r :: l) (fst r, NaN)).
    assert (In q (r :: l)) as Hq by (apply last_In; discriminate).
    split.
    + unfold times. apply in_map. apply sort_index_In. rewrite E. exact Hq.
    + intros t Ht. unfold times in Ht. apply in_map_iff in Ht. destruct Ht as (x & <- & Hx).
      apply sort_index_In in Hx. rewrite E in Hx.
      assert (r :: l = removelast (r :: l) ++ [q]) as EL by (apply app_removelast_last; discriminate).
      rewrite EL in S, Hx. apply in_app_or in Hx. destruct Hx as [Hx | [<- | []]]; [| lia].
      clear - S Hx. induction (removelast (r :: l)) as [| a l' IH]; [destruct Hx |].
      cbn in S. apply StronglySorted_inv in S. destruct S as [S Sa].
      destruct Hx as [-> | Hx]; [| apply IH; assumption].
      rewrite Forall_forall in Sa. apply Sa. apply in_or_app. right. left. reflexivity.
Qed.

Lemma first_unique : forall s a b, is_first s a -> is_first s b -> a = b.
Proof. intros s a b [H1 H2] [H3 H4]. specialize (H2 _ H3). specialize (H4 _ H1). lia. Qed.
Lemma last_unique : forall s a b, is_last s a -> is_last s b -> a = b.
Proof. intros s a b [H1 H2] [H3 H4]. specialize (H2 _ H3). specialize (H4 _ H1). lia. Qed.


Lemma sorted_times_unique : forall s ts, Permutation (times s) ts -> Sorted Z.lt ts ->
  ts = times (sort_index s).
Proof.
  intros s ts HP HS.
  apply (sorted_perm_eq Z.leb) with (l2 := times (sort_index s)).
  - intros x y _ _ H1 H2. lia.
  - apply Sorted_StronglySorted in HS; [| intros a b c; lia].
    induction HS as [| a l Hl IH Ha]; constructor.
    + clear - Hl. induction Hl as [| a l Hl IH Ha]; constructor; auto.
      eapply Forall_impl; [| exact Ha]. intros b Hb. apply Z.leb_le. lia.
    + eapply Forall_impl; [| exact Ha]. intros b Hb. apply Z.leb_le. lia.
  - pose proof (sort_index_sorted s) as S. unfold times.
    induction S as [| a l Hl IH Ha]; cbn; constructor; auto.
    apply Forall_forall. intros y Hy. apply in_map_iff in Hy. destruct Hy as (b & <- & Hb).
    rewrite Forall_forall in Ha. specialize (Ha b Hb). apply Z.leb_le. lia.
  - rewrite <- HP. unfold times. apply Permutation_map. apply isort_perm.
Qed.

Lemma sorted_times_exists : forall s, NoDup (times s) ->
  Permutation (times s) (times (sort_index s)) /\ Sorted Z.lt (times (sort_index s)).
Proof.
  intros s HN. split; [unfold times; apply Permutation_map, isort_perm |].
  apply StronglySorted_Sorted. pose proof (sort_index_sorted s) as S.
  pose proof (sort_index_nodup s HN) as N. unfold times in *.
  induction S as [| a l Hl IH Ha]; cbn in *; constructor; inversion N; subst; auto.
  apply Forall_forall. intros y Hy. apply in_map_iff in Hy. destruct Hy as (b & <- & Hb).
  rewrite Forall_forall in Ha. specialize (Ha b Hb).
  assert (fst a <> fst b); [| lia]. intro E. apply H1. rewrite E. apply in_map, Hb.
Qed.

Lemma gaps_diffs : forall l, neighbour_gaps l = map qz (diffs l).
Proof.
  induction l as [| x l IH]; [reflexivity |].
  destruct l as [| y l]; [reflexivity |]. cbn [neighbour_gaps diffs map] in *. rewrite IH. reflexivity.
Qed.

Lemma span_short_iff : forall infer s, s <> [] -> NoDup (times s) ->
  (span_short infer s <->
   too_short infer (times (sort_index s)) (earliest s) (latest s) = true).
Proof.
  intros infer s Hs HN. unfold too_short. split.
  - intros (ts & f & l & f2 & HP & HS & Hf & Hl & Hy & H).
    pose proof (sorted_times_unique s ts HP HS) as ->.
    rewrite (first_unique s _ _ Hf (earliest_first s Hs)) in *.
    rewrite (last_unique s _ _ Hl (latest_last s Hs)) in *.
    apply years_later_eq in Hy. subst f2.
    destruct (infer (times (sort_index s))) as [step |]; [lia |].
    destruct H as (M & Hne & HM & Hlt).
    apply is_median_unique in HM; [| exact Hne]. subst M.
    rewrite gaps_diffs in *. destruct (diffs (times (sort_index s))) as [| d ds]; [exfalso; apply Hne; reflexivity |].
    apply qlt_spec. exact Hlt.
  - intros H. destruct (sorted_times_exists s HN) as [HP HS].
    exists (times (sort_index s)), (earliest s), (latest s), (add_years 2 (earliest s)).
    split; [exact HP |]. split; [exact HS |]. split; [apply earliest_first, Hs |].
    split; [apply latest_last, Hs |]. split; [apply years_later_spec |].
    destruct (infer (times (sort_index s))) as [step |]; [lia |].
    destruct (diffs (times (sort_index s))) as [| d ds] eqn:E; [discriminate |].
    exists (qmedian (map qz (d :: ds))). rewrite gaps_diffs, E.
    split; [discriminate |]. split; [apply qmedian_spec; discriminate |].
    apply qlt_spec in H. exact H.
Qed.

(** Some reported pair exists. *)
Definition has_value (rho : fl) (input : series) : Prop :=
  exists dt e r, In (dt, e) input /\ is_partner input dt r /\ pair_value rho dt e r <> NaN.

Lemma yoy_short_raises : forall infer sortv choice starts rc ep cl m input,
  input <> [] -> NoDup (times input) -> span_short infer input ->
  degradation_year_on_year infer sortv choice starts rc ep cl m input = Raise ValueError.
Proof.
  intros infer sortv choice starts rc ep cl m input Hs HN H.
  unfold degradation_year_on_year. rewrite core_eq.
  apply (span_short_iff infer input Hs HN) in H. rewrite H. destruct input; [congruence | reflexivity].
Qed.

Lemma yoy_no_pair_raises : forall infer sortv choice starts rc ep cl m input,
  sorts_by_shifted sortv -> input <> [] ->
  (forall dt e r, In (dt, e) input -> is_partner input dt r -> e = NaN \/ snd r = NaN) ->
  degradation_year_on_year infer sortv choice starts rc ep cl m input = Raise ValueError.
Proof.
  intros infer sortv choice starts rc ep cl m input HS Hs H.
  unfold degradation_year_on_year. rewrite core_eq.
  destruct input as [| r0 input]; [congruence |].
  destruct (too_short _ _ _ _); [reflexivity |].
  unfold circular_guard. 
  assert (yoy_result (merged sortv (rows_of rc (r0 :: input))) = []) as E.
  { destruct (yoy_result _) as [| [dt v] l] eqn:E; [reflexivity | exfalso].
    assert (In (dt, v) (yoy_result (merged sortv (rows_of rc (r0 :: input))))) as Hv
      by (rewrite E; left; reflexivity).
    apply values_pairs in Hv; [| exact HS].
    destruct Hv as [Hn (e & r & H1 & H2 & -> & _)]. apply Hn, pair_value_nan.
    apply (H dt e r H1 H2). }
  rewrite E. destruct m as [| L |]; [reflexivity | | reflexivity].
  destruct (infer _); [| reflexivity]. destruct (_ <? _)%Z; reflexivity.
Qed.

Lemma yoy_median : forall infer sortv choice starts rc ep cl m input o,
  degradation_year_on_year infer sortv choice starts rc ep cl m input = Ok o ->
  yo_values o <> [] /\
  forall qs, vals (yo_values o) = map Fin qs ->
    exists q, yo_rate o = Fin q /\ is_median qs q /\
      forall lo hi, is_min qs lo -> is_max qs hi -> lo <= q /\ q <= hi.
Proof.
  intros infer sortv choice starts rc ep cl m input o H.
  destruct (full_core _ _ _ _ _ _ _ _ _ _ H) as (o' & rows & HC & E1 & E2 & _).
  destruct (core_Ok _ _ _ _ _ _ _ HC) as (_ & _ & _ & _ & _ & _ & Hne & ERt & _).
  rewrite E1, E2, ERt. split; [exact Hne |]. intros qs Hq. rewrite Hq.
  assert (qs <> []) as Hqs.
  { intros ->. destruct (yo_values o'); [congruence | discriminate]. }
  exists (qmedian qs). rewrite fmedian_noinf.
  - rewrite finvals_map_Fin. split; [reflexivity |]. split; [apply qmedian_spec, Hqs |].
    intros lo hi [_ Hlo] [_ Hhi]. apply qmedian_bounds; auto.
  - apply noinf_map_Fin.
  - rewrite finvals_map_Fin. exact Hqs.
Qed.

(** Without uncertainty and recentering the function succeeds exactly when the span is
    long enough and some pair has both energies; otherwise it raises ValueError. *)
Lemma yoy_ok_iff : forall infer sortv choice starts ep cl input,
  sorts_by_shifted sortv -> input <> [] -> NoDup (times input) -> no_clash input ->
  (forall t e, In (t, e) input -> e = NaN \/ exists q, e = Fin q) ->
  ((exists o, degradation_year_on_year infer sortv choice starts false ep cl NoUncertainty input = Ok o) <->
   ~ span_short infer input /\
   exists dt e r, In (dt, e) input /\ is_partner input dt r /\ e <> NaN /\ snd r <> NaN) /\
  ((forall o, degradation_year_on_year infer sortv choice starts false ep cl NoUncertainty input <> Ok o) ->
   degradation_year_on_year infer sortv choice starts false ep cl NoUncertainty input = Raise ValueError).
Proof.
  intros infer sortv choice starts ep cl input HS Hs HN HC HF.
  unfold degradation_year_on_year. rewrite core_eq.
  pose proof (span_short_iff infer input Hs HN) as SS.
  destruct input as [| r0 inp]; [congruence |]. set (input := r0 :: inp) in *. cbv iota.
  destruct (too_short _ _ _ _) eqn:TS.
  - split; [| reflexivity]. split.
    + intros [o Ho]. discriminate.
    + intros [Hn _]. exfalso. apply Hn, SS. reflexivity.
  - cbn [circular_guard bind].
    destruct (yoy_result (merged sortv (rows_of false input))) as [| p l] eqn:EV.
    + split; [| reflexivity]. split; [intros [o Ho]; discriminate |].
      intros [_ (dt & e & [t er] & H1 & H2 & H3 & H4)]. exfalso. cbn [snd] in H4.
      assert (exists r, is_partner input dt r /\
              asof_match (sortv (rows_of false input)) dt = Some (fst r, fdiv (snd r) (renorm_of false input)) /\
              In (dt, pair_value (renorm_of false input) dt e r)
                 (yoy_result (merged sortv (rows_of false input)))) as (r & _ & _ & Hr).
      { apply pairs_values; [exact HS | exact H1 | |].
        - exists t, er. destruct H2 as [Hin (t' & Hy & Ha & Hb & _)]. split; [exact Hin |].
          exists t'. auto.
        - intros r Hr. 
          assert (r = (t, er)) as ->.
          { apply (nodup_fst_inj input); [exact HN | apply Hr | apply H2 |].
            pose proof H2 as [Hi2 (t2 & Hy2 & Ha2 & Hb2 & Hc2)].
            pose proof Hr as [Hi1 (t1 & Hy1 & Ha1 & Hb1 & Hc1)].
            apply (HC _ _ t1 Hi1 Hi2 Hy1).
            replace t1 with t2; [exact Hy2 |].
            pose proof (Hc1 _ _ Hi2 Hy2 Ha2). pose proof (Hc2 _ _ Hi1 Hy1 Ha1). lia. }
          destruct (HF _ _ H1) as [| [q ->]]; [contradiction |].
          destruct (HF t er) as [| [q' ->]]; [apply H2 | contradiction |].
          change (renorm_of false input) with (Fin 1).
          rewrite pair_value_fin.
          + discriminate.
          + discriminate.
          + apply (partner_elapsed input dt _ H2). }
      rewrite EV in Hr. exact Hr.
    + split; [| intros Hn; exfalso; eapply Hn; reflexivity].
      split; [| intros _; eexists; reflexivity]. intros _. split; [intro K; apply SS in K; discriminate |].
      destruct p as [dt v].
      assert (In (dt, v) (yoy_result (merged sortv (rows_of false input)))) as Hv
        by (rewrite EV; left; reflexivity).
      apply values_pairs in Hv; [| exact HS].
      destruct Hv as [Hn (e & r & H1 & H2 & -> & _)]. exists dt, e, r.
      split; [exact H1 |]. split; [exact H2 |].
      split; intro K; apply Hn, pair_value_nan; auto.
Qed.

(** ** C07: usage of points *)

Lemma partner_unique : forall input dt r1 r2, no_clash input ->
  is_partner input dt r1 -> is_partner input dt r2 -> fst r1 = fst r2.
Proof.
  intros input dt r1 r2 HC [Hi1 (t1 & Hy1 & Ha1 & Hb1 & Hc1)] [Hi2 (t2 & Hy2 & Ha2 & Hb2 & Hc2)].
  apply (HC _ _ t1 Hi1 Hi2 Hy1). replace t1 with t2; [exact Hy2 |].
  pose proof (Hc1 _ _ Hi2 Hy2 Ha2). pose proof (Hc2 _ _ Hi1 Hy1 Ha1). lia.
Qed.

Lemma asof_iff : forall sortv rc input dt t, sorts_by_shifted sortv -> no_clash input ->
  ((exists w, asof_match (sortv (rows_of rc input)) dt = Some (t, w)) <->
   exists e, is_partner input dt (t, e)).
Proof.
  intros sortv rc input dt t HS HC. split.
  - intros [w H]. apply match_partner in H; [| exact HS]. destruct H as (e & H & _). eauto.
  - intros [e H]. 
    assert (asof_match (sortv (rows_of rc input)) dt <> None) as HM.
    { destruct H as [Hin (t' & Hy & Ha & Hb & _)].
      apply (reach_match sortv rc input HS dt t e Hin). exists t'. auto. }
    destruct (asof_match _ dt) as [[t1 w1] |] eqn:M; [| congruence].
    pose proof M as M'. apply match_partner in M'; [| exact HS]. destruct M' as (e1 & H1 & _).
    pose proof (partner_unique _ _ _ _ HC H H1) as E. cbn [fst] in E. subst t1. eauto.
Qed.

Lemma find_split : forall A (f : A -> bool) l r, find f l = Some r ->
  exists l1 l2, l = l1 ++ r :: l2 /\ f r = true /\ forall x, In x l1 -> f x = false.
Proof.
  intros A f l r. induction l as [| a l IH]; cbn; [discriminate |].
  destruct (f a) eqn:E.
  - intros H. injection H as <-. exists [], l. repeat split; auto. intros x [].
  - intros H. destruct (IH H) as (l1 & l2 & -> & H1 & H2). exists (a :: l1), l2.
    repeat split; auto. intros x [<- | Hx]; auto.
Qed.

Lemma merged_sorted : forall sortv rc input, NoDup (times input) ->
  StronglySorted (fun a b => (yr_dt a < yr_dt b)%Z) (merged sortv (rows_of rc input)).
Proof.
  intros sortv rc input HN. unfold merged, rows_of. rewrite map_map. cbn [fst snd].
  pose proof (sort_index_sorted input) as S. pose proof (sort_index_nodup input HN) as N.
  generalize (sortv (map (fun r => (fst r, fdiv (snd r) (renorm_of rc input))) (sort_index input))).
  intros right. induction S as [| a l Hl IH Ha]; [constructor |].
  unfold times in N. cbn in N. inversion N as [| ? ? Hna N' ]; subst. cbn [map].
  constructor; [apply IH; exact N' |].
  apply Forall_forall. intros y Hy. apply in_map_iff in Hy. destruct Hy as (b & <- & Hb).
  cbn [yr_dt]. rewrite Forall_forall in Ha. specialize (Ha b Hb).
  assert (fst a <> fst b); [| lia]. intro E. apply Hna. rewrite E. apply in_map. exact Hb.
Qed.

Lemma merged_In : forall sortv rc input dt, In dt (times input) ->
  exists w, In (mk_yoy_row dt w (asof_match (sortv (rows_of rc input)) dt)
                  (yoy_value dt w (asof_match (sortv (rows_of rc input)) dt)))
               (merged sortv (rows_of rc input)).
Proof.
  intros sortv rc input dt H. unfold times in H. apply in_map_iff in H. destruct H as ([t e] & <- & H).
  exists (fdiv e (renorm_of rc input)). unfold merged. apply in_map_iff.
  exists (t, fdiv e (renorm_of rc input)). split; [reflexivity |].
  apply rows_In; auto. exists e. auto.
Qed.

Lemma merged_time : forall sortv rc input r, In r (merged sortv (rows_of rc input)) ->
  In (yr_dt r) (times input) /\ yr_right r = asof_match (sortv (rows_of rc input)) (yr_dt r).
Proof.
  intros sortv rc input r H. unfold merged in H. apply in_map_iff in H.
  destruct H as ([t v] & <- & H). cbn [yr_dt yr_right fst]. split; [| reflexivity].
  apply rows_In in H. destruct H as (e & H & _). unfold times. 
  change t with (fst (t, e)). apply in_map, H.
Qed.

Lemma yoy_value_row : forall df dt, StronglySorted (fun a b => (yr_dt a < yr_dt b)%Z) df ->
  forall r, In r df -> yr_dt r = dt ->
  (notnan (yr_yoy r) = true <-> exists v, In (dt, v) (yoy_result df)).
Proof.
  intros df dt HS r Hr E. unfold yoy_result. split.
  - intros H. exists (yr_yoy r). apply filter_In. split; [| exact H].
    apply in_map_iff. exists r. rewrite E. auto.
  - intros [v H]. apply filter_In in H. destruct H as [H Hn].
    apply in_map_iff in H. destruct H as (r' & Ep & Hr'). injection Ep as E1 E2.
    assert (r' = r) as ->; [| rewrite E2; exact Hn].
    clear Hn. induction HS as [| a l Hl IH Ha]; [destruct Hr |].
    rewrite Forall_forall in Ha.
    destruct Hr as [-> | Hr], Hr' as [-> | Hr']; auto.
    + specialize (Ha _ Hr'). lia.
    + specialize (Ha _ Hr). lia.
Qed.

Definition matched (t : Z) (r : yoy_row) : bool :=
  match yr_right r with Some p => (fst p =? t)%Z | None => false end.

Lemma matched_iff : forall sortv rc input t r, sorts_by_shifted sortv -> no_clash input ->
  In r (merged sortv (rows_of rc input)) ->
  (matched t r = true <-> exists e, is_partner input (yr_dt r) (t, e)).
Proof.
  intros sortv rc input t r HS HC Hr. destruct (merged_time _ _ _ _ Hr) as [_ E].
  rewrite <- (asof_iff sortv rc input _ _ HS HC). unfold matched. rewrite E.
  destruct (asof_match _ (yr_dt r)) as [[t1 w] |]; cbn [fst].
  - split; [intros H; exists w; f_equal; f_equal; lia |]. intros [w' H]. injection H. lia.
  - split; [discriminate | intros [w H]; discriminate].
Qed.

Lemma right_used_iff : forall sortv rc input t, sorts_by_shifted sortv -> no_clash input ->
  NoDup (times input) ->
  (right_used (merged sortv (rows_of rc input)) t = Some true <->
   exists dt v, first_matched input t dt /\ In (dt, v) (yoy_result (merged sortv (rows_of rc input)))).
Proof.
  intros sortv rc input t HS HC HN. unfold right_used. fold (matched t).
  change (find (fun r => match yr_right r with Some p => (fst p =? t)%Z | None => false end))
    with (find (matched t)).
  set (df := merged sortv (rows_of rc input)) in *.
  pose proof (merged_sorted sortv rc input HN) as S. fold df in S.
  destruct (find (matched t) df) as [r |] eqn:F.
  - apply find_split in F. destruct F as (l1 & l2 & El & Hm & Hl1).
    assert (In r df) as Hr by (rewrite El; apply in_or_app; right; left; reflexivity).
    assert (first_matched input t (yr_dt r)) as FM.
    { split; [apply (merged_time _ _ _ _ Hr) |].
      split; [apply (matched_iff sortv rc input t r HS HC Hr), Hm |].
      intros dt' e Hdt' Hp. destruct (merged_In sortv rc input dt' Hdt') as [w Hw]. fold df in Hw.
      set (r' := mk_yoy_row _ _ _ _) in Hw.
      assert (matched t r' = true) as Hm'.
      { apply (matched_iff sortv rc input t r' HS HC Hw). exists e. exact Hp. }
      change dt' with (yr_dt r'). rewrite El in Hw, S. apply in_app_or in Hw.
      destruct Hw as [Hw | [<- | Hw]]; [rewrite (Hl1 _ Hw) in Hm'; discriminate | lia |].
      clear - S Hw. induction l1 as [| a l1 IH]; cbn in S; apply StronglySorted_inv in S; destruct S as [S Sa].
      - rewrite Forall_forall in Sa. specialize (Sa _ Hw). lia.
      - apply IH, S. }
    split.
    + intros H. injection H as H.
      destruct (proj1 (yoy_value_row df (yr_dt r) S r Hr eq_refl) H) as [v Hv]. eauto.
    + intros (dt & v & FM' & Hv).
      assert (dt = yr_dt r) as ->.
      { destruct FM as (I1 & [e1 P1] & M1), FM' as (I2 & [e2 P2] & M2).
        specialize (M1 _ _ I2 P2). specialize (M2 _ _ I1 P1). lia. }
      f_equal. apply (yoy_value_row df (yr_dt r) S r Hr eq_refl). eauto.
  - split; [discriminate |]. intros (dt & v & (I & [e P] & _) & _). exfalso.
    destruct (merged_In sortv rc input dt I) as [w Hw]. fold df in Hw.
    pose proof (find_none _ _ F _ Hw) as K.
    assert (matched t (mk_yoy_row dt w (asof_match (sortv (rows_of rc input)) dt)
                  (yoy_value dt w (asof_match (sortv (rows_of rc input)) dt))) = true) as K'.
    { apply (matched_iff sortv rc input t _ HS HC Hw). exists e. exact P. }
    rewrite K' in K. discriminate.
Qed.

Lemma yoy_usage : forall infer sortv choice starts rc ep cl m input o,
  sorts_by_shifted sortv -> no_clash input -> NoDup (times input) ->
  degradation_year_on_year infer sortv choice starts rc ep cl m input = Ok o ->
  Permutation (times input) (map fst (yo_usage o)) /\ Sorted Z.lt (map fst (yo_usage o)) /\
  forall t u, In (t, u) (yo_usage o) ->
    exists b c, u = (b + c)%Z /\ (b = 0 \/ b = 1)%Z /\ (c = 0 \/ c = 1)%Z /\
      (b = 1%Z <-> ends_pair (yo_values o) t) /\
      (c = 1%Z <-> exists dt, first_matched input t dt /\ ends_pair (yo_values o) dt).
Proof.
  intros infer sortv choice starts rc ep cl m input o HS HC HN H.
  destruct (full_core _ _ _ _ _ _ _ _ _ _ H) as (o' & rows & HCo & _ & E2 & _ & E4).
  destruct (core_Ok _ _ _ _ _ _ _ HCo) as (_ & _ & _ & -> & _ & EV & _ & _ & EU).
  rewrite E2, E4, EV, EU. clear E2 E4 EV EU HCo o' H o.
  assert (map fst (usage_of_points (merged sortv (rows_of rc input))) = times (sort_index input)) as ET.
  { unfold usage_of_points. rewrite map_map. unfold merged, rows_of. rewrite !map_map. reflexivity. }
  rewrite ET. destruct (sorted_times_exists input HN) as [A B]. split; [exact A |]. split; [exact B |].
  intros t u Hu. unfold usage_of_points in Hu. apply in_map_iff in Hu. destruct Hu as (r & E & Hr).
  injection E as <- <-.
  set (df := merged sortv (rows_of rc input)) in *.
  exists (b2z (notnan (yr_yoy r))), (match right_used df (yr_dt r) with Some b => b2z b | None => 0%Z end).
  split; [reflexivity |].
  split; [unfold b2z; destruct (notnan _); auto |].
  split; [destruct (right_used _ _) as [[|] |]; cbn; auto |].
  split.
  - rewrite <- (yoy_value_row df (yr_dt r) (merged_sorted sortv rc input HN) r Hr eq_refl).
    destruct (notnan _); cbn; split; auto; discriminate.
  - pose proof (right_used_iff sortv rc input (yr_dt r) HS HC HN) as RU. fold df in RU.
    assert ((exists dt, first_matched input (yr_dt r) dt /\ ends_pair (yoy_result df) dt) <->
            right_used df (yr_dt r) = Some true) as ->.
    { rewrite RU. unfold ends_pair. split.
      - intros (dt & F & v & Hv). eauto.
      - intros (dt & v & F & Hv). eauto. }
    destruct (right_used df (yr_dt r)) as [[|] |]; cbn; split; auto; discriminate.
Qed.

(** With every energy available the count is the documented one. *)
Lemma yoy_usage_documented : forall infer sortv choice starts rc ep cl m input o rho,
  sorts_by_shifted sortv -> no_clash input -> NoDup (times input) ->
  degradation_year_on_year infer sortv choice starts rc ep cl m input = Ok o ->
  (forall t e, In (t, e) input -> exists q, e = Fin q) -> yo_renorm o = Fin rho -> rho <> 0 ->
  forall t u, In (t, u) (yo_usage o) ->
    exists b c, u = (b + c)%Z /\ (b = 0 \/ b = 1)%Z /\ (c = 0 \/ c = 1)%Z /\
      (b = 1%Z <-> ends_pair (yo_values o) t) /\
      (c = 1%Z <-> starts_pair input (yo_values o) t).
Proof.
  intros infer sortv choice starts rc ep cl m input o rho HS HC HN H HF HR Hrho t u Hu.
  destruct (yoy_usage _ _ _ _ _ _ _ _ _ _ HS HC HN H) as (_ & _ & HU).
  destruct (HU t u Hu) as (b & c & E & Hb & Hc & Ib & Ic). exists b, c.
  split; [exact E |]. split; [exact Hb |]. split; [exact Hc |]. split; [exact Ib |].
  rewrite Ic. split.
  - intros (dt & (_ & [e P] & _) & v & Hv). exists dt, e, v. auto.
  - intros (dt & e & v & Hv & P).
    assert (exists d, first_matched input t d) as [d Hd].
    { set (cand := filter (fun d => match asof_match (sortv (rows_of rc input)) d with
                                    | Some p => (fst p =? t)%Z | None => false end) (times input)).
      assert (forall d, In d cand <-> In d (times input) /\ exists e, is_partner input d (t, e)) as CI.
      { intros d. unfold cand. rewrite filter_In. rewrite <- (asof_iff sortv rc input d t HS HC).
        destruct (asof_match _ d) as [[t1 w] |]; cbn [fst].
        - split; intros [A B]; split; auto; [exists w; f_equal; f_equal; lia |].
          destruct B as [w' B]. injection B. lia.
        - split; intros [A B]; split; auto; [discriminate | destruct B; discriminate]. }
      assert (In dt cand) as Hdt.
      { apply CI. split; [| eauto].
        destruct (yoy_values_sound _ _ _ _ _ _ _ _ _ _ HS H dt v Hv) as [_ (e' & r & Hin & _)].
        unfold times. change dt with (fst (dt, e')). apply in_map, Hin. }
      clearbody cand. 
      assert (exists d, In d cand /\ forall x, In x cand -> (d <= x)%Z) as (d & D1 & D2).
      { clear - Hdt. revert dt Hdt. induction cand as [| a l IH]; intros dt Hdt; [destruct Hdt |].
        destruct l as [| a2 l2].
        - exists a. split; [left; reflexivity |]. intros x [<- | []]. lia.
        - destruct (IH a2 (or_introl eq_refl)) as (d & D1 & D2).
          destruct (Z.le_gt_cases a d).
          + exists a. split; [left; reflexivity |]. intros x [<- | Hx]; [lia |]. specialize (D2 _ Hx). lia.
          + exists d. split; [right; exact D1 |]. intros x [<- | Hx]; [lia |]. auto. }
      exists d. apply CI in D1. destruct D1 as [D1 D1']. split; [exact D1 |]. split; [exact D1' |].
      intros dt' e' I' P'. apply D2, CI. eauto. }
    exists d. split; [exact Hd |]. destruct Hd as (I1 & [e1 P1] & _).
    unfold times in I1. apply in_map_iff in I1. destruct I1 as ([d' e'] & Ed & I1). cbn in Ed. subst d'.
    destruct (yoy_values_complete _ _ _ _ _ _ _ _ _ _ HS H d e' I1) as (r & _ & Hr).
    + destruct P1 as [Pin (t' & Hy & Ha & Hb' & _)]. exists t, e1. split; [exact Pin |]. exists t'. auto.
    + intros r Pr. destruct r as [tr er]. destruct (HF _ _ I1) as [q ->].
      destruct (HF tr er) as [q' ->]; [apply Pr |]. rewrite HR. rewrite pair_value_fin.
      * discriminate.
      * exact Hrho.
      * apply (partner_elapsed input d _ Pr).
    + eexists. exact Hr.
Qed.
