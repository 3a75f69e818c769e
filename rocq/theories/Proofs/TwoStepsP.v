(** Aggregating in two steps. *)

From Coq Require Import QArith Qcanon List ZArith Bool Sorted Lia.
From Verif.Base Require Import QcExtra ISort Quantile Fl TimeSeries Calendar Rolling Segments.
From Verif.Spec Require Import Stats Interp Energy Filters Normalization.
From Verif.Model Require Import Interpolation Energy Filters Normalization.
From Verif.Proofs Require Import StatsP FlP InterpP EnergyP EnergyP2 EnergyP6 FiltersP NormP NormP2 NormP3 NormP4 TrendP7.
Import ListNotations.
Open Scope Qc_scope.

Lemma bin_start_in : forall o w t, (0 < w)%Z -> (bin_start o w t <= t < bin_start o w t + w)%Z.
Proof. intros o w t W. unfold bin_start. pose proof (Z.div_mod (t - o) w ltac:(lia)). pose proof (Z.mod_pos_bound (t - o) w W). lia. Qed.
Lemma start_day_in : forall t, (start_day t <= t < start_day t + ns_day)%Z.
Proof. intros t. unfold start_day. pose proof ns_day_pos. pose proof (Z.div_mod t ns_day ltac:(lia)). pose proof (Z.mod_pos_bound t ns_day ltac:(lia)). lia. Qed.
(** The first bin starts on the day of the first row. *)
Lemma first_bin_day : forall w t, (0 < w)%Z -> start_day (bin_start (start_day t) w t) = start_day t.
Proof.
  intros w t W. pose proof (start_day_in t) as D. pose proof (bin_start_in (start_day t) w t W) as B.
  assert (0 <= (t - start_day t) / w)%Z by (apply Z.div_pos; lia). assert (start_day t <= bin_start (start_day t) w t)%Z by (unfold bin_start; nia).
  remember (bin_start (start_day t) w t) as b eqn:Eb. clear Eb. unfold start_day in *. f_equal. symmetry. apply (Z.div_unique _ _ _ (b - ns_day * (t / ns_day))%Z); [left |]; lia.
Qed.
(** A coarse bin contains the start of a fine one exactly if it contains its times. *)
Lemma fine_inside : forall o w k b j c t, (0 < w)%Z -> (0 < k)%Z -> b = (o + w * k * j)%Z -> c = bin_start o w t -> inside b (w * k) c = inside b (w * k) t.
Proof.
  intros o w k b j c t W K -> ->. unfold inside, bin_start. pose proof (Z.div_mod (t - o) w ltac:(lia)) as E. pose proof (Z.mod_pos_bound (t - o) w W) as B.
  set (d := ((t - o) / w)%Z) in *. clearbody d. set (r := ((t - o) mod w)%Z) in *. clearbody r. assert (t = o + w * d + r)%Z as -> by lia. clear E.
  assert (forall p, (o + w * p <=? o + w * d)%Z = (o + w * p <=? o + w * d + r)%Z) as A.
  { intros p. destruct (Z.leb_spec p d).
    - destruct (Z.leb_spec (o + w * p) (o + w * d)); [| nia]. symmetry. apply Z.leb_le. lia.
    - assert (w * (d + 1) <= w * p)%Z by (apply Z.mul_le_mono_nonneg_l; lia). destruct (Z.leb_spec (o + w * p) (o + w * d)); [nia |]. symmetry. apply Z.leb_gt. lia. }
  replace (o + w * k * j)%Z with (o + w * (k * j))%Z by ring. replace (o + w * (k * j) + w * k)%Z with (o + w * (k * j + k))%Z by ring. rewrite (A (k * j)%Z). f_equal. rewrite !Z.ltb_antisym. f_equal. apply A.
Qed.
Lemma coarse_start : forall o w k t, (0 < w)%Z -> (0 < k)%Z -> bin_start o (w * k) (bin_start o w t) = bin_start o (w * k) t.
Proof.
  intros o w k t W K. unfold bin_start. replace (o + w * ((t - o) / w) - o)%Z with (w * ((t - o) / w))%Z by ring. rewrite Z.div_mul_cancel_l by lia. rewrite Z.div_div by lia. reflexivity.
Qed.
Lemma start_in : forall first w last t, (0 < w)%Z -> (first <= t <= last)%Z -> In (bin_start (start_day first) w t) (bin_starts first w last).
Proof.
  intros first w last t W H. unfold bin_starts. cbv zeta. apply in_map_iff. set (o := start_day first).
  assert ((first - o) / w <= (t - o) / w)%Z by (apply Z.div_le_mono; lia).
  exists (Z.to_nat ((t - o) / w - (first - o) / w)). split; [unfold bin_start; rewrite Z2Nat.id by lia; ring |].
  apply in_seq. split; [lia |]. assert ((t - o) / w - (first - o) / w <= (last - bin_start o w first) / w)%Z; [| lia].
  apply Z.div_le_lower_bound; [exact W |]. pose proof (bin_start_in o w t W). unfold bin_start in *. nia.
Qed.
Lemma starts_of : forall first w last b, In b (bin_starts first w last) -> exists j, b = (start_day first + w * j)%Z.
Proof. intros first w last b I. unfold bin_starts in I. cbv zeta in I. apply in_map_iff in I. destruct I as (k & <- & _). unfold bin_start. exists ((first - start_day first) / w + Z.of_nat k)%Z. ring. Qed.
Lemma starts_nodup : forall first w last, (0 < w)%Z -> NoDup (bin_starts first w last).
Proof. intros first w last W. unfold bin_starts. cbv zeta. apply FinFun.Injective_map_NoDup; [| apply seq_NoDup]. intros i j E. nia. Qed.

(** The last fine bin. *)
Definition last_bin (first w last : Z) : Z := bin_start (start_day first) w last.
Lemma starts_ends : forall first w last, (0 < w)%Z -> (first <= last)%Z -> exists l l', bin_starts first w last = bin_start (start_day first) w first :: l /\ bin_starts first w last = l' ++ [last_bin first w last].
Proof.
  intros first w last W H. unfold bin_starts. cbv zeta. set (n := Z.to_nat _). exists (map (fun k => (bin_start (start_day first) w first + w * Z.of_nat k)%Z) (seq 1 n)), (map (fun k => (bin_start (start_day first) w first + w * Z.of_nat k)%Z) (seq 0 n)). split.
  - cbn [seq map]. f_equal. ring.
  - rewrite seq_S, map_app. cbn [map plus]. f_equal. f_equal. unfold n, last_bin. set (o := start_day first).
    assert ((last - bin_start o w first) / w = (last - o) / w - (first - o) / w)%Z as ->.
    { unfold bin_start. replace (last - (o + w * ((first - o) / w)))%Z with (last - o + (- ((first - o) / w)) * w)%Z by ring. rewrite Z.div_add by lia. ring. }
    assert ((first - o) / w <= (last - o) / w)%Z by (apply Z.div_le_mono; lia). rewrite Z2Nat.id by lia. unfold bin_start. ring.
Qed.
Lemma starts_coarse : forall first w k last, (0 < w)%Z -> (0 < k)%Z -> bin_starts (bin_start (start_day first) w first) (w * k) (last_bin first w last) = bin_starts first (w * k) last.
Proof.
  intros first w k last W K. unfold bin_starts, last_bin. cbv zeta. rewrite first_bin_day by exact W. rewrite coarse_start by assumption. set (o := start_day first).
  f_equal. f_equal. f_equal. f_equal. unfold bin_start. set (a := ((first - o) / (w * k))%Z).
  replace (o + w * ((last - o) / w) - (o + w * k * a))%Z with (w * ((last - o) / w - k * a))%Z by ring. rewrite Z.div_mul_cancel_l by lia.
  replace (last - (o + w * k * a))%Z with (last - o + (- a) * (w * k))%Z by ring. rewrite Z.div_add by lia.
  replace ((last - o) / w - k * a)%Z with ((last - o) / w + (- a) * k)%Z by ring. rewrite Z.div_add by lia. rewrite Z.div_div by lia. reflexivity.
Qed.

(** Sums over fine bins add up to the sums over coarse ones. *)
Lemma weight_sum : forall (s : series) first w k last b j, (0 < w)%Z -> (0 < k)%Z -> b = (start_day first + w * k * j)%Z ->
  (forall t, In t (times s) -> (first <= t <= last)%Z) ->
  qsum (map (fun c => if inside b (w * k) c then bin_weight c w s else 0) (bin_starts first w last)) = bin_weight b (w * k) s.
Proof.
  intros s first w k last b j W K Hb H. unfold bin_weight.
  rewrite (qsum_map_ext _ _ (fun c => qsum (map (fun r : Z * fl => if inside b (w * k) c then if inside c w (fst r) then present (snd r) else 0 else 0) s))).
  2:{ intros c _. destruct (inside b (w * k) c); [reflexivity | symmetry; apply qsum_map_zero; reflexivity]. }
  rewrite qsum_swap. apply qsum_map_ext. intros r R. assert (first <= fst r <= last)%Z as B by (apply H; apply in_map; exact R).
  rewrite (qsum_single _ _ _ (bin_start (start_day first) w (fst r))).
  - rewrite (fine_inside (start_day first) w k b j _ (fst r) W K Hb eq_refl). destruct (inside b (w * k) (fst r)); [| reflexivity].
    replace (inside (bin_start (start_day first) w (fst r)) w (fst r)) with true; [reflexivity |]. symmetry. apply inside_iff. apply bin_start_in. exact W.
  - apply starts_nodup. exact W.
  - apply start_in; assumption.
  - intros c C N. destruct (inside b (w * k) c); [| reflexivity]. destruct (starts_of _ _ _ _ C) as [i Ei]. rewrite <- (bin_start_spec (start_day first) w (fst r) c i W Ei).
    destruct (Z.eqb_spec (bin_start (start_day first) w (fst r)) c) as [E | _]; [congruence | reflexivity].
Qed.

Lemma resample_closed : forall s w first last, noinf (vals s) -> (0 < w)%Z -> (exists l, times s = first :: l) -> (exists l, times s = l ++ [last]) ->
  resample_day_sum s w = map (fun b => (b, Fin (bin_weight b w s))) (bin_starts first w last).
Proof.
  intros s w first last N W [l F] [l' L]. assert (fst (List.last s (first, NaN)) = last) as EL by (rewrite last_fst, L; apply last_last).
  destruct s as [| [t i] s]; [discriminate |]. assert (t = first) as -> by (cbn in F; congruence). rewrite resample_day_value by assumption. rewrite EL. reflexivity.
Qed.

Lemma bounds_of : forall (s : series) first last, sorted_index s -> (exists l, times s = first :: l) -> (exists l, times s = l ++ [last]) -> forall t, In t (times s) -> (first <= t <= last)%Z.
Proof.
  intros s first last S [l F] [l' L] t I. unfold sorted_index in S. split.
  - rewrite F in S, I. inversion S as [| x y S' A]; subst. rewrite Forall_forall in A. destruct I as [-> | I]; [lia | specialize (A t I); lia].
  - rewrite L in S, I. clear - S I. induction l' as [| x y IH]; [destruct I as [-> | []]; lia |]. cbn in S. inversion S as [| p q Sl A]; subst. rewrite Forall_forall in A.
    destruct I as [-> | I]; [| exact (IH Sl I)]. specialize (A last ltac:(apply in_or_app; right; left; reflexivity)). lia.
Qed.

Section Two.
Context (en ins : series) (w k : Z).
Hypothesis SAME : times en = times ins.
Hypothesis Ni : noinf (vals ins).
Hypothesis Ne : noinf (vals en).
Hypothesis W : (0 < w)%Z.
Hypothesis K : (0 < k)%Z.
Hypothesis SI : sorted_index ins.

Lemma no_rows : ins = [] -> en = [].
Proof. intros E. pose proof SAME as S. rewrite E in S. destruct en; [reflexivity | discriminate]. Qed.
Lemma some_rows : ins = [] \/ ins <> [].
Proof. destruct ins; [left; reflexivity | right; discriminate]. Qed.
Lemma ends : ins <> [] -> exists first last, (exists l, times ins = first :: l) /\ (exists l, times ins = l ++ [last]).
Proof.
  intros H. assert (times ins <> []) as H' by (destruct ins; [contradiction | discriminate]). destruct (exists_last H') as (l & x & E). destruct (times ins) as [| t r] eqn:T; [contradiction |].
  exists t, x. split; [exists r; reflexivity | exists l; exact E].
Qed.

Lemma times_mapb : forall (f : Z -> fl) l, times (map (fun b => (b, f b)) l) = l.
Proof. intros f l. unfold times. rewrite map_map. apply map_id. Qed.

Lemma resample_twice : resample_day_sum (resample_day_sum ins w) (w * k) = resample_day_sum ins (w * k).
Proof.
  destruct some_rows as [Z0 | Z0]; [rewrite Z0; reflexivity |]. destruct (ends Z0) as (first & last & F & L).
  assert (forall t, In t (times ins) -> (first <= t <= last)%Z) as B by (apply bounds_of; assumption).
  assert (first <= last)%Z as FL by (apply B; destruct F as [l F]; rewrite F; left; reflexivity).
  rewrite (resample_closed ins w first last Ni W F L). rewrite (resample_closed ins (w * k) first last Ni ltac:(nia) F L).
  destruct (starts_ends first w last W FL) as (l & l' & E1 & E2).
  rewrite (resample_closed _ (w * k) (bin_start (start_day first) w first) (last_bin first w last)).
  - rewrite starts_coarse by assumption. apply map_ext_in. intros b Hb. f_equal. apply (f_equal Fin). destruct (starts_of _ _ _ _ Hb) as [j Ej].
    rewrite <- (weight_sum ins first w k last b j W K Ej B). unfold bin_weight at 1. rewrite map_map. apply qsum_map_ext. intros c _. cbn [fst snd present]. reflexivity.
  - intros x X. unfold vals in X. rewrite map_map in X. apply in_map_iff in X. destruct X as (b & <- & _). split; discriminate.
  - nia.
  - rewrite times_mapb. exists l. exact E1.
  - rewrite times_mapb. exists l'. exact E2.
Qed.

Hypothesis POS : forall t q, In (t, Fin q) ins -> 0 <= q.

Lemma weightless : forall b, bin_weight b w ins = 0 -> bin_energy b w ins en = 0.
Proof.
  intros b H. assert (forall r, In r ins -> inside b w (fst r) = true -> present (snd r) = 0) as Z0.
  { assert (forall l : series, (forall r, In r l -> 0 <= (if inside b w (fst r) then present (snd r) else 0)) -> qsum (map (fun r => if inside b w (fst r) then present (snd r) else 0) l) = 0 ->
      forall r, In r l -> (if inside b w (fst r) then present (snd r) else 0) = 0) as A.
    { induction l as [| a l IH]; intros P Q r [].
      - subst a. cbn [map] in Q. rewrite qsum_cons in Q. assert (0 <= qsum (map (fun r => if inside b w (fst r) then present (snd r) else 0) l)) by (apply qsum_nonneg; apply Forall_forall; intros y Y; apply in_map_iff in Y; destruct Y as (z & <- & Hz); apply P; right; exact Hz).
        specialize (P r (or_introl eq_refl)). revert P Q H0. set (u := if inside b w (fst r) then _ else _). set (v := qsum _). intros. qlra.
      - cbn [map] in Q. rewrite qsum_cons in Q. assert (0 <= qsum (map (fun r => if inside b w (fst r) then present (snd r) else 0) l)) by (apply qsum_nonneg; apply Forall_forall; intros y Y; apply in_map_iff in Y; destruct Y as (z & <- & Hz); apply P; right; exact Hz).
        apply IH; [intros z Hz; apply P; right; exact Hz | | exact H0]. pose proof (P a (or_introl eq_refl)) as P0. revert P0 Q H1. set (u := if inside b w (fst a) then _ else _). set (v := qsum _). intros. qlra. }
    intros r R I. specialize (A ins). assert ((if inside b w (fst r) then present (snd r) else 0) = 0) as E.
    { apply A; [| exact H | exact R]. intros [t v] R'. destruct (inside b w (fst (t, v))); [| qlra]. cbn [snd]. destruct v; cbn [present]; try qlra. exact (POS _ _ R'). }
    rewrite I in E. exact E. }
  unfold bin_energy. apply qsum_map_zero. intros [r e] P. cbn [fst snd]. destruct (inside b w (fst r)) eqn:I; [| reflexivity]. rewrite (Z0 r (in_combine_l _ _ _ _ P) I). ring.
Qed.

Lemma aggregate_twice : aggregation_insol (aggregation_insol en ins w) (resample_day_sum ins w) (w * k) = aggregation_insol en ins (w * k).
Proof.
  destruct some_rows as [Z0 | Z0]; [rewrite (no_rows Z0), Z0; reflexivity |]. destruct (ends Z0) as (first & last & F & L).
  assert (forall t, In t (times ins) -> (first <= t <= last)%Z) as B by (apply bounds_of; assumption).
  assert (first <= last)%Z as FL by (apply B; destruct F as [l F]; rewrite F; left; reflexivity).
  rewrite (resample_closed ins w first last Ni W F L). rewrite (aggregation_closed en ins w first last SAME Ni Ne W F L). rewrite (aggregation_closed en ins (w * k) first last SAME Ni Ne ltac:(nia) F L).
  destruct (starts_ends first w last W FL) as (l & l' & E1 & E2).
  rewrite (aggregation_closed _ _ (w * k) (bin_start (start_day first) w first) (last_bin first w last)).
  - rewrite starts_coarse by assumption. apply map_ext_in. intros b Hb. f_equal. destruct (starts_of _ _ _ _ Hb) as [j Ej]. f_equal; apply (f_equal Fin).
    + destruct (bin_weight_product b (w * k) ins en SAME Ni Ne) as [NP <-]. assert (times (zip_aligned fmul ins en) = times ins) as TZ by (apply times_zip; symmetry; exact SAME).
      rewrite <- (weight_sum (zip_aligned fmul ins en) first w k last b j W K Ej) by (rewrite TZ; exact B).
      unfold bin_energy at 1. generalize (bin_starts first w last) as cs. induction cs as [| c cs IH]; [reflexivity |]. cbn [map combine]. rewrite !qsum_cons, IH. f_equal. cbn [fst snd].
      destruct (inside b (w * k) c); [| reflexivity]. rewrite (proj2 (bin_weight_product c w ins en SAME Ni Ne)). cbn [present].
      destruct (Qc_eq_dec (bin_weight c w ins) 0) as [Z1 | NZ].
      * rewrite (weightless c Z1), Z1. ring.
      * unfold fdiv. destruct (qeq (bin_weight c w ins) 0) eqn:Q; [apply qeq_spec in Q; contradiction |]. cbn [present]. field. exact NZ.
    + rewrite <- (weight_sum ins first w k last b j W K Ej B). unfold bin_weight at 1. rewrite map_map. reflexivity.
  - rewrite !times_mapb. reflexivity.
  - intros x X. unfold vals in X. rewrite map_map in X. apply in_map_iff in X. destruct X as (b & <- & _). split; discriminate.
  - intros x X. unfold vals in X. rewrite map_map in X. apply in_map_iff in X. destruct X as (b & <- & _). cbn [snd]. unfold fdiv. destruct (qeq (bin_weight b w ins) 0) eqn:Q; [| split; discriminate].
    apply qeq_spec in Q. rewrite (weightless b Q). split; discriminate.
  - nia.
  - rewrite times_mapb. exists l. exact E1.
  - rewrite times_mapb. exists l'. exact E2.
Qed.
End Two.
