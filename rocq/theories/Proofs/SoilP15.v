(** The soiling analysis in other units and at another time. *)

From Coq Require Import QArith Qcanon List ZArith Bool Arith Lia String.
From Verif.Base Require Import QcExtra ISort Quantile Fl TimeSeries Calendar Rolling.
From Verif.Model Require Import Soiling SoilingSummary.
From Verif.Spec Require Import SoilingUnits.
From Verif.Proofs Require Import FlP FiltersP2.
Import ListNotations.
Open Scope list_scope.
Open Scope Qc_scope.

Lemma outcome_bind : forall A B C D (x : result A) (x' : result B) (g : A -> B) (h : C -> D) (f : A -> result C) (f' : B -> result D),
  x' = outcome g x -> (forall a, x = Ok a -> f' (g a) = outcome h (f a)) -> bind x' f' = outcome h (bind x f).
Proof. intros A B C D x x' g h f f' -> H. destruct x as [a|e]; cbn; [now apply H|reflexivity]. Qed.

Section Units.
Variable c : Z.
Variable ki : Qc.
Hypothesis Hi : 0 < ki.

(** ** Dates *)
Lemma daily_moved : forall l t, daily_from (t + c) (map (fun u => u + c)%Z l) = daily_from t l.
Proof.
  induction l as [|u l IH]; intros t; cbn; [reflexivity|]. rewrite IH. f_equal.
  destruct (Z.eqb_spec u (t + ns_day)); destruct (Z.eqb_spec (u + c) (t + c + ns_day)); lia || reflexivity.
Qed.
Lemma inferred_moved : forall l, inferred_daily (map (fun u => u + c)%Z l) = inferred_daily l.
Proof. intros l. unfold inferred_daily. rewrite map_length. destruct l as [|t l]; [reflexivity|]. cbn [map]. now rewrite daily_moved. Qed.
Lemma times_rewritten : forall k s, times (rewritten k c s) = map (fun u => u + c)%Z (times s).
Proof. intros k s. unfold times, rewritten. now rewrite !map_map. Qed.
Lemma vals_rewritten : forall k s, vals (rewritten k c s) = map (fscale k) (vals s).
Proof. intros k s. unfold vals, rewritten. now rewrite !map_map. Qed.
Lemma lookup_rewritten : forall k s t, 0 < k -> lookup (rewritten k c s) (t + c)%Z = fscale k (lookup s t).
Proof.
  intros k s t Hk. unfold lookup, rewritten. induction s as [|[u v] s IH]; [cbn; reflexivity|]. cbn [map find fst snd].
  replace (u + c =? t + c)%Z with (u =? t)%Z by (destruct (Z.eqb_spec u t); destruct (Z.eqb_spec (u + c) (t + c)); lia || reflexivity).
  destruct (u =? t)%Z; [reflexivity|exact IH].
Qed.
Lemma joined_rewritten : forall k s l, 0 < k -> joined (rewritten k c s) (map (fun u => u + c)%Z l) = map (fscale k) (joined s l).
Proof. intros k s l Hk. unfold joined. rewrite !map_map. apply map_ext. intros t. now apply lookup_rewritten. Qed.

Lemma drop_rewritten : forall k s, 0 < k -> drop_missing (rewritten k c s) = rewritten k c (drop_missing s).
Proof.
  intros k s Hk. induction s as [|[t v] s IH]; [reflexivity|]. cbn [rewritten map drop_missing fst snd]. change (in_unit_of k v) with (fscale k v).
  rewrite (isnan_fscale k Hk). destruct (isnan v); [exact IH|reflexivity].
Qed.
Lemma valid_rewritten : forall k s, 0 < k -> valid_part (rewritten k c s) = rewritten k c (valid_part s).
Proof. intros k s Hk. unfold valid_part. rewrite (drop_rewritten k s Hk). unfold rewritten. rewrite <- map_rev. fold (rewritten k c (rev (drop_missing s))). rewrite (drop_rewritten k _ Hk). unfold rewritten. now rewrite <- map_rev. Qed.
Lemma renorm_rewritten : forall k rec s, 0 < k -> rec = true \/ k = 1 -> renorm_factor rec (rewritten k c s) = fscale k (renorm_factor rec s).
Proof.
  intros k rec s Hk Hr. destruct s as [|[t v] s]; [reflexivity|]. unfold renorm_factor at 2. 
  change (rewritten k c ((t, v) :: s)) with (((t + c)%Z, fscale k v) :: rewritten k c s). unfold renorm_factor.
  destruct rec.
  - rewrite <- (fmedian_fscale k Hk). f_equal.
    change (((t + c)%Z, fscale k v) :: rewritten k c s) with (rewritten k c ((t, v) :: s)). unfold rewritten. rewrite filter_map_comm.
    unfold vals. rewrite !map_map. cbn [fst snd].
    rewrite (filter_ext _ (fun r => (fst r <=? t + 364 * ns_day)%Z)); [reflexivity|]. intros r.
    destruct (Z.leb_spec (fst r) (t + 364 * ns_day)); destruct (Z.leb_spec (fst r + c) (t + c + 364 * ns_day)); lia || reflexivity.
  - destruct Hr as [H| ->]; [discriminate|]. unfold fz. rewrite fscale_Fin. f_equal; try ring.
Qed.

(** ** Daily table *)
Definition day_later (d : day_row) : day_row :=
  DayRow (d_date d + c) (d_day d) (fscale ki (d_insol d)) (d_pi_norm d) (d_delta d) (d_event d) (d_run d).

Lemma medians_moved : forall k index l, List.length index = List.length l ->
  roll_medians k (map (fun u => u + c)%Z index) l = roll_medians k index l.
Proof.
  intros k index l HL. unfold roll_medians, vals, rolling_median.
  assert (E : combine (map (fun u => u + c)%Z index) (ffill_limit k l) = map (fun r => ((fst r + c)%Z, snd r)) (combine index (ffill_limit k l))).
  { generalize (ffill_limit k l). induction index as [|t index IH]; intros m; [reflexivity|]. destruct m as [|x m]; [reflexivity|]. cbn.
    f_equal. revert m. assert (G : forall (a : list Z) (m : list fl), combine (map (fun u => u + c)%Z a) m = map (fun r => ((fst r + c)%Z, snd r)) (combine a m)).
    { induction a as [|y a IHa]; intros m; [reflexivity|]. destruct m as [|z m]; [reflexivity|]. cbn. f_equal. apply IHa. }
    intros m. apply G. }
  rewrite E. clear E. set (s := combine index (ffill_limit k l)). rewrite map_length.
  assert (N : forall n (m : list (Z * fl)), combine (seq n (List.length m)) (map (fun r => ((fst r + c)%Z, snd r)) m) =
              map (fun p => (fst p, ((fst (snd p) + c)%Z, snd (snd p)))) (combine (seq n (List.length m)) m)).
  { intros n m. revert n. induction m as [|x m IH]; intros n; [reflexivity|]. cbn. f_equal. apply IH. }
  rewrite (N 0%nat s), !map_map. apply map_ext. intros [i [t x]]. cbn [fst snd].
  assert (W : window_values (in_center (ByRows k) i (t + c)) (map (fun r => ((fst r + c)%Z, snd r)) s) = window_values (in_center (ByRows k) i t) s).
  { unfold window_values. rewrite map_length, (N 0%nat s), filter_map_comm, map_map. reflexivity. }
  rewrite W. reflexivity.
Qed.

Lemma fill0_scale : forall x, fill0 (fscale ki x) = fscale ki (fill0 x).
Proof. intros x. unfold fill0. rewrite (isnan_fscale ki Hi). destruct (isnan x); [|reflexivity]. unfold fz. rewrite fscale_Fin. f_equal. change (qz 0) with 0. ring. Qed.
Lemma rain_scaled : forall k l x, 0 < k -> map (fun y => fgt y (fscale k x)) (map (fscale k) l) = map (fun y => fgt y x) l.
Proof. intros k l x Hk. rewrite map_map. apply map_ext. intros y. unfold fgt. now apply flt_fscale. Qed.
Lemma nth_later : forall l i, (i < List.length l)%nat -> nth i (map (fun u => u + c)%Z l) 0%Z = (nth i l 0 + c)%Z.
Proof. intros l i H. rewrite (nth_indep _ 0%Z (0 + c)%Z) by now rewrite map_length. apply map_nth with (f := fun u => (u + c)%Z). Qed.

Lemma daily_units : forall kp kr pm ins precip day_scale thr rec crit pthr factor, 0 < kp -> 0 < kr -> rec = true \/ kp = 1 ->
  calc_daily_df (rewritten kp c pm) (rewritten ki c ins) (option_map (rewritten kr c) precip) day_scale thr rec crit (fscale kr pthr) factor =
  outcome (fun p => (fscale kp (fst p), map day_later (snd p))) (calc_daily_df pm ins precip day_scale thr rec crit pthr factor).
Proof.
  intros kp kr pm ins precip ds thr rec crit pthr factor Hp Hr HR. unfold calc_daily_df.
  rewrite (valid_rewritten kp pm Hp). set (s := valid_part pm). clearbody s.
  pose proof (times_rewritten kp s) as T. pose proof (vals_rewritten kp s) as V. pose proof (renorm_rewritten kp rec s Hp HR) as R.
  assert (L : List.length (rewritten kp c s) = List.length s) by (unfold rewritten; apply map_length).
  set (s' := rewritten kp c s) in *. clearbody s'.
  destruct s as [|r0 s0]; destruct s' as [|r0' s0']; try discriminate L; [reflexivity|].
  set (s := r0 :: s0) in *. set (s' := r0' :: s0') in *. cbv zeta. rewrite T, V, R, L.
  assert (PN : map (fun x => fdiv x (fscale kp (renorm_factor rec s))) (map (fscale kp) (vals s)) = map (fun x => fdiv x (renorm_factor rec s)) (vals s)).
  { rewrite map_map. apply map_ext. intros x. now apply fdiv_fscale. }
  rewrite PN. set (pn := map (fun x => fdiv x (renorm_factor rec s)) (vals s)).
  assert (Lp : List.length (times s) = List.length pn) by (unfold pn, times, vals; now rewrite !map_length).
  assert (Lt : List.length (times s) = List.length s) by (unfold times; now rewrite map_length).
  destruct (ds =? 0)%nat; [reflexivity|]. rewrite (medians_moved ds (times s) pn Lp).
  assert (RN : map (fun x => fgt x (fscale kr pthr)) match option_map (rewritten kr c) precip with None => map (fun _ => fz 0) (map (fun u => u + c)%Z (times s)) | Some p => joined p (map (fun u => u + c)%Z (times s)) end =
               map (fun x => fgt x pthr) match precip with None => map (fun _ => fz 0) (times s) | Some p => joined p (times s) end).
  { destruct precip as [p|]; cbn [option_map].
    - rewrite (joined_rewritten kr p _ Hr). now apply rain_scaled.
    - rewrite !map_map. apply map_ext. intros _. unfold fgt. rewrite <- (flt_fscale kr Hr pthr (fz 0)). f_equal. unfold fz. rewrite fscale_Fin. f_equal. change (qz 0) with 0. ring. }
  rewrite RN. clear RN. rewrite (joined_rewritten ki ins _ Hi).
  match goal with |- bind ?x _ = _ => destruct x as [clean|e] end; [|reflexivity]. cbn [bind outcome fst snd]. f_equal. f_equal.
  rewrite map_map. apply map_ext_in. intros i Hin. apply in_seq in Hin. unfold day_later. cbn [d_date d_day d_insol d_pi_norm d_delta d_event d_run].
  rewrite nth_later by (rewrite Lt; lia). f_equal.
  unfold at_row. rewrite nth_fscale. apply fill0_scale.
Qed.

(** ** Intervals *)
Lemma map_result_outcome : forall A A' B B' (g : A -> A') (h : B -> B') (f : A -> result B) (f' : A' -> result B') l,
  (forall a, f' (g a) = outcome h (f a)) -> map_result f' (map g l) = outcome (map h) (map_result f l).
Proof.
  intros A A' B B' g h f f' l H. induction l as [|a l IH]; [reflexivity|]. cbn. rewrite H, IH. destruct (f a) as [b|e]; [|reflexivity]. cbn.
  destruct (map_result f l); reflexivity.
Qed.
Lemma last_map : forall A B (f : A -> B) l a, List.last (map f l) (f a) = f (List.last l a).
Proof. intros A B f l a. induction l as [|x l IH]; [reflexivity|]. destruct l as [|y l]; [reflexivity|]. exact IH. Qed.

Lemma fit_units : forall fit m rows r, fit_interval fit m (map day_later rows) r = outcome (later c) (fit_interval fit m rows r).
Proof.
  intros fit m rows r. destruct rows as [|first rows]; [reflexivity|]. unfold fit_interval.
  set (l := first :: rows). change (map day_later l) with (day_later first :: map day_later rows). cbv beta iota zeta.
  change (day_later first :: map day_later rows) with (map day_later l). rewrite last_map.
  rewrite filter_map_comm. change (fun x => fgt (d_pi_norm (day_later x)) (fz 0)) with (fun x => fgt (d_pi_norm x) (fz 0)).
  assert (U : match map day_later (filter (fun x => fgt (d_pi_norm x) (fz 0)) l) with [] => map day_later l | _ :: _ => map day_later (filter (fun x => fgt (d_pi_norm x) (fz 0)) l) end =
              map day_later match filter (fun x => fgt (d_pi_norm x) (fz 0)) l with [] => l | _ :: _ => filter (fun x => fgt (d_pi_norm x) (fz 0)) l end)
    by (destruct (filter (fun x => fgt (d_pi_norm x) (fz 0)) l); reflexivity).
  rewrite U. clear U. set (used := match filter (fun x => fgt (d_pi_norm x) (fz 0)) l with [] => l | _ :: _ => _ end).
  rewrite map_length, !map_map.
  change (map (fun x => d_pi_norm (day_later x)) used) with (map d_pi_norm used).
  change (map (fun x => d_delta (day_later x)) used) with (map d_delta used).
  change (map (fun x => (d_day (day_later x), d_pi_norm (day_later x))) used) with (map (fun x => (d_day x, d_pi_norm x)) used).
  destruct ((m <? Z.of_nat (List.length used))%Z && fgt (fsum (map d_pi_norm used)) (fz 0)); [|reflexivity].
  destruct (fit (map (fun x => (d_day x, d_pi_norm x)) used)) as [[[slope intercept] low] high]. reflexivity.
Qed.
Lemma flatten_later : forall a b i, flatten (rejected a b) (later c i) = later c (flatten (rejected a b) i).
Proof. intros a b i. unfold flatten. change (rejected a b (later c i)) with (rejected a b i). destruct (rejected a b i); reflexivity. Qed.
Lemma valid_later : forall l, filter i_valid (map (later c) l) = map (later c) (filter i_valid l).
Proof. intros l. rewrite filter_map_comm. reflexivity. Qed.
Lemma recoveries_later : forall l, recoveries (map (later c) l) = recoveries l.
Proof. induction l as [|i l IH]; [reflexivity|]. cbn [map recoveries]. rewrite IH, valid_later. change (i_valid (later c i)) with (i_valid i). destruct (filter i_valid l); reflexivity. Qed.
Definition analyzed_later (a : analyzed) : analyzed :=
  Analyzed (a_date a + c) (fscale ki (a_insol a)) (a_run a) (a_days a) (a_valid a) (a_loss_perfect a) (a_loss_inferred a).
Lemma analyze_later : forall table d, analyze_row (map (later c) table) (day_later d) = map analyzed_later (analyze_row table d).
Proof.
  intros table d. unfold analyze_row. rewrite filter_map_comm.
  change (fun x => (i_run (later c x) =? d_run (day_later d))%Z) with (fun x => (i_run x =? d_run d)%Z).
  destruct (filter (fun x => (i_run x =? d_run d)%Z) table) as [|i l]; [reflexivity|]. cbn [map]. cbv zeta.
  change (d_date (day_later d)) with (d_date d + c)%Z. change (i_start (later c i)) with (i_start i + c)%Z.
  replace (d_date d + c - (i_start i + c))%Z with (d_date d - i_start i)%Z by lia. reflexivity.
Qed.
Definition table_later (s : srr_intervals) : srr_intervals :=
  SrrIntervals (map (fun p => (later c (fst p), snd p)) (s_table s)) (map analyzed_later (s_daily s)).
Lemma combine_later : forall (a : list interval) (b : list fl), combine (map (later c) a) b = map (fun p => (later c (fst p), snd p)) (combine a b).
Proof. induction a as [|x a IH]; intros b; [reflexivity|]. destruct b as [|y b]; [reflexivity|]. cbn. f_equal. apply IH. Qed.
Lemma runs_later : forall trim rows, runs_of trim (map day_later rows) = runs_of trim rows.
Proof. intros trim rows. unfold runs_of. rewrite map_map. reflexivity. Qed.
Lemma result_units : forall fit rows trim e st m,
  calc_result_df fit (map day_later rows) trim e st m = outcome table_later (calc_result_df fit rows trim e st m).
Proof.
  intros fit rows trim e st m. unfold calc_result_df. rewrite runs_later.
  apply outcome_bind with (g := map (later c)).
  - rewrite <- (map_id (runs_of trim rows)) at 1. apply map_result_outcome. intros r. rewrite filter_map_comm. apply fit_units.
  - intros fits _. destruct fits as [|i fits]; [reflexivity|]. set (l := i :: fits). change (map (later c) l) with (later c i :: map (later c) fits). cbv beta iota zeta. change (later c i :: map (later c) fits) with (map (later c) l).
    assert (F : map (flatten (rejected e st)) (map (later c) l) = map (later c) (map (flatten (rejected e st)) l)) by (rewrite !map_map; apply map_ext; intros; apply flatten_later).
    rewrite F. rewrite valid_later, recoveries_later. set (table := map (flatten (rejected e st)) l).
    destruct (filter i_valid table) as [|j t]; [reflexivity|]. cbn [map outcome]. f_equal. unfold table_later. cbn [s_table s_daily]. f_equal.
    + apply combine_later.
    + induction rows as [|d rows IH]; [reflexivity|]. cbn [map flat_map]. rewrite analyze_later, map_app. f_equal. exact IH.
Qed.

(** ** Realisations *)
Lemma slopes_later : forall u table, interval_slopes u (map (later c) table) = interval_slopes u table.
Proof.
  intros u table. unfold interval_slopes. rewrite map_length. generalize (seq 0 (List.length table)). induction table as [|i t IH]; intros l; destruct l as [|n l]; try reflexivity.
  cbn. rewrite IH. reflexivity.
Qed.
Lemma losses_later : forall table slopes, run_losses (map (later c) table) slopes = run_losses table slopes.
Proof. intros table. induction table as [|i t IH]; intros [|x l]; try reflexivity. cbn. f_equal. apply IH. Qed.
Lemma groups_later : forall table g, groups_from g (map (later c) table) = groups_from g table.
Proof. induction table as [|i t IH]; intros g; [reflexivity|]. cbn. f_equal. apply IH. Qed.
Definition row_later (p : interval * fl) : interval * fl := (later c (fst p), snd p).
Lemma levels_later : forall m z l k start, valid_levels m z k start (map (fun r => (later c (fst (fst r)), snd (fst r), snd r)) l) = valid_levels m z k start l.
Proof.
  intros m z. induction l as [|[[i r] x] l IH]; intros k start; [reflexivity|]. cbn. change (i_valid (later c i)) with (i_valid i). destruct (i_valid i).
  - destruct (next_level m (z k) (fadd start x) r); [|reflexivity]. cbn. rewrite IH. reflexivity.
  - rewrite IH. reflexivity.
Qed.
Lemma combine_row_later : forall X (a : list (interval * fl)) (b : list X), combine (map row_later a) b = map (fun p => (row_later (fst p), snd p)) (combine a b).
Proof. intros X. induction a as [|x a IH]; intros b; [reflexivity|]. destruct b as [|y b]; [reflexivity|]. cbn. f_equal. apply IH. Qed.
Lemma random_later : forall m visit d table losses, random_starts m visit d (map row_later table) losses = random_starts m visit d table losses.
Proof.
  intros m visit d table losses. unfold random_starts. cbv zeta. rewrite (combine_row_later fl), !map_map.
  assert (E : map (fun x => (fst (fst (row_later (fst x), snd x)), snd (fst (row_later (fst x), snd x)), snd (row_later (fst x), snd x))) (combine table losses) =
              map (fun r => (later c (fst (fst r)), snd (fst r), snd r)) (map (fun p => (fst (fst p), snd (fst p), snd p)) (combine table losses))) by (rewrite map_map; reflexivity).
  rewrite E, levels_later. clear E. destruct (valid_levels m (dr_clean d) 0 (fz 1) (map (fun p => (fst (fst p), snd (fst p), snd p)) (combine table losses))) as [levels|e]; [|reflexivity].
  cbn [bind].
  assert (G : groups_from 0 (map (fun x => fst (row_later x)) table) = groups_from 0 (map fst table)).
  { rewrite <- (groups_later (map fst table)), map_map. reflexivity. }
  rewrite G. set (info := combine (groups_from 0 (map fst table)) _). rewrite (combine_row_later (Z * (fl * fl))), filter_map_comm, !map_map. reflexivity.
Qed.
Lemma starts_later : forall method visit d table losses, starts_of method visit d (map row_later table) losses = starts_of method visit d table losses.
Proof. intros method visit d table losses. unfold starts_of. rewrite !random_later, map_map. reflexivity. Qed.
Lemma combine_later2 : forall X (a : list interval) (b : list X), combine (map (later c) a) b = map (fun p => (later c (fst p), snd p)) (combine a b).
Proof. intros X. induction a as [|x a IH]; intros b; [reflexivity|]. destruct b as [|y b]; [reflexivity|]. cbn. f_equal. apply IH. Qed.
Lemma profile_later : forall table a, profile_row (map (fun p => (later c (fst p), snd p)) table) (analyzed_later a) = profile_row table a.
Proof.
  intros table a. unfold profile_row. rewrite filter_map_comm.
  change (fun x : interval * (fl * fl) => (i_run (fst (later c (fst x), snd x)) =? a_run (analyzed_later a))%Z) with (fun x : interval * (fl * fl) => (i_run (fst x) =? a_run a)%Z).
  destruct (filter (fun x : interval * (fl * fl) => (i_run (fst x) =? a_run a)%Z) table) as [|[i [st sl]] l]; [reflexivity|]. cbn [map fst snd].
  change (a_date (analyzed_later a)) with (a_date a + c)%Z. change (i_start (later c i)) with (i_start i + c)%Z.
  replace (a_date a + c - (i_start i + c))%Z with (a_date a - i_start i)%Z by lia. reflexivity.
Qed.
Lemma fmul_scale_r : forall x y, fmul x (fscale ki y) = fscale ki (fmul x y).
Proof. intros x y. rewrite (fmul_comm x (fscale ki y)), (fmul_comm x y). now apply fmul_fscale_l. Qed.
Lemma ratio_units : forall loss insol, weighted_ratio loss (map (fscale ki) insol) = weighted_ratio loss insol.
Proof.
  intros loss insol. unfold weighted_ratio. cbv zeta.
  assert (E : combine loss (map (fscale ki) insol) = map (fun p => (fst p, fscale ki (snd p))) (combine loss insol)).
  { revert insol. induction loss as [|x l IH]; intros [|y m]; try reflexivity. cbn. f_equal. apply IH. }
  rewrite E, filter_map_comm, !map_map. cbn [fst snd].
  assert (A : map (fun x => fmul (fst x) (fscale ki (snd x))) (combine loss insol) = map (fscale ki) (map (fun x => fmul (fst x) (snd x)) (combine loss insol))).
  { rewrite map_map. apply map_ext. intros p. apply fmul_scale_r. }
  assert (B : map (fun x => fscale ki (snd x)) (filter (fun x => notnan (fmul (fst x) (fscale ki (snd x)))) (combine loss insol)) =
              map (fscale ki) (map snd (filter (fun x => notnan (fmul (fst x) (snd x))) (combine loss insol)))).
  { rewrite map_map. f_equal. apply filter_ext. intros p. unfold notnan. rewrite fmul_scale_r, (isnan_fscale ki Hi). reflexivity. }
  rewrite A, B, !(fsum_fscale ki Hi). now apply fdiv_fscale.
Qed.
Lemma realization_units : forall method visit s d, realization method visit (table_later s) d = realization method visit s d.
Proof.
  intros method visit s d. unfold realization. cbv zeta. change (s_table (table_later s)) with (map (fun p => (later c (fst p), snd p)) (s_table s)). change (s_daily (table_later s)) with (map analyzed_later (s_daily s)).
  assert (F : map fst (map (fun p => (later c (fst p), snd p)) (s_table s)) = map (later c) (map fst (s_table s))) by (rewrite !map_map; reflexivity).
  rewrite F, slopes_later. destruct (interval_slopes (dr_slope d) (map fst (s_table s))) as [slopes|e]; [|reflexivity]. cbn [bind].
  rewrite losses_later. change (fun p : interval * fl => (later c (fst p), snd p)) with row_later. rewrite starts_later.
  destruct (starts_of method visit d (s_table s) (run_losses (map fst (s_table s)) slopes)) as [starts|e]; [|reflexivity]. cbn [bind].
  rewrite (combine_later2 (fl * fl)). set (t := combine (map fst (s_table s)) (combine starts slopes)).
  assert (P : map (profile_row (map (fun p => (later c (fst p), snd p)) t)) (map analyzed_later (s_daily s)) = map (profile_row t) (s_daily s)).
  { rewrite map_map. apply map_ext. intros a. apply profile_later. }
  rewrite P.
  assert (Q : map a_insol (map analyzed_later (s_daily s)) = map (fscale ki) (map a_insol (s_daily s))) by (rewrite !map_map; reflexivity).
  rewrite Q, ratio_units. reflexivity.
Qed.

(** ** The analysis *)
Lemma run_units : forall fit visit pm ins precip ds day_scale thr trim method crit pthr m exc conf rec e st factor kp kr,
  0 < kp -> 0 < kr -> rec = true \/ kp = 1 ->
  soiling_srr fit visit (rewritten kp c pm) (rewritten ki c ins) ds (option_map (rewritten kr c) precip) day_scale thr trim method crit (in_unit_of kr pthr)
    m exc conf rec e st factor =
  outcome (restated kp c) (soiling_srr fit visit pm ins ds precip day_scale thr trim method crit pthr m exc conf rec e st factor).
Proof.
  intros fit visit pm ins precip ds day_scale thr trim method crit pthr m exc conf rec e st factor kp kr Hp Hr HR. unfold soiling_srr.
  apply outcome_bind with (g := fun u => u).
  - unfold srr_init. rewrite !times_rewritten, !inferred_moved.
    assert (E : match option_map (rewritten kr c) precip with None => true | Some p => inferred_daily (times p) end = match precip with None => true | Some p => inferred_daily (times p) end)
      by (destruct precip; cbn [option_map]; [rewrite times_rewritten; apply inferred_moved|reflexivity]).
    rewrite E. destruct (_ && _); reflexivity.
  - intros _ _. unfold srr_run. apply outcome_bind with (g := fun p => (fscale kp (fst p), map day_later (snd p))); [now apply daily_units|].
    intros [rn rows] _. cbn [fst snd]. apply outcome_bind with (g := table_later); [apply result_units|].
    intros s _. apply outcome_bind with (g := fun x => x).
    + unfold calc_monte. rewrite <- (map_id ds) at 1. replace (outcome (fun x => x) (map_result (realization method visit s) ds)) with (outcome (map (fun x : list fl * fl => x)) (map_result (realization method visit s) ds)).
      * apply map_result_outcome. intros d. rewrite realization_units. destruct (realization method visit s d); reflexivity.
      * destruct (map_result (realization method visit s) ds) as [x|x]; cbn; [now rewrite map_id|reflexivity].
    + intros runs _. apply outcome_bind with (g := fun x => x); [destruct (srr_percentiles _ _ _); reflexivity|].
      intros [[[md lo] hi] ex] _. cbn [outcome]. f_equal. unfold restated. cbn [sr_median sr_low sr_high sr_exceedance sr_renorm sr_profiles sr_intervals sr_perfect].
      unfold table_later. cbn [s_table s_daily]. f_equal.
      * rewrite !map_map. reflexivity.
      * rewrite filter_map_comm, !map_map. reflexivity.
Qed.
End Units.

(** ** Annual summary *)
Lemma lookup_on : forall k s t, 0 < k -> lookup (rewritten k 0 s) t = fscale k (lookup s t).
Proof. intros k s t Hk. rewrite <- (Z.add_0_r t) at 1. now apply lookup_rewritten. Qed.
Lemma year_units : forall k ins rows j, 0 < k -> year_ratio (rewritten k 0 ins) rows j = year_ratio ins rows j.
Proof.
  intros k ins rows j Hk. unfold year_ratio. cbv zeta.
  assert (A : map (fun r : Z * list fl => lookup (rewritten k 0 ins) (fst r)) rows = map (fscale k) (map (fun r => lookup ins (fst r)) rows))
    by (rewrite map_map; apply map_ext; intros r; now apply lookup_on).
  assert (B : map (fun r : Z * list fl => fmul (nth j (snd r) NaN) (lookup (rewritten k 0 ins) (fst r))) rows = map (fscale k) (map (fun r => fmul (nth j (snd r) NaN) (lookup ins (fst r))) rows)).
  { rewrite map_map. apply map_ext. intros r. rewrite (lookup_on k _ _ Hk). rewrite (fmul_comm _ (fscale k _)), (fmul_comm _ (lookup ins (fst r))). now apply fmul_fscale_l. }
  rewrite A, B, !(fsum_fscale k Hk). generalize (fsum (map (fun r => lookup ins (fst r)) rows)) (fsum (map (fun r => fmul (nth j (snd r) NaN) (lookup ins (fst r))) rows)).
  intros T W. rewrite (fmul_fscale_l k Hk), (fmul_comm W (fdiv _ _)), (fmul_comm W (fdiv _ _)), <- (fmul_fscale_l k Hk). f_equal.
  destruct T as [| |q|]; rewrite ?fscale_NaN, ?(fscale_NInf k Hk), ?(fscale_PInf k Hk), ?fscale_Fin; cbn [fdiv fz]; rewrite ?fscale_NaN, ?fscale_Fin, ?Qcmult_0_r; try reflexivity.
  destruct (qeq q 0) eqn:E.
  - apply qeq_spec in E. subst q. rewrite Qcmult_0_r. change (qeq 0 0) with true. cbn match. apply (fscale_inf_sgn k Hk).
  - apply qeq_false in E. assert (N : k * q <> 0) by (intros H; apply Qcmult_integral in H; destruct H as [H|H]; [subst k; now apply Qclt_irrefl in Hk || (exfalso; revert Hk; apply Qcle_not_lt, Qcle_refl) | contradiction]).
    destruct (qeq (k * q) 0) eqn:E'; [apply qeq_spec in E'; contradiction|]. rewrite fscale_Fin. f_equal. field. split; [exact E|]. intros ->. apply (Qclt_not_eq _ _ Hk). reflexivity.
Qed.
Lemma annual_units : forall k profiles ins conf, 0 < k -> annual_soiling_ratios profiles (rewritten k 0 ins) conf = annual_soiling_ratios profiles ins conf.
Proof.
  intros k profiles ins conf Hk. unfold annual_soiling_ratios. destruct profiles as [|p ps]; [reflexivity|]. cbv zeta.
  destruct (quantile_levels conf) as [lo hi]. destruct (_ && _ && _ && _)%bool; [|reflexivity]. f_equal. apply map_ext. intros y.
  rewrite (map_ext (year_ratio (rewritten k 0 ins) _) (year_ratio ins (filter (fun r => (ts_year (fst r) =? y)%Z) (complete_rows (p :: ps))))); [reflexivity|].
  intros j. now apply year_units.
Qed.

(** ** Rows without value at the ends, and values at other times *)
Lemma drop_prefix : forall pre s, (forall r, In r pre -> snd r = NaN) -> drop_missing (pre ++ s) = drop_missing s.
Proof.
  induction pre as [|r pre IH]; intros s H; [reflexivity|]. cbn [app drop_missing]. rewrite (H r (or_introl eq_refl)). cbn [isnan]. apply IH. intros x Hx. apply H. now right.
Qed.
Lemma drop_all : forall s, (forall r, In r s -> snd r = NaN) -> drop_missing s = [].
Proof. intros s H. rewrite <- (app_nil_r s). now rewrite drop_prefix. Qed.
Lemma drop_app : forall s post, drop_missing s <> [] -> drop_missing (s ++ post) = drop_missing s ++ post.
Proof. induction s as [|[t v] s IH]; intros post H; [now elim H|]. cbn in *. destruct (isnan v); [now apply IH|reflexivity]. Qed.
Lemma drop_empty : forall s, drop_missing s = [] -> forall r, In r s -> snd r = NaN.
Proof.
  induction s as [|[t v] s IH]; intros H r Hr; [destruct Hr|]. cbn in H. destruct (isnan v) eqn:E; [|discriminate]. destruct v; try discriminate E.
  destruct Hr as [<-|Hr]; [reflexivity|now apply IH].
Qed.
Lemma valid_padded : forall pre s post, (forall r, In r (pre ++ post) -> snd r = NaN) -> valid_part (pre ++ s ++ post) = valid_part s.
Proof.
  intros pre s post H. unfold valid_part. rewrite drop_prefix by (intros r Hr; apply H, in_or_app; now left).
  assert (HP : forall r, In r post -> snd r = NaN) by (intros r Hr; apply H, in_or_app; now right).
  destruct (drop_missing s) as [|r0 s0] eqn:E.
  - rewrite drop_prefix by (exact (drop_empty s E)). now rewrite (drop_all post HP).
  - rewrite drop_app by congruence. rewrite E, rev_app_distr, drop_prefix; [reflexivity|]. intros r Hr. apply HP. now apply in_rev.
Qed.
Lemma run_padded : forall fit visit pre pm post ins precip ds day_scale thr trim method crit pthr m exc conf rec e st factor,
  (forall r, In r (pre ++ post) -> snd r = NaN) ->
  srr_run fit visit (pre ++ pm ++ post) ins precip ds day_scale thr trim method crit pthr m exc conf rec e st factor =
  srr_run fit visit pm ins precip ds day_scale thr trim method crit pthr m exc conf rec e st factor.
Proof. intros fit visit pre pm post ins precip ds day_scale thr trim method crit pthr m exc conf rec e st factor H. unfold srr_run, calc_daily_df. now rewrite (valid_padded pre pm post H). Qed.

Lemma In_drop : forall s r, In r (drop_missing s) -> In r s.
Proof. induction s as [|[t v] s IH]; intros r H; [destruct H|]. cbn in H. destruct (isnan v); [right; now apply IH|exact H]. Qed.
Lemma In_valid : forall s r, In r (valid_part s) -> In r s.
Proof. intros s r H. unfold valid_part in H. apply in_rev in H. apply In_drop in H. apply in_rev in H. now apply In_drop. Qed.
Lemma run_local : forall fit visit pm ins ins' precip precip' ds day_scale thr trim method crit pthr m exc conf rec e st factor,
  (forall t, In t (times pm) -> lookup ins t = lookup ins' t) ->
  (forall p, precip = Some p -> exists p', precip' = Some p' /\ forall t, In t (times pm) -> lookup p t = lookup p' t) -> (precip = None -> precip' = None) ->
  srr_run fit visit pm ins precip ds day_scale thr trim method crit pthr m exc conf rec e st factor =
  srr_run fit visit pm ins' precip' ds day_scale thr trim method crit pthr m exc conf rec e st factor.
Proof.
  intros fit visit pm ins ins' precip precip' ds day_scale thr trim method crit pthr m exc conf rec e st factor H H1 H2. unfold srr_run.
  assert (IN : forall t, In t (times (valid_part pm)) -> In t (times pm)).
  { intros t Ht. unfold times in *. apply in_map_iff in Ht. destruct Ht as (r & <- & Hr). apply in_map. now apply In_valid. }
  assert (E : calc_daily_df pm ins precip day_scale thr rec crit pthr factor = calc_daily_df pm ins' precip' day_scale thr rec crit pthr factor).
  { unfold calc_daily_df. cbv zeta.
    assert (J : joined ins (times (valid_part pm)) = joined ins' (times (valid_part pm))) by (apply map_ext_in; intros t Ht; apply H; now apply IN).
    rewrite J.
    assert (K : match precip with None => map (fun _ => fz 0) (times (valid_part pm)) | Some p => joined p (times (valid_part pm)) end =
                match precip' with None => map (fun _ => fz 0) (times (valid_part pm)) | Some p => joined p (times (valid_part pm)) end).
    { destruct precip as [p|].
      - destruct (H1 p eq_refl) as (p' & -> & Hp). apply map_ext_in. intros t Ht. apply Hp. now apply IN.
      - now rewrite (H2 eq_refl). }
    rewrite K. reflexivity. }
  now rewrite E.
Qed.
