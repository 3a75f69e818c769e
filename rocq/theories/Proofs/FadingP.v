(** An analysis of a system whose output fades by the same amount from bin to bin. *)

From Coq Require Import QArith Qcanon List ZArith Bool Arith String Sorted Permutation Lia.
From Verif.Base Require Import QcExtra ISort Quantile Fl TimeSeries Calendar Rolling.
From Verif.Model Require Import Utilities Interpolation Energy Normalization Filters FilterDict TrendAnalysis Bootstrap YearOnYear.
From Verif.Spec Require Import Stats Interp Energy Filters Normalization FilterSets TrendRuns TrendCalls Pipeline YoY Steady Fading.
From Verif.Proofs Require Import StatsP EnergyP2 EnergyP4 FiltersP NormP NormP2 TrendP3 TrendP4 TrendP5 TrendP7 TrendP8 YoYP YoYP2 BootP SteadyP SteadyP2.
Import ListNotations.
Open Scope list_scope.
Open Scope Qc_scope.

(** ** Robust statistics of positive values *)

Lemma finite_list : forall l, (forall v, In v l -> exists q, v = Fin q /\ 0 < q) -> exists qs, l = map Fin qs /\ forall q, In q qs -> 0 < q.
Proof.
  induction l as [|x l IH]; intros H; [exists []; split; [reflexivity|intros q []]|]. destruct (H x (or_introl eq_refl)) as (q & -> & Q). destruct (IH (fun v I => H v (or_intror I))) as (qs & -> & P).
  exists (q :: qs). split; [reflexivity|]. intros y [<-|I]; [exact Q|exact (P y I)].
Qed.
Lemma positive_bounds : forall qs, qs <> [] -> (forall q, In q qs -> 0 < q) -> exists lo hi, 0 < lo /\ forall q, In q qs -> lo <= q /\ q <= hi.
Proof.
  intros qs N P. destruct (qquantile_0_min qs N) as [I1 L]. destruct (qquantile_1_max qs N) as [_ U]. eexists _, _. split; [exact (P _ I1)|]. intros q I. split; [exact (L q I)|exact (U q I)].
Qed.
Lemma positive_median : forall qs, qs <> [] -> (forall q, In q qs -> 0 < q) -> exists r, fmedian (map Fin qs) = Fin r /\ 0 < r.
Proof.
  intros qs N P. rewrite fmedian_noinf; [|apply noinf_map_Fin|rewrite finvals_map_Fin; exact N]. rewrite finvals_map_Fin. eexists. split; [reflexivity|].
  destruct (positive_bounds qs N P) as (lo & hi & L & B). pose proof (proj1 (qmedian_bounds qs lo hi N B)). qlra.
Qed.
Lemma positive_quantile : forall p qs, qs <> [] -> 0 <= p -> p <= 1 -> (forall q, In q qs -> 0 < q) -> exists r, fquantile p (map Fin qs) = Fin r /\ 0 < r.
Proof.
  intros p qs N P0 P1 P. rewrite fquantile_noinf; [|apply noinf_map_Fin|rewrite finvals_map_Fin; exact N|exact P0|exact P1]. rewrite finvals_map_Fin. eexists. split; [reflexivity|].
  destruct (positive_bounds qs N P) as (lo & hi & L & B). pose proof (proj1 (qquantile_bounds p qs lo hi N P0 P1 B)). qlra.
Qed.
Lemma kept_positive : forall q l, (forall v, In v l -> v = NaN \/ exists x, v = Fin x /\ 0 < x) -> forall v, In v (robust_keep q l) -> exists x, v = Fin x /\ 0 < x.
Proof.
  intros q l H v I. unfold robust_keep in I. apply filter_In in I. destruct I as [I G]. destruct (H v I) as [->|X]; [|exact X]. unfold fgt in G. destruct (robust_small q l); discriminate G.
Qed.
Lemma robust_median_positive : forall q l, (forall v, In v l -> v = NaN \/ exists x, v = Fin x /\ 0 < x) -> robust_median q l = NaN \/ exists r, robust_median q l = Fin r /\ 0 < r.
Proof.
  intros q l H. unfold robust_median. destruct (finite_list _ (kept_positive q l H)) as (qs & -> & P). destruct qs as [|x qs]; [left; reflexivity|]. right. apply positive_median; [discriminate|exact P].
Qed.
Lemma robust_quantile_positive : forall q l, 0 <= q -> q <= 1 -> (forall v, In v l -> v = NaN \/ exists x, v = Fin x /\ 0 < x) -> robust_quantile q l = NaN \/ exists r, robust_quantile q l = Fin r /\ 0 < r.
Proof.
  intros q l H0 H1 H. unfold robust_quantile. destruct (finite_list _ (kept_positive q l H)) as (qs & -> & P). destruct qs as [|x qs]; [left; reflexivity|]. right. apply positive_quantile; [discriminate|exact H0|exact H1|exact P].
Qed.

Lemma robust_median_between : forall q l r, (forall v, In v l -> v = NaN \/ exists x, v = Fin x /\ 0 < x) -> robust_median q l = Fin r ->
  exists x y, In (Fin x) l /\ In (Fin y) l /\ x <= r /\ r <= y.
Proof.
  intros q l r H E. unfold robust_median in E. pose proof (kept_positive q l H) as K. destruct (finite_list _ K) as (qs & Q & P).
  assert (S : forall x, In x qs -> In (Fin x) l).
  { intros x I. assert (J : In (Fin x) (robust_keep q l)) by (rewrite Q; apply in_map; exact I). unfold robust_keep in J. apply filter_In in J. exact (proj1 J). }
  rewrite Q in E. destruct qs as [|x0 qs0]; [discriminate E|]. set (qs := x0 :: qs0) in *. assert (N : qs <> []) by discriminate.
  rewrite fmedian_noinf in E; [|apply noinf_map_Fin|rewrite finvals_map_Fin; exact N]. rewrite finvals_map_Fin in E. injection E as <-.
  destruct (qquantile_0_min qs N) as [I1 L]. destruct (qquantile_1_max qs N) as [I2 U].
  destruct (qmedian_bounds qs _ _ N (fun x I => conj (L x I) (U x I))) as [B1 B2]. eexists _, _. split; [exact (S _ I1)|]. split; [exact (S _ I2)|]. split; assumption.
Qed.

(** ** The rate *)

Lemma line_factor : forall rc k a slope s first, 0 < k -> on_fading_line k a slope s -> (exists v, In (first, v) s) -> (forall b v, In (b, v) s -> (first <= b)%Z) ->
  renorm_factor rc s first = NaN \/ exists r, renorm_factor rc s first = Fin r /\ 0 < r /\ first_year_level rc s r.
Proof.
  intros rc k a slope s first K H F1 F2. unfold renorm_factor. destruct rc; [|right; exists 1; split; [reflexivity|split; [reflexivity|reflexivity]]].
  match goal with |- robust_median q99 ?l = _ \/ _ => assert (V : forall v, In v l -> v = NaN \/ exists x, v = Fin x /\ 0 < x); [|destruct (robust_median_positive q99 l V) as [E|(r & E & R)]] end.
  - intros v I. unfold vals in I. apply in_map_iff in I. destruct I as ([t x] & <- & I). apply filter_In in I. destruct (H t x (proj1 I)) as [->|[-> Q]]; [left; reflexivity|]. right. eexists. split; [reflexivity|]. apply Qc_mul_pos; assumption.
  - left. exact E.
  - right. exists r. split; [exact E|]. split; [exact R|]. destruct (robust_median_between _ _ _ V E) as (x & y & X & Y & L1 & L2).
    assert (G : forall z, In (Fin z) (vals (filter (fun r0 => ((first <=? fst r0) && (fst r0 <=? first + 364 * ns_day))%Z) s)) -> exists t, In (t, Fin z) s /\ (t <= first + days 364)%Z).
    { intros z I. unfold vals in I. apply in_map_iff in I. destruct I as ([t v] & Q & I). cbn [snd] in Q. subst v. apply filter_In in I. destruct I as [I B]. exists t. split; [exact I|]. apply andb_prop in B. apply Z.leb_le. exact (proj2 B). }
    destruct (G x X) as (t & T1 & T2). destruct (G y Y) as (u & U1 & U2). exists first, t, x, u, y. repeat (split; [assumption|]). assumption.
Qed.
Lemma core_line : forall infer sortv rc m input k a slope o rows, 0 < k -> sorts_by_shifted sortv -> on_fading_line k a slope input -> yoy_core infer sortv rc m input = Ok (o, rows) ->
  exists rho, yo_renorm o = Fin rho /\ 0 < rho /\ first_year_level rc input rho /\ yo_values o <> [] /\
    let x := qz 100 * (k * slope * qz (days 365)) / rho in yo_rate o = Fin x /\ (forall t v, In (t, v) (yo_values o) -> v = Fin x).
Proof.
  intros infer sortv rc m input k a slope o rows Hk Sv F H.
  assert (Full : exists o', degradation_year_on_year infer sortv (fun _ => []) [] rc 0 0 NoUncertainty input = Ok o' /\ yo_rate o' = yo_rate o /\ yo_values o' = yo_values o /\ yo_renorm o' = yo_renorm o).
  { unfold degradation_year_on_year, yoy_core in *. destruct (sort_index input) as [|[first v0] l] eqn:E; [discriminate|]. rewrite <- E in *.
    destruct (too_short _ _ _ _); [discriminate|]. cbn [circular_guard bind].
    destruct (circular_guard infer m (sort_index input)); cbn [bind] in H; [|discriminate].
    set (res := yoy_result _) in *. destruct res eqn:R; [discriminate|]. injection H as <- _. cbn [bind fst snd]. eexists. split; [reflexivity|]. cbn. auto. }
  destruct Full as (o' & Full & E1 & E2 & E3).
  unfold yoy_core in H. destruct (sort_index input) as [|[first v0] l] eqn:E; [discriminate|]. rewrite <- E in *.
  destruct (too_short _ _ _ _); [discriminate|]. destruct (circular_guard infer m (sort_index input)); cbn [bind] in H; [|discriminate].
  assert (FS : on_fading_line k a slope (sort_index input)) by (intros t v I; apply (F t); apply sort_index_In; exact I).
  assert (exists r, renorm_factor rc (sort_index input) first = Fin r /\ 0 < r /\ first_year_level rc input r) as (rho & R & R0 & R1).
  { destruct (line_factor rc k a slope (sort_index input) first Hk FS) as [R|(r & R & R0 & R1)].
    - exists v0. rewrite E. left. reflexivity.
    - pose proof (sort_index_sorted input) as So. rewrite E in So. intros b v I. rewrite E in I. destruct I as [I|I]; [injection I as <- <-; apply Z.le_refl|].
      inversion So as [|? ? ? Al]; subst. rewrite Forall_forall in Al. exact (Al _ I).
    - rewrite R, merged_nan in H. discriminate.
    - exists r. split; [exact R|]. split; [exact R0|]. destruct rc; [|exact R1]. destruct R1 as (f0 & t & x & u9 & y & (v & A1) & A2 & A3 & A4 & A5 & A6 & A7 & A8).
      exists f0, t, x, u9, y. split; [exists v; apply sort_index_In; exact A1|]. split; [intros b w I; apply (A2 b w); apply sort_index_In; exact I|]. split; [apply sort_index_In; exact A3|]. split; [exact A4|]. split; [exact A5|]. split; [apply sort_index_In; exact A6|]. split; [exact A7|exact A8]. }
  rewrite R in H. set (res := yoy_result _) in *. assert (Ne : res <> []) by (destruct res; [discriminate|discriminate]).
  destruct res eqn:Er; [congruence|]. rewrite <- Er in *. injection H as <- <-. cbn [yo_renorm yo_rate yo_values] in *.
  exists rho. split; [reflexivity|]. split; [exact R0|]. split; [exact R1|]. split; [exact Ne|].
  destruct (yoy_linear _ _ _ _ _ _ _ _ _ _ (k * a) (k * slope) rho Sv Full) as [L1 L2]; [|exact E3|apply Qc_pos_neq; exact R0|].
  - intros t e I. destruct (F t e I) as [->|[-> _]]; [left; reflexivity|right; f_equal; ring].
  - cbv zeta. rewrite E1 in L1. rewrite E2 in L2. split; [exact L1|exact L2].
Qed.

Theorem line_rate : forall infer sortv choice starts rc ep cl m input k a slope o, 0 < k -> sorts_by_shifted sortv -> draws_ok choice -> on_fading_line k a slope input ->
  degradation_year_on_year infer sortv choice starts rc ep cl m input = Ok o ->
  exists rho, yo_renorm o = Fin rho /\ 0 < rho /\ first_year_level rc input rho /\ one_change (qz 100 * (k * slope * qz (days 365)) / rho) m o.
Proof.
  intros infer sortv choice starts rc ep cl m input k a slope o Hk Sv D F H. unfold degradation_year_on_year in H.
  destruct (yoy_core infer sortv rc m input) as [[o' rows]|] eqn:E; cbn [bind fst snd] in H; [|discriminate].
  destruct (core_line _ _ _ _ _ k a slope _ _ Hk Sv F E) as (rho & R1 & R2 & R3 & R6 & R4 & R5). set (x := qz 100 * (k * slope * qz (days 365)) / rho) in *.
  assert (V : forall y, In y (vals (yo_values o')) -> y = Fin x) by (intros y I; unfold vals in I; apply in_map_iff in I; destruct I as ([t z] & <- & I); exact (R5 t z I)).
  assert (Nv : vals (yo_values o') <> []) by (intros C; apply R6; destruct (yo_values o'); [reflexivity|discriminate C]).
  exists rho. destruct m as [|L|].
  - assert (M : forall v, In v (resampled_medians choice (vals (yo_values o'))) -> v = Fin x) by (intros v I; exact (medians_flat choice x _ v D Nv V I)).
    assert (Ne : resampled_medians choice (vals (yo_values o')) <> []).
    { unfold resampled_medians. destruct (D (List.length (vals (yo_values o'))) (some_length _ Nv)) as [N _]. destruct (choice _); [congruence|discriminate]. }
    destruct (percentile_ci _ _) as [[lo hi]|] eqn:C; cbn [bind] in H; [|discriminate]. destruct (exceedance _ _) as [ex|] eqn:X; cbn [bind] in H; [|discriminate].
    injection H as <-. cbn [yo_renorm]. split; [exact R1|]. split; [exact R2|]. split; [exact R3|]. split; [exact R4|]. split; [exact R5|]. intros _. cbn [yo_ci yo_exceedance]. split.
    + intros u v Eq. injection Eq as <- <-. exact (const_interval _ x _ _ _ Ne M C).
    + intros u Eq. injection Eq as <-. exact (const_percentile _ x _ _ Ne M X).
  - cbn [make_samples bind] in H. repeat match type of H with bind ?t _ = _ => destruct t as [?|] eqn:?; cbn [bind] in H; [|discriminate H] end.
    repeat match type of H with context [let '(_, _) := ?p in _] => destruct p | match ?p with (_, _) => _ end = _ => destruct p end. injection H as <-. cbn [yo_renorm].
    split; [exact R1|]. split; [exact R2|]. split; [exact R3|]. split; [exact R4|]. split; [exact R5|]. discriminate.
  - injection H as <-. split; [exact R1|]. split; [exact R2|]. split; [exact R3|]. split; [exact R4|]. split; [exact R5|]. discriminate.
Qed.

(** ** Normalized energy *)

Definition follows (f : Z -> Qc) (rows : list Z) (s : series) : Prop := forall t v, In (t, v) s -> v = NaN \/ (v = Fin (f t) /\ In t rows).

Lemma value_follows : forall f s t p, value_at (map (fun r => (fst r, fmul (Fin (f (fst r))) (snd r))) s) t p -> exists q, value_at s t q /\ p = fmul (Fin (f t)) q.
Proof.
  intros f s t p [I|[-> I]].
  - apply in_map_iff in I. destruct I as ([u v] & E & I). injection E as <- <-. exists v. split; [now left|reflexivity].
  - exists NaN. split; [right; split; [reflexivity|]|reflexivity]. intros J. apply I. unfold times in *. rewrite map_map. exact J.
Qed.
Lemma normalize_follows : forall infer freq f energy model index poa en ins, follows_model infer freq f energy model index -> sorted_index poa -> noinf (vals poa) ->
  normalize_with_expected_power infer (freq (times energy)) (freq (times index)) energy model poa PvEnergy = Ok (en, ins) ->
  follows f (times energy) en /\ noinf (vals ins).
Proof.
  intros infer freq f energy model index poa en ins (S & F & Ns & w & modelled & Hw & Hm & He) Sp Np H.
  destruct (normalize_spec _ _ _ _ _ _ _ _ _ S F H) as (w' & e & power & poa' & ee & ii & Hw' & Hk & Hs & E1 & E2 & _ & _ & _ & V1 & V2).
  destruct Hk as [[K _]|[_ ->]]; [discriminate|]. cbv zeta in Hs. destruct (proj2 Hs Ns) as [-> ->]. clear Hs.
  assert (w' = w) as -> by (destruct Hw as [A|[A B]], Hw' as [A'|[A' B']]; congruence). rewrite Hm in E1. injection E1 as <-.
  assert (P : (0 < w)%Z) by (destruct F as [F1 F2]; destruct Hw as [A|[_ A]]; [apply (F1 w A)|apply (F2 w A)]).
  assert (Nd : NoDup (times energy)) by (apply TrendP7.sorted_nodup, S).
  split.
  - intros t v I. destruct (value_follows f modelled t) with (p := lookup energy t) as (q & Vq & Eq).
    { rewrite <- He. apply lookup_value_at, Nd. }
    rewrite (V1 t v (lookup energy t) q I (lookup_value_at energy t Nd) Vq), Eq.
    destruct (in_dec Z.eq_dec t (times energy)) as [J|J]; [destruct (ratio_flat (f t) q) as [->| ->]; [right; split; [reflexivity|exact J]|left; reflexivity]|]. left.
    assert (L : lookup energy t = NaN) by (destruct (lookup_value_at energy t Nd) as [K|[K _]]; [contradiction J; apply in_map_iff; exists (t, lookup energy t); split; [reflexivity|exact K]|exact K]).
    rewrite <- Eq, L. destruct q; reflexivity.
  - intros v I. apply in_map_iff in I. destruct I as ([t x] & <- & I). cbn [snd]. destruct (V2 t x I) as [J|[-> _]]; [|split; discriminate].
    apply (energy_noinf None poa w ii Sp Np P E2). apply in_map_iff. exists (t, x). auto.
Qed.
Lemma follows_rescaled : forall f rows q s, (forall t, In t rows -> 0 < f t) -> 0 <= q -> q <= 1 -> follows f rows s ->
  exists k, 0 < k /\ follows (fun t => k * f t) rows (on_values (fun x => fdiv x (robust_quantile q (filter is_finite (vals s)))) s).
Proof.
  intros f rows q s P H0 H1 F. destruct (robust_quantile_positive q (filter is_finite (vals s)) H0 H1) as [E|(r & E & R)].
  - intros v I. apply filter_In in I. destruct I as [I _]. unfold vals in I. apply in_map_iff in I. destruct I as ([t x] & <- & I). destruct (F t x I) as [->|[-> J]]; [left; reflexivity|]. right. exists (f t). split; [reflexivity|exact (P t J)].
  - exists 1. split; [reflexivity|]. intros t v I. apply in_map_iff in I. destruct I as ([u x] & Q & I). injection Q as <- <-. left. cbn [fst snd]. rewrite E. destruct x; reflexivity.
  - exists (/ r). split; [apply Qc_inv_pos; exact R|]. intros t v I. apply in_map_iff in I. destruct I as ([u x] & Q & I). injection Q as <- <-. cbn [fst snd]. rewrite E.
    destruct (F u x I) as [->|[-> J]]; [left; reflexivity|]. right. split; [|exact J]. cbn [fdiv]. destruct (qeq r 0) eqn:Z; qb; [subst r; discriminate R|]. f_equal. unfold Qcdiv. ring.
Qed.

Section Analyses.
Context {P W T O YK SK YR SR : Type}.
Local Notation env := (environment P W T O YK SK YR SR).
Local Notation st := (state P W T O YR SR).
Local Notation req := (@request YK SK).

Theorem data_follows : forall (E : env) c (i : inputs W O) (k : completed P T) f energy model index poa en ins, (forall t, In t (times energy) -> 0 < f t) ->
  i_energy i = Present energy -> irradiance_of c i k = Some poa -> sorted_index poa -> noinf (vals poa) ->
  model_of c i k model index -> follows_model (e_infer E) (e_freq E) f energy model index ->
  data E c i k = Ok (en, ins) -> (exists z, scale_of i z /\ follows (fun t => z * f t) (times energy) en) /\ noinf (vals ins).
Proof.
  intros E c i k f energy model index poa en ins Hl He Hp Sp Np Hm Pr D.
  assert (ONE : forall s, follows f (times energy) s -> follows (fun t => 1 * f t) (times energy) s) by (intros s F t v I; destruct (F t v I) as [->|[-> J]]; [left; reflexivity|right; split; [f_equal; ring|exact J]]).
  assert (A : forall x, i_expected i = Some x -> expected_norm E i x poa = Ok (en, ins) -> (exists z, scale_of i z /\ follows (fun t => z * f t) (times energy) en) /\ noinf (vals ins)).
  { intros x Hx D'. unfold model_of in Hm. rewrite Hx in Hm. destruct Hm as [-> ->]. unfold expected_norm in D'. rewrite He in D'. cbn [read need bind] in D'.
    destruct (normalize_follows _ _ _ _ _ _ _ _ _ Pr Sp Np D') as [F1 F2]. split; [|exact F2]. exists 1. split; [|apply ONE; exact F1]. unfold scale_of. rewrite Hx. split; reflexivity. }
  assert (B : forall cell, i_expected i = None -> temperature_of c k = Some cell -> pvwatts_norm E i poa cell = Ok (en, ins) -> (exists z, scale_of i z /\ follows (fun t => z * f t) (times energy) en) /\ noinf (vals ins)).
  { intros cell Hx Hc D'. unfold model_of in Hm. rewrite Hx in Hm. destruct Hm as (poa' & cell' & Hp' & Hc' & -> & ->). rewrite Hp in Hp'. injection Hp' as <-. rewrite Hc in Hc'. injection Hc' as <-.
    unfold pvwatts_norm in D'. rewrite He in D'. cbn [read need bind] in D'. cbv zeta in D'. unfold normalize_with_pvwatts in D'. cbv zeta in D'.
    destruct (normalize_with_expected_power _ _ _ _ _ _ _) as [[en0 ins0]|] eqn:Nn; [|discriminate]. cbn [bind fst snd] in D'.
    destruct (normalize_follows _ _ _ _ _ _ _ _ _ Pr Sp Np Nn) as [F1 F2]. unfold scale_of. rewrite Hx.
    destruct (i_rated i); injection D' as <- <-; (split; [|exact F2]).
    - exists 1. split; [split; reflexivity|apply ONE; exact F1].
    - match goal with |- context [robust_quantile ?q _] => destruct (follows_rescaled f (times energy) q en0 Hl) as (z & Z1 & Z2); [discriminate|discriminate|exact F1|] end. exists z. split; [split; [exact Z1|exact I]|exact Z2]. }
  destruct c; cbn [data] in D.
  - unfold sensor_data in D. cbn [irradiance_of] in Hp. rewrite Hp in D. cbn [need bind] in D.
    match type of D with bind ?x _ = _ => destruct x; [|discriminate] end. cbn [bind] in D.
    destruct (i_expected i) as [x|] eqn:Hx; [exact (A x eq_refl D)|].
    pose proof Hm as Hm'. unfold model_of in Hm'. rewrite Hx in Hm'. destruct Hm' as (_ & cell & _ & Hc & _). cbn [temperature_of] in Hc. rewrite Hc in D. cbn [bind] in D.
    exact (B cell eq_refl Hc D).
  - unfold clearsky_data in D. cbn [irradiance_of] in Hp. destruct (c_clear_poa k) as [| |p]; try discriminate. injection Hp as ->. cbn [bind] in D.
    destruct (i_expected i) as [x|] eqn:Hx.
    + match type of D with bind ?x _ = _ => destruct x; [|discriminate] end. exact (A x eq_refl D).
    + pose proof Hm as Hm'. unfold model_of in Hm'. rewrite Hx in Hm'. destruct Hm' as (_ & cell & _ & Hc & _). pose proof Hc as Hc'. cbn [temperature_of] in Hc. destruct (c_clear_cell k) as [| |q]; try discriminate. injection Hc as ->.
      cbn [bind] in D. exact (B cell eq_refl Hc' D).
Qed.

(** ** Stored performance *)
Lemma bin_follows : forall w b x n e, times e = times n -> (forall t v, In (t, v) e -> inside b w t = true -> v = Fin x) -> bin_energy b w n e = x * bin_weight b w n.
Proof.
  intros w b x n. induction n as [|[t y] n IH]; intros e Ht H; destruct e as [|[t' v] e]; try discriminate; [unfold bin_energy, bin_weight; cbn; ring|].
  injection Ht as -> Ht. unfold bin_energy, bin_weight in *. cbn [combine map fst snd]. rewrite !qsum_cons. rewrite (IH e Ht) by (intros u z I; apply (H u); now right).
  specialize (H t v (or_introl eq_refl)). destruct (inside b w t); [rewrite (H eq_refl); cbn [present]; ring|ring].
Qed.
Lemma weight_row : forall w b n, bin_weight b w n <> 0 -> exists t, In t (times n) /\ inside b w t = true.
Proof.
  intros w b n. induction n as [|[t y] n IH]; intros H; [contradiction H; reflexivity|]. destruct (inside b w t) eqn:E; [exists t; split; [left; reflexivity|exact E]|].
  destruct IH as (u & U1 & U2); [|exists u; split; [right; exact U1|exact U2]]. intros C. apply H. unfold bin_weight in *. cbn [map fst snd]. rewrite qsum_cons, E, C. ring.
Qed.

Theorem stored_line : forall (E : env) (q : req) (s s' : st) z f a slope rows, analyse E q s = (s', Ok tt) -> (0 < i_width (s_inputs s))%Z -> dividing (i_width (s_inputs s)) ->
  dget "normalized_filter" (params_of s) <> None -> fades (i_width (s_inputs s)) a slope f rows ->
  (forall energy insolation, data E (q_case q) (s_inputs s) (completion E (s_inputs s) (s_completed s)) = Ok (energy, insolation) ->
     follows (fun t => z * f t) rows energy /\ noinf (vals insolation) /\ excludes_missing E energy) ->
  exists p, d_performance (side_of (q_case q) s') = Present p /\ on_fading_line z a slope p.
Proof.
  intros E q s s' z f a slope rows A Hw Dv Cf Fd Hd.
  destruct (pipeline E q s s' A Hw Dv) as (energy & insolation & m & ag & c' & M & p & i & D & Ht & Hs & _ & _ & Hp & _ & F & B & _ & R & _).
  cbn [object s_inputs s_completed] in D. destruct (Hd energy insolation D) as (F1 & F2 & F3). exists p. split; [exact Hp|].
  destruct F as (parts & idx & [_ Pa] & Ci & Mk).
  assert (K : forall t v, In (t, v) (kept_rows m energy) -> v = Fin (z * f t) /\ In t rows).
  { intros t v I. apply kept_value in I. destruct I as [I J]. destruct (F1 t v J) as [->|X]; [|exact X]. exfalso.
    destruct (proj1 (proj2 Mk t) I) as [_ (_ & Kp & _)].
    inversion Pa as [|k0 m0 l0 r0 U G Rest|k0 l0 r0 U Rest]; subst.
    - destruct G as (_ & pp & _ & Cl). inversion Cl; subst; try (match goal with H : In _ _ |- _ => destruct H as [H|[H|[]]]; discriminate H end).
      match goal with N : e_normalized E pp energy = Ok m0 |- _ => exact (F3 pp m0 t N J (Kp _ _ (or_introl eq_refl))) | N : Ok m0 = e_normalized E pp energy |- _ => exact (F3 pp m0 t (eq_sym N) J (Kp _ _ (or_introl eq_refl))) end.
    - apply U. unfold used. cbn [String.eqb]. intros N. apply Cf. rewrite <- N. unfold params_of. cbn [object s_completed completion c_params]. rewrite exclude_cleaned. symmetry. apply dget_cleaned. discriminate. }
  destruct B as (_ & _ & BB & B).
  assert (N1 : noinf (vals (kept_rows m energy))) by (intros v I; apply in_map_iff in I; destruct I as ([t x] & <- & I); rewrite (proj1 (K t x I)); split; discriminate).
  assert (N2 : noinf (vals (kept_rows m insolation))) by (intros v I; apply F2; apply in_map_iff in I; destruct I as ([t x] & <- & I); apply kept_value in I; apply in_map_iff; exists (t, x); tauto).
  destruct (B N1 N2) as [B1 _].
  assert (TK : times (kept_rows m energy) = times (kept_rows m insolation)) by (rewrite !times_kept, Ht; reflexivity).
  assert (TR : forall t, In t (times (kept_rows m insolation)) -> In t rows).
  { intros t I. rewrite <- TK in I. apply in_map_iff in I. destruct I as ([u v] & <- & I). exact (proj2 (K u v I)). }
  intros b x I. destruct R as (_ & _ & R). destruct (R b x I) as [R1 R2].
  destruct (in_dec (fun r r' : Z * bool => ltac:(repeat decide equality)) (b, true) M) as [J|J]; [|left; apply R2, J].
  specialize (R1 J). rewrite (B1 b x R1). set (w := i_width (s_inputs s)) in *.
  assert (IB : In b (times ag)) by (apply in_map_iff; exists (b, x); split; [reflexivity|exact R1]). apply BB in IB. destruct IB as (first & last & mm & j & I1 & _ & I3 & I4 & _).
  assert (FR : In first rows) by (apply TR; destruct (times (kept_rows m insolation)) as [|u l]; [discriminate I1|injection I1 as ->; left; reflexivity]).
  assert (LV : forall t, In t rows -> inside b w t = true -> f t = a + slope * qz b) by (intros t It In_; rewrite I4 in In_ |- *; exact (proj2 (Fd t It) first mm j FR I3 In_)).
  rewrite (bin_follows _ b (z * (a + slope * qz b))); [|exact TK|].
  - set (wt := bin_weight _ _ _) in *. cbn [fdiv]. destruct (qeq wt 0) eqn:Q; qb; [left; rewrite Q; replace (z * (a + slope * qz b) * 0) with 0 by ring; reflexivity|].
    right. split; [f_equal; field; exact Q|]. destruct (weight_row w b _ Q) as (t & T1 & T2). rewrite <- (LV t (TR t T1) T2). exact (proj1 (Fd t (TR t T1))).
  - intros t v It In_. destruct (K t v It) as [-> Rt]. rewrite (LV t Rt In_). reflexivity.
Qed.
End Analyses.

(** ** The reported degradation *)
Section Degradation.
Context {P W T O YK SK SR : Type}.
Local Notation env := (environment P W T O YK SK yoy_out SR).
Local Notation st := (state P W T O yoy_out SR).
Local Notation req := (@request YK SK).
Theorem analysis_line : forall (E : env) (q : req) (s s' : st) f a slope energy model index poa infer sortv choice starts (recenter : YK -> bool) ep cl (m : YK -> umethod),
  let i := s_inputs s in let k := completion E i (s_completed s) in
  sorts_by_shifted sortv -> draws_ok choice ->
  (forall y p, e_yoy E y p = degradation_year_on_year infer sortv choice starts (recenter y) (ep y) (cl y) (m y) p) ->
  (forall en, sorted_index en -> excludes_missing E en) -> dget "normalized_filter" (params_of s) <> None ->
  (0 < i_width i)%Z -> dividing (i_width i) -> fades (i_width i) a slope f (times energy) ->
  i_energy i = Present energy -> irradiance_of (q_case q) i k = Some poa -> sorted_index poa -> noinf (vals poa) ->
  model_of (q_case q) i k model index -> follows_model (e_infer E) (e_freq E) f energy model index ->
  analyse E q s = (s', Ok tt) -> In "yoy_degradation"%string (q_names q) ->
  exists p o z scale rho, d_performance (side_of (q_case q) s') = Present p /\ d_result (side_of (q_case q) s') = Some (Outcome (Some o) z) /\
    scale_of i scale /\ on_fading_line scale a slope p /\
    yo_renorm o = Fin rho /\ 0 < rho /\ first_year_level (recenter (q_yoy q)) p rho /\
    one_change (qz 100 * (scale * slope * qz (days 365)) / rho) (m (q_yoy q)) o.
Proof.
  intros E q s s' f a slope energy model index poa infer sortv choice starts recenter ep cl m i k Sv Dr Ey Ex Cf Hw Dv Fd He Hp Sp Np Hm Pr A Rq.
  assert (X : exists z, scale_of i z /\ forall en ins, data E (q_case q) i k = Ok (en, ins) -> follows (fun t => z * f t) (times energy) en /\ noinf (vals ins) /\ excludes_missing E en).
  { destruct (data E (q_case q) i k) as [[en ins]|] eqn:D.
    - destruct (data_follows E (q_case q) i k f energy model index poa en ins (fun t I => proj1 (Fd t I)) He Hp Sp Np Hm Pr D) as [(z & Z1 & Z2) D2]. exists z. split; [exact Z1|].
      intros en' ins' Q. injection Q as <- <-. split; [exact Z2|]. split; [exact D2|]. apply Ex. exact (proj2 (data_one E _ _ _ _ _ D)).
    - exists 1. split; [|discriminate]. unfold scale_of. split; [reflexivity|]. destruct (i_expected i), (i_rated i); try reflexivity; exact I. }
  destruct X as (z & Z1 & Z2).
  destruct (stored_line E q s s' z f a slope (times energy) A Hw Dv Cf Fd Z2) as (p & P1 & P2).
  destruct (call_entry E q s s' _ A) as (_ & _ & _ & C). destruct (C eq_refl) as (p' & i' & y & so & C1 & _ & C3 & C4 & _).
  rewrite P1 in C1. injection C1 as <-. destruct C4 as [(_ & _ & v & Ev & ->)|[N _]]; [|contradiction].
  rewrite Ey in Ev. destruct (line_rate _ _ _ _ _ _ _ _ _ z a slope _ (proj1 Z1) Sv Dr P2 Ev) as (rho & L1 & L2 & L3 & L4).
  exists p, v, so, z, rho. split; [exact P1|]. split; [exact C3|]. split; [exact Z1|]. split; [exact P2|]. split; [exact L1|]. split; [exact L2|]. split; [exact L3|exact L4].
Qed.
End Degradation.

(** Widths that divide a day. *)
Theorem fading_fades : forall w k a slope rows, (0 < w)%Z -> (ns_day = w * k)%Z -> (forall t, In t rows -> 0 < fading w a slope t) -> fades w a slope (fading w a slope) rows.
Proof.
  intros w k a slope rows Hw Hk P t I. split; [exact (P t I)|]. intros u m j _ ((d & ->) & _) H. unfold inside in H. apply andb_true_iff in H. destruct H as [H1 H2]. apply Z.leb_le in H1. apply Z.ltb_lt in H2.
  unfold fading. rewrite Hk in *. replace (w * k * d + w * j)%Z with (w * (k * d + j))%Z in * by ring. assert (t / w = k * d + j)%Z as ->; [|reflexivity].
  symmetry. apply (Z.div_unique t w (k * d + j) (t - w * (k * d + j))); lia.
Qed.
