(** A TrendAnalysis of a system that is never soiled. *)

From Coq Require Import QArith Qcanon List ZArith Bool Arith String Sorted Permutation Lia.
From Verif.Base Require Import QcExtra ISort Quantile Segments Fl TimeSeries Calendar Rolling.
From Verif.Model Require Import Utilities Interpolation Energy Normalization Filters FilterDict TrendAnalysis YearOnYear Soiling.
From Verif.Spec Require Import Stats Interp Energy Filters Normalization FilterSets TrendRuns TrendCalls Pipeline YoY Steady Soiling SoilingTable Clean RawPower CleanRun.
From Verif.Proofs Require Import StatsP InterpP EnergyP EnergyP2 EnergyP4 EnergyP6 FiltersP NormP NormP2 TrendP3 TrendP4 TrendP5 TrendP7 TrendP8 SteadyP SteadyP2 SoilP9 SoilP10 CleanP RawP.
Import ListNotations.
Open Scope list_scope.
Open Scope Qc_scope.

Lemma light_noinf : forall s, no_negative s -> noinf (vals s).
Proof. intros s H v I. apply in_map_iff in I. destruct I as ([t x] & <- & I). destruct (H t x I) as [->|(q & -> & _)]; split; discriminate. Qed.
Lemma interp_light : forall s limit t v, no_negative s -> interp s limit t v -> v = NaN \/ exists q, v = Fin q /\ 0 <= q.
Proof.
  intros s limit t v H I. inversion I as [q Iq|t1 v1 t2 v2 B L|t1 v1 t2 v2 B L|B|B]; subst; auto.
  - destruct (H _ _ Iq) as [C|C]; [discriminate|auto].
  - right. eexists. split; [reflexivity|]. destruct B as (B1 & B2 & B3 & _).
    destruct (H _ _ B1) as [C|(q1 & E1 & P1)]; [discriminate|]. destruct (H _ _ B2) as [C|(q2 & E2 & P2)]; [discriminate|]. injection E1 as <-. injection E2 as <-.
    destruct (chord_between t1 v1 t2 v2 t B3) as [[C1 C2]|[C1 C2]]; qlra.
Qed.
Lemma interpolate_light : forall s target max, sorted_index s -> no_negative s -> no_negative (interpolate_series s target max).
Proof.
  intros s target max HS H t v I. pose proof (light_noinf s H) as HI.
  assert (N : interpolate_series s target max = map (fun t => (t, NaN)) target -> v = NaN).
  { intros E. rewrite E in I. apply in_map_iff in I. destruct I as (u & Eu & _). now injection Eu. }
  destruct max as [m|].
  - destruct (qle 0 m) eqn:E; qb.
    + destruct (interpolate_spec s target (Some m) m HS HI eq_refl E) as [_ K]. exact (interp_light s m t v H (K _ _ I)).
    + left. apply N, interpolate_no_limit; [exact HS|]. right. exists m. split; [reflexivity|exact E].
  - assert ((List.length (available s) < 2)%nat \/ (2 <= List.length (available s))%nat) as [HL | HL] by lia.
    + left. apply N, interpolate_no_limit; [exact HS|]. left. apply default_limit_few, HL.
    + destruct (default_limit_exists s HL) as [limit HLm].
      destruct (interpolate_spec s target None limit HS HI) as [_ K]; [apply limit_for_ok; auto|exact (limit_for_nonneg s limit HS HL HLm)|].
      exact (interp_light s limit t v H (K _ _ I)).
Qed.

(** ** Energy *)
Lemma hours_nonneg : forall z, (0 <= z)%Z -> 0 <= hours z.
Proof. intros z H. unfold hours. apply Qcle_trans with (0 * / qz 3600000000000); [discriminate|]. unfold Qcdiv. apply Qcmult_le_compat_r; [apply qz_nonneg, H|discriminate]. Qed.
Lemma qmult_nonneg : forall a b, 0 <= a -> 0 <= b -> 0 <= a * b.
Proof. intros a b A B. replace 0 with (0 * b) by ring. apply Qcmult_le_compat_r; assumption. Qed.
Lemma qsum_nonneg : forall {A} (f : A -> Qc) l, (forall x, In x l -> 0 <= f x) -> 0 <= qsum (map f l).
Proof.
  intros A f l. induction l as [|x l IH]; intros H; [discriminate|]. cbn [map]. rewrite qsum_cons.
  pose proof (H x (or_introl eq_refl)). specialize (IH (fun y I => H y (or_intror I))). qlra.
Qed.
Lemma rect_light : forall s limit lo hi, no_negative s -> 0 <= rect_energy s limit lo hi.
Proof.
  intros s limit lo hi H. apply qsum_nonneg. intros [[a p] [b q]] I. unfold steps_used in I. apply filter_In in I. destruct I as [I _].
  apply consec_fst in I. destruct I as [_ I]. apply points_In in I. destruct (H _ _ I) as [C|(x & E & P)]; [discriminate|]. injection E as <-.
  unfold rect_part. cbn [fst snd]. apply qmult_nonneg; [exact P|]. apply hours_nonneg. unfold overlap. lia.
Qed.
Theorem energy_light : forall freq s w out, sorted_index s -> no_negative s -> (0 < w)%Z ->
  energy_from_power freq s (Some w) None RightLabeled = Ok out -> no_negative out.
Proof.
  intros freq s w out S Nn Hw H. pose proof (light_noinf s Nn) as N.
  destruct (le_lt_dec 2 (List.length s)) as [L|L].
  - destruct (median_exists s L) as [med M]. intros t v I.
    assert (D : v = NaN \/ exists q, v = Fin q).
    { pose proof (energy_noinf freq s w out S N Hw H v) as X. assert (J : In v (vals out)) by (apply in_map_iff; exists (t, v); auto). specialize (X J). destruct v; auto; [| eauto |]; exfalso; destruct X; congruence. }
    destruct D as [D|[x D]]; [now left|]. right. exists x. split; [exact D|]. destruct (Qclt_le_dec 0 x) as [P|P]; [apply Qclt_le_weak, P|].
    assert (K : ~ ~ 0 <= x); [|destruct (Qclt_le_dec x 0) as [Q|Q]; [|exact Q]; exfalso; apply K; intros C; qlra].
    intros C. assert (V1 : v <> NaN) by (rewrite D; discriminate).
    destruct (Qclt_le_dec med (qz w)) as [Lt|Le].
    + destruct (energy_long freq s w None med S N L M Hw Lt) as [E1 E2].
      destruct (points s) eqn:Po; [rewrite E1 in H; [discriminate|reflexivity]|]. destruct E2 as (out' & E2 & _ & _ & E3); [discriminate|].
      rewrite H in E2. injection E2 as <-. destruct (E3 t v I) as (R1 & R2 & R3). apply V1, R2. intros Cv.
      assert (E4 : v = Fin (rect_energy s (the_limit None med) (t - w) t)) by (apply R3; [|exact Cv]; intros Lg; apply V1, R1, Lg).
      rewrite D in E4. injection E4 as ->. apply C, rect_light, Nn.
    + assert (Z0 : 0 <= the_limit None med). { cbn. apply Qcle_trans with (qz w); [|exact Le]. apply qz_nonneg. lia. }
      destruct (energy_short freq s (Some w) w None med (the_limit None med) S N L M eq_refl eq_refl Hw Le Z0) as [E1 E2].
      rewrite E1 in H; [discriminate|]. intros t0 q0 G Ip. destruct (E2 t0 q0 G Ip) as (out' & E3 & _ & _ & E4). rewrite H in E3. injection E3 as <-.
      destruct (E4 t v I) as (R1 & R2 & R3). apply V1, R2. intros q B.
      assert (E5 : v = Fin (q * hours w)) by (apply R3; [|exact B]; intros Lg; apply V1, R1, Lg).
      rewrite D in E5. injection E5 as ->. destruct B as (_ & B & _). destruct (interp_light _ _ _ _ Nn B) as [X|(q' & X & Pq)]; [discriminate|]. injection X as <-.
      apply C, qmult_nonneg; [exact Pq|apply hours_nonneg; lia].
  - destruct s as [|[t v] [|r s]]; [| |cbn in L; lia]; cbn [energy_from_power] in H; injection H as <-; intros u x I; [destruct I|].
    cbn [map fst snd] in I. destruct I as [I|[]]. injection I as _ <-. destruct (Nn t v (or_introl eq_refl)) as [->|(q & -> & Pq)]; [now left|]. right.
    eexists. split; [cbn; reflexivity|]. unfold Qcdiv. repeat apply qmult_nonneg; try exact Pq; try discriminate. apply qz_nonneg. lia.
Qed.
Lemma slower_dec : forall f1 (s1 : series) f2 (s2 : series), slower f1 (times s1) f2 (times s2) \/ ~ slower f1 (times s1) f2 (times s2).
Proof. intros f1 s1 f2 s2. rewrite <- slower_iff. destruct (fgt _ _); [now left|right; discriminate]. Qed.
Lemma normalize_light : forall infer pf mf energy model poa kind en ins, sorted_index energy -> freq_ok infer pf (times energy) -> sorted_index poa -> no_negative poa ->
  normalize_with_expected_power infer pf mf energy model poa kind = Ok (en, ins) -> no_negative ins.
Proof.
  intros infer pf mf energy model poa kind en ins S F Sp Np H.
  destruct (normalize_spec _ _ _ _ _ _ _ _ _ S F H) as (w & e & power & poa' & ee & ii & Hw & _ & Hs & _ & E2 & _ & _ & _ & _ & V2).
  assert (Pw : (0 < w)%Z) by (destruct F as [F1 F2]; destruct Hw as [A|[_ A]]; [apply (F1 w A)|apply (F2 w A)]).
  assert (Q : sorted_index poa' /\ no_negative poa').
  { cbv zeta in Hs. destruct Hs as [Hs1 Hs2].
    match type of Hs1 with ?X -> _ => assert (D : X \/ ~ X) by apply slower_dec end.
    destruct D as [D|D]; [|destruct (Hs2 D) as [_ ->]; auto]. destruct (Hs1 D) as [_ I]. unfold interpolate in I. cbn [target_index bind xorb] in I. injection I as <-.
    split; [apply interp_ok; auto; apply light_noinf, Np|apply interpolate_light; assumption]. }
  intros t x I. destruct (V2 t x I) as [J|[-> _]]; [|now left]. exact (energy_light None poa' w ii (proj1 Q) (proj2 Q) Pw E2 t x J).
Qed.

Section Runs.
Context {P W T O YK SK YR SR : Type}.
Local Notation env := (environment P W T O YK SK YR SR).
Local Notation st := (state P W T O YR SR).
Local Notation req := (@request YK SK).

Theorem data_light : forall (E : env) c (i : inputs W O) (k : completed P T) energy poa en ins,
  i_energy i = Present energy -> sorted_index energy -> freq_ok (e_infer E) (e_freq E (times energy)) (times energy) ->
  irradiance_of c i k = Some poa -> sorted_index poa -> no_negative poa -> data E c i k = Ok (en, ins) -> no_negative ins.
Proof.
  intros E c i k energy poa en ins He Se Fe Hp Sp Np D.
  assert (A : forall x, expected_norm E i x poa = Ok (en, ins) -> no_negative ins).
  { intros x D'. unfold expected_norm in D'. rewrite He in D'. cbn [read need bind] in D'. exact (normalize_light _ _ _ _ _ _ _ _ _ Se Fe Sp Np D'). }
  assert (B : forall cell, pvwatts_norm E i poa cell = Ok (en, ins) -> no_negative ins).
  { intros cell D'. unfold pvwatts_norm in D'. rewrite He in D'. cbn [read need bind] in D'. cbv zeta in D'. unfold normalize_with_pvwatts in D'. cbv zeta in D'.
    destruct (normalize_with_expected_power _ _ _ _ _ _ _) as [[en0 ins0]|] eqn:Nn; [|discriminate]. cbn [bind fst snd] in D'.
    pose proof (normalize_light _ _ _ _ _ _ _ _ _ Se Fe Sp Np Nn) as F. destruct (i_rated i); injection D' as _ <-; exact F. }
  destruct c; cbn [data] in D.
  - unfold sensor_data in D. cbn [irradiance_of] in Hp. rewrite Hp in D. cbn [need bind] in D.
    match type of D with bind ?x _ = _ => destruct x; [|discriminate] end. cbn [bind] in D.
    destruct (i_expected i) as [x|]; [exact (A x D)|]. match type of D with bind ?x _ = _ => destruct x; [|discriminate] end. cbn [bind] in D. exact (B _ D).
  - unfold clearsky_data in D. cbn [irradiance_of] in Hp. destruct (c_clear_poa k) as [| |p]; try discriminate. injection Hp as ->. cbn [bind] in D.
    repeat match type of D with bind ?x _ = _ => destruct x; [cbn [bind] in D|discriminate D] end.
    destruct (i_expected i) as [x|].
    + repeat match type of D with bind ?x _ = _ => destruct x; [cbn [bind] in D|discriminate D] end. exact (A x D).
    + repeat match type of D with bind ?x _ = _ => destruct x; [cbn [bind] in D|discriminate D] end. exact (B _ D).
Qed.

(** ** What is stored *)
Lemma weight_light : forall b w n, no_negative n -> 0 <= bin_weight b w n.
Proof.
  intros b w n H. apply qsum_nonneg. intros [t x] I. cbn [fst snd]. destruct (inside b w t); [|discriminate].
  destruct (H t x I) as [->|(q & -> & Q)]; [discriminate|exact Q].
Qed.
Theorem stored_sunny : forall (E : env) (q : req) (s s' : st), analyse E q s = (s', Ok tt) -> (0 < i_width (s_inputs s))%Z -> dividing (i_width (s_inputs s)) ->
  (forall energy insolation m, data E (q_case q) (s_inputs s) (completion E (s_inputs s) (s_completed s)) = Ok (energy, insolation) ->
     d_filter (side_of (q_case q) s') = Present m -> noinf (vals (kept_rows m energy)) /\ no_negative insolation) ->
  exists p i, d_performance (side_of (q_case q) s') = Present p /\ d_insolation (side_of (q_case q) s') = Present i /\ times i = times p /\ sunny p i.
Proof.
  intros E q s s' A Hw Dv Hd.
  destruct (pipeline E q s s' A Hw Dv) as (energy & insolation & m & a & c & M & p & i & D & Ht & Hs & Fm & _ & Hp & Hi & _ & B & _ & R & R').
  cbn [object s_inputs s_completed] in D. destruct (Hd energy insolation m D Fm) as [F1 F2]. exists p, i. split; [exact Hp|]. split; [exact Hi|].
  assert (F3 : no_negative (kept_rows m insolation)) by (intros t x I; apply kept_value in I; apply (F2 t x); tauto).
  destruct B as (B0 & _ & _ & B). destruct (B F1 (light_noinf _ F3)) as [B1 B2].
  destruct R as (R1 & R2 & R3). destruct R' as (R1' & R2' & R3').
  assert (Dec : forall b, In (b, true) M \/ ~ In (b, true) M) by (intros b; destruct (in_dec (fun r r' : Z * bool => ltac:(repeat decide equality)) (b, true) M); auto).
  split.
  { destruct R2 as [->|(b0 & k & T1 & A1 & A2)], R2' as [->|(b0' & k' & T1' & A1' & A2')]; [reflexivity| | |].
    - exfalso. exact (R1 _ A1').
    - exfalso. exact (R1' _ A1).
    - rewrite T1, T1'. pose proof (R1 _ A1') as X1. pose proof (R1 _ A2') as X2. pose proof (R1' _ A1) as X3. pose proof (R1' _ A2) as X4. rewrite T1 in X1, X2. rewrite T1' in X3, X4.
      apply in_map_iff in X1, X2, X3, X4. destruct X1 as (x1 & X1 & Y1), X2 as (x2 & X2 & Y2), X3 as (x3 & X3 & Y3), X4 as (x4 & X4 & Y4). apply in_seq in Y1, Y2, Y3, Y4.
      assert (b0 = b0') as -> by nia. assert (k = k') as -> by nia. reflexivity. }
  split.
  - intros b y I. destruct (R3' b y I) as [Q1 Q2]. destruct (Dec b) as [J|J]; [|left; apply Q2, J]. right. exists (bin_weight b (i_width (s_inputs s)) (kept_rows m insolation)).
    split; [apply B2, Q1, J|]. apply weight_light, F3.
  - intros b x I. destruct (R3 b _ I) as [Q1 Q2]. destruct (Dec b) as [J|J]; [|specialize (Q2 J); discriminate].
    pose proof (B1 _ _ (Q1 J)) as V. exists (bin_weight b (i_width (s_inputs s)) (kept_rows m insolation)). set (w := bin_weight _ _ _) in *.
    assert (W0 : w <> 0). { intros C. rewrite C in V. cbn [fdiv] in V. destruct (qeq 0 0) eqn:Z0; [|qb; congruence]. unfold inf_sgn in V. repeat match type of V with context [if ?b then _ else _] => destruct b end; discriminate V. }
    split.
    + pose proof (R1' _ J) as T'. apply in_map_iff in T'. destruct T' as ([b' y] & Eb & Iy). cbn [fst] in Eb. subst b'. destruct (R3' b y Iy) as [Q1' _].
      pose proof (B2 b y (Q1' J)) as Ey. fold w in Ey. rewrite <- Ey. exact Iy.
    + pose proof (weight_light b (i_width (s_inputs s)) _ F3) as X. fold w in X. destruct (Qcle_lt_or_eq _ _ X) as [Y|Y]; [exact Y|]. congruence.
Qed.
End Runs.

(** ** The reported soiling *)
Section Soiling.
Context {P W T O YK SK YR : Type}.
Local Notation env := (environment P W T O YK SK YR srr_result).
Local Notation st := (state P W T O YR srr_result).
Local Notation req := (@request YK SK).

Lemma kept_flat : forall c energy m, flat_at c energy -> noinf (vals (kept_rows m energy)).
Proof.
  intros c energy m F v I. apply in_map_iff in I. destruct I as ([t x] & <- & I). apply kept_value in I. destruct (F t x (proj2 I)) as [->| ->]; split; discriminate.
Qed.
Theorem analysis_clean : forall (E : env) (q : req) (s s' : st) level energy model index poa
  margin visit (ds : SK -> list draws) precip day_scale thr trim method c pthr minimum exc conf (rc : SK -> bool) limit step factor,
  let i := s_inputs s in let k := completion E i (s_completed s) in 0 < level ->
  (forall pts, 0 <= margin pts) -> (forall l, set_order l (visit l)) -> (forall y, (1 <= minimum y)%Z) ->
  (forall y p n, e_srr E y p n = soiling_srr (theil_fit margin) visit p n (ds y) (precip y) (day_scale y) (thr y) (trim y) (method y) (c y) (pthr y) (minimum y) (exc y) (conf y) (rc y) (limit y) (step y) (factor y)) ->
  (forall en, sorted_index en -> excludes_missing E en) -> dget "normalized_filter" (params_of s) <> None ->
  i_energy i = Present energy -> irradiance_of (q_case q) i k = Some poa -> sorted_index poa -> no_negative poa ->
  model_of (q_case q) i k model index -> proportional (e_infer E) (e_freq E) level energy model index ->
  analyse E q s = (s', Ok tt) -> In "srr_soiling"%string (q_names q) ->
  exists y res, d_result (side_of (q_case q) s') = Some (Outcome y (Some res)) /\ never_soiled res /\
    sr_renorm res = Fin (if rc (q_srr q) then level_of i level else 1).
Proof.
  intros E q s s' level energy model index poa margin visit ds precip day_scale thr trim method c pthr minimum exc conf rc limit step factor i k
    Hl Hm Hv Hmin Es Ex Cf He Hp Sp Np Hmod Pr A Rq.
  assert (Hc : 0 < level_of i level) by (unfold level_of; destruct (i_expected i), (i_rated i); try exact Hl; reflexivity).
  destruct (call_entry E q s s' _ A) as (_ & _ & _ & C). destruct (C eq_refl) as (p & n & y & z & C1 & C2 & C3 & _ & C5).
  destruct C5 as [(_ & Wd & v & Ev & ->)|[N _]]; [|contradiction].
  assert (Hw : (0 < i_width i)%Z) by (unfold i; rewrite Wd; reflexivity).
  assert (Dv : dividing (i_width i)) by (unfold i; rewrite Wd; exists 1%Z; left; ring).
  assert (DF : forall en ins, data E (q_case q) i k = Ok (en, ins) -> flat_at (level_of i level) en /\ noinf (vals ins))
    by (intros en ins D; exact (data_flat E (q_case q) i k level energy model index poa en ins Hl He Hp Sp (light_noinf _ Np) Hmod Pr D)).
  destruct (stored_flat E q s s' (level_of i level) Hc A Hw Dv Cf) as (p' & P1 & P2).
  { intros en ins D. destruct (DF en ins D) as [D1 D2]. split; [exact D1|]. split; [exact D2|]. apply Ex. exact (proj2 (data_one E _ _ _ _ _ D)). }
  rewrite C1 in P1. injection P1 as <-.
  destruct (stored_sunny E q s s' A Hw Dv) as (p' & n' & Q1 & Q2 & _ & Q3).
  { intros en ins m D _. split; [exact (kept_flat _ en m (proj1 (DF en ins D)))|].
    destruct Pr as (S & F & _). exact (data_light E (q_case q) i k energy poa en ins He S F Hp Sp Np D). }
  rewrite C1 in Q1. injection Q1 as <-. rewrite C2 in Q2. injection Q2 as <-.
  exists y, v. split; [exact C3|]. rewrite Es in Ev.
  destruct (srr_clean _ _ _ _ _ _ _ _ _ _ _ _ _ _ _ _ _ _ _ _ _ Hm Hv (Hmin _) Hc P2 Q3 Ev) as (R1 & R2 & _). split; [exact R1|exact R2].
Qed.

Theorem raw_clean : forall (E : env) empty poa cell ambient gamma width wind expected tm rated w max level (s s' : st) (q : req)
  margin visit (ds : SK -> list draws) precip day_scale thr trim method c pthr minimum exc conf (rc : SK -> bool) limit step factor,
  sorted_index expected -> noinf (vals expected) -> (0 < w)%Z -> three_steps w expected -> at_least w max -> recognises (e_infer E) (e_freq E) w ->
  sorted_index poa -> no_negative poa -> 0 < level ->
  (forall pts, 0 <= margin pts) -> (forall l, set_order l (visit l)) -> (forall y, (1 <= minimum y)%Z) ->
  (forall y p n, e_srr E y p n = soiling_srr (theil_fit margin) visit p n (ds y) (precip y) (day_scale y) (thr y) (trim y) (method y) (c y) (pthr y) (minimum y) (exc y) (conf y) (rc y) (limit y) (step y) (factor y)) ->
  (forall en, sorted_index en -> excludes_missing E en) ->
  construct_analysis E empty (share level expected) (Some poa) cell ambient gamma width PvPower wind (Some expected) tm rated (Some w) max = Ok s ->
  q_case q = Sensor -> In "srr_soiling"%string (q_names q) -> analyse E q s = (s', Ok tt) ->
  exists y res, d_result (s_sensor s') = Some (Outcome y (Some res)) /\ never_soiled res /\ sr_renorm res = Fin (if rc (q_srr q) then level else 1).
Proof.
  intros E empty poa cell ambient gamma width wind expected tm rated w max level s s' q margin visit ds precip day_scale thr trim method c pthr minimum exc conf rc limit step factor
    HS HI HW H3 HM HR Sp Np Hl Hm Hv Hmin Es Ex HC Hq Rq A.
  destruct (raw_proportional E empty (Some poa) cell ambient gamma width wind expected tm rated w max level s HS HI HW H3 HM HR HC)
    as (energy & model & R1 & R2 & R3 & R4 & R5 & R6 & R7 & R8).
  destruct (interp_ok poa (times model) max Sp (light_noinf _ Np) R4) as [Sp' _]. specialize (R8 poa eq_refl).
  pose proof (analysis_clean E q s s' level energy model model (interpolate_series poa (times model) max) margin visit ds precip day_scale thr trim method c pthr minimum exc conf rc limit step factor
    Hl Hm Hv Hmin Es Ex R7) as F.
  rewrite Hq in F. unfold level_of in F. rewrite R2 in F. cbn [irradiance_of side_of] in F.
  apply F; try assumption; [apply interpolate_light; assumption|]. unfold model_of. rewrite R2. split; reflexivity.
Qed.

Lemma clear_light : forall (E : env) loc o p cell ambient (s s' : st) energy, set_clearsky loc o (Some p) cell ambient s = (s', Ok tt) ->
  i_energy (s_inputs s) = Present energy -> sorted_index energy -> sorted_index p -> no_negative p ->
  exists poa, irradiance_of Clearsky (s_inputs s') (completion E (s_inputs s') (s_completed s')) = Some poa /\ sorted_index poa /\ no_negative poa.
Proof.
  intros E loc o p cell ambient s s' energy H He Se Sp Np. unfold set_clearsky in H. rewrite He in H. cbn [use bind interpolated] in H.
  unfold interpolate in H at 1. cbn [target_index bind xorb] in H.
  repeat match type of H with context [bind ?x _] => destruct x as [?|] eqn:?; cbn [bind] in H; [| discriminate H] end.
  injection H as <-.
  eexists. split; [reflexivity |]. split; [apply interp_ok; try assumption; now apply light_noinf|now apply interpolate_light].
Qed.
Theorem raw_clean_clear : forall (E : env) empty poa cell ambient gamma width wind expected tm rated w max level (s0 s s' : st) (q : req) loc o clear cell' ambient'
  margin visit (ds : SK -> list draws) precip day_scale thr trim method c pthr minimum exc conf (rc : SK -> bool) limit step factor,
  sorted_index expected -> noinf (vals expected) -> (0 < w)%Z -> three_steps w expected -> at_least w max -> recognises (e_infer E) (e_freq E) w ->
  sorted_index clear -> no_negative clear -> 0 < level ->
  (forall pts, 0 <= margin pts) -> (forall l, set_order l (visit l)) -> (forall y, (1 <= minimum y)%Z) ->
  (forall y p n, e_srr E y p n = soiling_srr (theil_fit margin) visit p n (ds y) (precip y) (day_scale y) (thr y) (trim y) (method y) (c y) (pthr y) (minimum y) (exc y) (conf y) (rc y) (limit y) (step y) (factor y)) ->
  (forall en, sorted_index en -> excludes_missing E en) ->
  construct_analysis E empty (share level expected) poa cell ambient gamma width PvPower wind (Some expected) tm rated (Some w) max = Ok s0 ->
  set_clearsky loc o (Some clear) cell' ambient' s0 = (s, Ok tt) ->
  q_case q = Clearsky -> In "srr_soiling"%string (q_names q) -> analyse E q s = (s', Ok tt) ->
  exists y res, d_result (s_clear s') = Some (Outcome y (Some res)) /\ never_soiled res /\ sr_renorm res = Fin (if rc (q_srr q) then level else 1).
Proof.
  intros E empty poa cell ambient gamma width wind expected tm rated w max level s0 s s' q loc o clear cell' ambient' margin visit ds precip day_scale thr trim method c pthr minimum exc conf rc limit step factor
    HS HI HW H3 HM HR Sp Np Hl Hm Hv Hmin Es Ex HC HS' Hq Rq A.
  destruct (raw_proportional E empty poa cell ambient gamma width wind expected tm rated w max level s0 HS HI HW H3 HM HR HC)
    as (energy & model & R1 & R2 & R3 & R4 & R5 & R6 & R7 & _).
  destruct (clear_ready E loc o clear cell' ambient' s0 s energy HS' R1 (proj1 R3) Sp (light_noinf _ Np)) as (C1 & C2 & C3 & C4 & _).
  destruct (clear_light E loc o clear cell' ambient' s0 s energy HS' R1 (proj1 R3) Sp Np) as (poa' & C5 & C6 & C7).
  rewrite <- C4 in R7. rewrite R2 in C2.
  pose proof (analysis_clean E q s s' level energy model model poa' margin visit ds precip day_scale thr trim method c pthr minimum exc conf rc limit step factor
    Hl Hm Hv Hmin Es Ex R7) as F.
  rewrite Hq in F. unfold level_of in F. rewrite C2 in F. cbn [side_of] in F.
  apply F; try assumption. unfold model_of. rewrite C2. split; reflexivity.
Qed.
End Soiling.
