(** An analysis of a system that always delivers the same multiple of its modelled energy. *)

From Coq Require Import QArith Qcanon List ZArith Bool Arith String Sorted Permutation Lia.
From Verif.Base Require Import QcExtra ISort Quantile Fl TimeSeries Calendar Rolling.
From Verif.Model Require Import Utilities Interpolation Energy Normalization Filters FilterDict TrendAnalysis YearOnYear.
From Verif.Spec Require Import Stats Interp Energy Filters Normalization FilterSets TrendRuns TrendCalls Pipeline YoY Steady.
From Verif.Proofs Require Import StatsP EnergyP2 EnergyP4 FiltersP NormP NormP2 TrendP3 TrendP4 TrendP5 TrendP7 TrendP8 SteadyP.
Import ListNotations.
Open Scope list_scope.
Open Scope Qc_scope.

(** ** Energy has no infinite values *)
Lemma energy_noinf : forall freq s w out, sorted_index s -> noinf (vals s) -> (0 < w)%Z ->
  energy_from_power freq s (Some w) None RightLabeled = Ok out -> noinf (vals out).
Proof.
  intros freq s w out S N Hw H.
  destruct (le_lt_dec 2 (List.length s)) as [L|L].
  - destruct (median_exists s L) as [med M]. intros v I. apply in_map_iff in I. destruct I as ([t v'] & <- & I). cbn [snd].
    assert (C : (v' <> NaN -> ~ forall q, v' <> Fin q) -> v' <> PInf /\ v' <> NInf) by (intros C; split; intros ->; (apply C; [discriminate|intros q; discriminate])).
    apply C. clear C. intros V1 V2. destruct (Qclt_le_dec med (qz w)) as [Lt|Le].
    + destruct (energy_long freq s w None med S N L M Hw Lt) as [E1 E2].
      destruct (points s) eqn:P; [rewrite E1 in H; [discriminate|reflexivity]|]. destruct E2 as (out' & E2 & _ & _ & E3); [discriminate|].
      rewrite H in E2. injection E2 as <-. destruct (E3 t v' I) as (R1 & R2 & R3). apply V1, R2. intros Cv. apply (V2 (rect_energy s (the_limit None med) (t - w) t)). apply R3; [|exact Cv]. intros Lg. apply V1, R1, Lg.
    + assert (Z0 : 0 <= the_limit None med). { cbn. apply Qcle_trans with (qz w); [|exact Le]. apply qz_nonneg. lia. }
      destruct (energy_short freq s (Some w) w None med (the_limit None med) S N L M eq_refl eq_refl Hw Le Z0) as [E1 E2].
      rewrite E1 in H; [discriminate|]. intros t0 q0 G Ip. destruct (E2 t0 q0 G Ip) as (out' & E3 & _ & _ & E4). rewrite H in E3. injection E3 as <-.
      destruct (E4 t v' I) as (R1 & R2 & R3). apply V1, R2. intros q B. apply (V2 (q * hours w)). apply R3; [|exact B]. intros Lg. apply V1, R1, Lg.
  - destruct s as [|[t v] [|r s]]; [| |cbn in L; lia]; cbn [energy_from_power] in H; injection H as <-; intros x I; [destruct I|].
    cbn in I. destruct I as [<-|[]]. destruct (N v (or_introl eq_refl)). destruct v; cbn; split; congruence.
Qed.

(** ** The ratio is constant *)
Lemma ratio_flat : forall c y, fdiv (fmul (Fin c) y) y = Fin c \/ fdiv (fmul (Fin c) y) y = NaN.
Proof.
  intros c [| |q|]; cbn; auto.
  - right. unfold inf_sgn. repeat match goal with |- context [if ?b then _ else _] => destruct b end; reflexivity.
  - destruct (qeq q 0) eqn:Q; qb.
    + right. subst q. replace (c * 0) with 0 by ring. reflexivity.
    + left. f_equal. field. exact Q.
  - right. unfold inf_sgn. repeat match goal with |- context [if ?b then _ else _] => destruct b end; reflexivity.
Qed.
Lemma value_scaled : forall c s t p, value_at (map (fun r => (fst r, fmul (Fin c) (snd r))) s) t p ->
  exists q, value_at s t q /\ p = fmul (Fin c) q.
Proof.
  intros c s t p [I|[-> I]].
  - apply in_map_iff in I. destruct I as ([u v] & E & I). injection E as <- <-. exists v. split; [now left|reflexivity].
  - exists NaN. split; [right; split; [reflexivity|]|reflexivity]. intros J. apply I. unfold times in *. rewrite map_map. exact J.
Qed.
Lemma normalize_flat : forall infer freq c energy model index poa en ins, proportional infer freq c energy model index -> sorted_index poa -> noinf (vals poa) ->
  normalize_with_expected_power infer (freq (times energy)) (freq (times index)) energy model poa PvEnergy = Ok (en, ins) -> flat_at c en /\ noinf (vals ins).
Proof.
  intros infer freq c energy model index poa en ins (S & F & Ns & w & modelled & Hw & Hm & He) Sp Np H.
  destruct (normalize_spec _ _ _ _ _ _ _ _ _ S F H) as (w' & e & power & poa' & ee & ii & Hw' & Hk & Hs & E1 & E2 & _ & _ & _ & V1 & V2).
  destruct Hk as [[K _]|[_ ->]]; [discriminate|]. cbv zeta in Hs. destruct (proj2 Hs Ns) as [-> ->]. clear Hs.
  assert (w' = w) as -> by (destruct Hw as [A|[A B]], Hw' as [A'|[A' B']]; congruence). rewrite Hm in E1. injection E1 as <-.
  assert (P : (0 < w)%Z) by (destruct F as [F1 F2]; destruct Hw as [A|[_ A]]; [apply (F1 w A)|apply (F2 w A)]).
  assert (Nd : NoDup (times energy)) by (apply TrendP7.sorted_nodup, S).
  split.
  - intros t v I. destruct (value_scaled c modelled t) with (p := lookup energy t) as (q & Vq & Eq).
    { rewrite <- He. apply lookup_value_at, Nd. }
    rewrite (V1 t v (lookup energy t) q I (lookup_value_at energy t Nd) Vq), Eq. apply ratio_flat.
  - intros v I. apply in_map_iff in I. destruct I as ([t x] & <- & I). cbn [snd]. destruct (V2 t x I) as [J|[-> _]]; [|split; discriminate].
    apply (energy_noinf None poa w ii Sp Np P E2). apply in_map_iff. exists (t, x). auto.
Qed.
Lemma flat_rescaled : forall c q s, c <> 0 -> 0 <= q -> q <= 1 -> flat_at c s -> flat_at 1 (on_values (fun x => fdiv x (robust_quantile q (filter is_finite (vals s)))) s).
Proof.
  intros c q s Hc H0 H1 F t v I. apply in_map_iff in I. destruct I as ([u x] & E & I). injection E as <- <-. destruct (F u x I) as [->| ->]; [|now right].
  assert (R : robust_quantile q (filter is_finite (vals s)) = Fin c \/ robust_quantile q (filter is_finite (vals s)) = NaN).
  { unfold robust_quantile. set (l := filter is_finite (vals s)). destruct (robust_keep q l) as [|y k] eqn:Ek; [now right|]. rewrite <- Ek. left.
    apply const_quantile; [rewrite Ek; discriminate|exact H0|exact H1|]. intros y' Iy. unfold robust_keep in Iy. apply filter_In in Iy. destruct Iy as [Iy _].
    unfold l in Iy. apply filter_In in Iy. destruct Iy as [Iy Fy]. destruct (flat_vals c s y' F Iy) as [->| ->]; [reflexivity|discriminate]. }
  cbn [fst snd]. destruct R as [->| ->]; [|right; reflexivity]. left. cbn [fdiv]. destruct (qeq c 0) eqn:Q; qb; [contradiction|]. f_equal. field. exact Q.
Qed.

Section Analyses.
Context {P W T O YK SK YR SR : Type}.
Local Notation env := (environment P W T O YK SK YR SR).
Local Notation st := (state P W T O YR SR).
Local Notation req := (@request YK SK).

(** ** Normalized energy *)
Theorem data_flat : forall (E : env) c (i : inputs W O) (k : completed P T) level energy model index poa en ins, 0 < level ->
  i_energy i = Present energy -> irradiance_of c i k = Some poa -> sorted_index poa -> noinf (vals poa) ->
  model_of c i k model index -> proportional (e_infer E) (e_freq E) level energy model index ->
  data E c i k = Ok (en, ins) -> flat_at (level_of i level) en /\ noinf (vals ins).
Proof.
  intros E c i k level energy model index poa en ins Hl He Hp Sp Np Hm Pr D.
  assert (A : forall x, i_expected i = Some x -> expected_norm E i x poa = Ok (en, ins) -> flat_at (level_of i level) en /\ noinf (vals ins)).
  { intros x Hx D'. unfold model_of in Hm. rewrite Hx in Hm. destruct Hm as [-> ->]. unfold expected_norm in D'. rewrite He in D'. cbn [read need bind] in D'.
    unfold level_of. rewrite Hx. exact (normalize_flat _ _ _ _ _ _ _ _ _ Pr Sp Np D'). }
  assert (B : forall cell, i_expected i = None -> temperature_of c k = Some cell -> pvwatts_norm E i poa cell = Ok (en, ins) -> flat_at (level_of i level) en /\ noinf (vals ins)).
  { intros cell Hx Hc D'. unfold model_of in Hm. rewrite Hx in Hm. destruct Hm as (poa' & cell' & Hp' & Hc' & -> & ->). rewrite Hp in Hp'. injection Hp' as <-. rewrite Hc in Hc'. injection Hc' as <-.
    unfold pvwatts_norm in D'. rewrite He in D'. cbn [read need bind] in D'. cbv zeta in D'. unfold normalize_with_pvwatts in D'. cbv zeta in D'.
    destruct (normalize_with_expected_power _ _ _ _ _ _ _) as [[en0 ins0]|] eqn:Nn; [|discriminate]. cbn [bind fst snd] in D'.
    destruct (normalize_flat _ _ _ _ _ _ _ _ _ Pr Sp Np Nn) as [F1 F2]. unfold level_of. rewrite Hx.
    destruct (i_rated i); injection D' as <- <-; [auto|]. split; [|exact F2]. apply (flat_rescaled level); [intros ->; qlra| | |exact F1]; discriminate. }
  destruct c; cbn [data] in D.
  - unfold sensor_data in D. cbn [irradiance_of] in Hp. rewrite Hp in D. cbn [need bind] in D.
    match type of D with bind ?x _ = _ => destruct x; [|discriminate] end. cbn [bind] in D.
    destruct (i_expected i) as [x|] eqn:Hx; [exact (A x eq_refl D)|].
    pose proof Hm as Hm'. unfold model_of in Hm'. rewrite Hx in Hm'. destruct Hm' as (_ & cell & _ & Hc & _). cbn [temperature_of] in Hc. rewrite Hc in D. cbn [bind] in D.
    exact (B cell eq_refl Hc D).
  - unfold clearsky_data in D. cbn [irradiance_of] in Hp. destruct (c_clear_poa k) as [| |p]; try discriminate. injection Hp as ->. cbn [bind] in D.
    destruct (i_expected i) as [x|] eqn:Hx.
    + match type of D with bind ?x _ = _ => destruct x; [|discriminate] end. exact (A x eq_refl D).
    + pose proof Hm as Hm'. unfold model_of in Hm'. rewrite Hx in Hm'. destruct Hm' as (_ & cell & _ & Hc & _). pose proof Hc as Hc'. cbn [temperature_of] in Hc. destruct (c_clear_cell k) as [| |q]; try discriminate. injection Hc as ->.
      cbn [bind] in D. exact (B cell eq_refl Hc' D).
Qed.

(** ** Stored performance *)
Lemma bin_flat : forall w b c n e, times e = times n -> (forall t v, In (t, v) e -> v = Fin c) -> bin_energy b w n e = c * bin_weight b w n.
Proof.
  intros w b c n. induction n as [|[t y] n IH]; intros e Ht H; destruct e as [|[t' x] e]; try discriminate; [unfold bin_energy, bin_weight; cbn; ring|].
  injection Ht as -> Ht. unfold bin_energy, bin_weight in *. cbn [combine map fst snd]. rewrite !qsum_cons. rewrite (IH e Ht) by (intros u v I; apply (H u); now right).
  rewrite (H t x (or_introl eq_refl)). destruct (inside b w t); cbn [present]; ring.
Qed.
Theorem stored_flat : forall (E : env) (q : req) (s s' : st) c, 0 < c -> analyse E q s = (s', Ok tt) -> (0 < i_width (s_inputs s))%Z -> dividing (i_width (s_inputs s)) ->
  dget "normalized_filter" (params_of s) <> None ->
  (forall energy insolation, data E (q_case q) (s_inputs s) (completion E (s_inputs s) (s_completed s)) = Ok (energy, insolation) ->
     flat_at c energy /\ noinf (vals insolation) /\ excludes_missing E energy) ->
  exists p, d_performance (side_of (q_case q) s') = Present p /\ flat_at c p.
Proof.
  intros E q s s' c Hc A Hw Dv Cf Hd.
  destruct (pipeline E q s s' A Hw Dv) as (energy & insolation & m & a & c' & M & p & i & D & Ht & Hs & _ & _ & Hp & _ & F & B & _ & R & _).
  cbn [object s_inputs s_completed] in D. destruct (Hd energy insolation D) as (F1 & F2 & F3). exists p. split; [exact Hp|].
  destruct F as (parts & idx & [_ Pa] & Ci & Mk).
  assert (K : forall t v, In (t, v) (kept_rows m energy) -> v = Fin c).
  { intros t v I. apply kept_value in I. destruct I as [I J]. destruct (F1 t v J) as [->| ->]; [reflexivity|]. exfalso.
    destruct (proj1 (proj2 Mk t) I) as [_ (_ & Kp & _)].
    inversion Pa as [|k0 m0 l0 r0 U G Rest|k0 l0 r0 U Rest]; subst.
    - destruct G as (_ & pp & _ & Cl). inversion Cl; subst; try (match goal with H : In _ _ |- _ => destruct H as [H|[H|[]]]; discriminate H end).
      match goal with N : e_normalized E pp energy = Ok m0 |- _ => exact (F3 pp m0 t N J (Kp _ _ (or_introl eq_refl))) | N : Ok m0 = e_normalized E pp energy |- _ => exact (F3 pp m0 t (eq_sym N) J (Kp _ _ (or_introl eq_refl))) end.
    - apply U. unfold used. cbn [String.eqb]. intros N. apply Cf. rewrite <- N. unfold params_of. cbn [object s_completed completion c_params]. rewrite exclude_cleaned. symmetry. apply dget_cleaned. discriminate. }
  destruct B as (_ & _ & _ & B).
  assert (N1 : noinf (vals (kept_rows m energy))) by (intros v I; apply in_map_iff in I; destruct I as ([t x] & <- & I); rewrite (K t x I); split; discriminate).
  assert (N2 : noinf (vals (kept_rows m insolation))) by (intros v I; apply F2; apply in_map_iff in I; destruct I as ([t x] & <- & I); apply kept_value in I; apply in_map_iff; exists (t, x); tauto).
  destruct (B N1 N2) as [B1 _].
  intros b x I. destruct R as (_ & _ & R). destruct (R b x I) as [R1 R2].
  destruct (in_dec (fun r r' : Z * bool => ltac:(repeat decide equality)) (b, true) M) as [J|J]; [|right; apply R2, J].
  rewrite (B1 b x (R1 J)). rewrite (bin_flat _ b c) by (try exact K; rewrite !times_kept, Ht; reflexivity).
  set (w := bin_weight _ _ _). cbn [fdiv]. destruct (qeq w 0) eqn:Q; qb; [right|left; f_equal; field; exact Q]. rewrite Q. replace (c * 0) with 0 by ring. reflexivity.
Qed.
End Analyses.

(** ** The reported degradation *)
Section Degradation.
Context {P W T O YK SK SR : Type}.
Local Notation env := (environment P W T O YK SK yoy_out SR).
Local Notation st := (state P W T O yoy_out SR).
Local Notation req := (@request YK SK).
Theorem analysis_flat : forall (E : env) (q : req) (s s' : st) level energy model index poa infer sortv choice starts (recenter : YK -> bool) ep cl (m : YK -> umethod),
  let i := s_inputs s in let k := completion E i (s_completed s) in 0 < level ->
  sorts_by_shifted sortv -> draws_ok choice -> starts <> [] ->
  (forall y p, e_yoy E y p = degradation_year_on_year infer sortv choice starts (recenter y) (ep y) (cl y) (m y) p) ->
  (forall en, sorted_index en -> excludes_missing E en) -> dget "normalized_filter" (params_of s) <> None ->
  (0 < i_width i)%Z -> dividing (i_width i) ->
  i_energy i = Present energy -> irradiance_of (q_case q) i k = Some poa -> sorted_index poa -> noinf (vals poa) ->
  model_of (q_case q) i k model index -> proportional (e_infer E) (e_freq E) level energy model index ->
  analyse E q s = (s', Ok tt) -> In "yoy_degradation"%string (q_names q) ->
  exists o z, d_result (side_of (q_case q) s') = Some (Outcome (Some o) z) /\ no_change o /\
    yo_renorm o = (if recenter (q_yoy q) then Fin (level_of i level) else Fin 1).
Proof.
  intros E q s s' level energy model index poa infer sortv choice starts recenter ep cl m i k Hl Sv Dr St Ey Ex Cf Hw Dv He Hp Sp Np Hm Pr A Rq.
  assert (Hc : 0 < level_of i level) by (unfold level_of; destruct (i_expected i), (i_rated i); try exact Hl; reflexivity).
  destruct (stored_flat E q s s' (level_of i level) Hc A Hw Dv Cf) as (p & P1 & P2).
  { intros en ins D. destruct (data_flat E (q_case q) i k level energy model index poa en ins Hl He Hp Sp Np Hm Pr D) as [D1 D2]. split; [exact D1|]. split; [exact D2|]. apply Ex. exact (proj2 (data_one E _ _ _ _ _ D)). }
  destruct (call_entry E q s s' _ A) as (_ & _ & _ & C). destruct (C eq_refl) as (p' & i' & y & z & C1 & _ & C3 & C4 & _).
  rewrite P1 in C1. injection C1 as <-. destruct C4 as [(_ & _ & v & Ev & ->)|[N _]]; [|contradiction].
  exists v, z. split; [exact C3|]. rewrite Ey in Ev. exact (flat_rate _ _ _ _ _ _ _ _ _ _ _ Hc Sv Dr St P2 Ev).
Qed.
End Degradation.

(** ** The filter *)
Lemma normalized_excludes : forall low high (s : series) t, In (t, NaN) s -> NoDup (times s) -> ~ holds (normalized_filter low high s) t.
Proof.
  intros low high s t I N (before & after & E & _).
  assert (J : In (t, true) (normalized_filter low high s)) by (rewrite E; apply in_or_app; right; now left).
  unfold normalized_filter, where_ in J. apply in_map_iff in J. destruct J as ([u v] & Ev & J). injection Ev as -> Ev. cbn [fst snd] in *.
  assert (v = NaN) as ->.
  { clear -I J N. induction s as [|[a b] s IH]; [destruct I|]. cbn in N. inversion N as [|x l N1 N2]; subst.
    destruct I as [I|I], J as [J|J]; [congruence| | |exact (IH I N2 J)]; exfalso; apply N1; [injection I as -> ->|injection J as -> ->]; apply in_map_iff; eexists; split; try eassumption; reflexivity. }
  unfold between, fgt, flt in Ev. destruct (match low with Some l => l | None => NInf end); discriminate Ev.
Qed.
Theorem filter_excludes : forall {P W T O YK SK YR SR : Type} (E : environment P W T O YK SK YR SR) (low high : P -> option fl),
  (forall p s, e_normalized E p s = Ok (normalized_filter (low p) (high p) s)) -> forall en, sorted_index en -> excludes_missing E en.
Proof.
  intros P W T O YK SK YR SR E low high H en S p m t Hm I. rewrite H in Hm. injection Hm as <-. apply normalized_excludes; [exact I|]. apply TrendP7.sorted_nodup, S.
Qed.
