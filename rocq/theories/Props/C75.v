(** C75: a system that does not degrade shows no degradation *)

From Coq Require Import QArith Qcanon List ZArith Bool Arith Lia Permutation Sorted.
From Verif.Base Require Import QcExtra ISort Quantile Fl TimeSeries Calendar Rolling.
From Verif.Spec Require Import Stats Normalization FilterSets TrendRuns TrendCalls Pipeline YoY Steady.
From Verif.Model Require Import Energy Normalization Filters FilterDict TrendAnalysis YearOnYear.
From Verif.Proofs Require Import SteadyP SteadyP2.
Import ListNotations.
Open Scope list_scope.
Open Scope Qc_scope.
From Coq Require Import String.
From Verif.Proofs Require Import TrendP8.
From Verif.Props Require Import YoYDemo.
Open Scope list_scope.
Open Scope Qc_scope.

(** Year-on-year degradation of a constant, with any gaps and any uncertainty method: no change in any pair, in the rate, in the interval, in the exceedance level; the factor is the constant. *)
Theorem C75_rate : forall infer sortv choice starts rc ep cl m input c o, 0 < c -> sorts_by_shifted sortv -> draws_ok choice -> starts <> [] -> flat_at c input ->
  degradation_year_on_year infer sortv choice starts rc ep cl m input = Ok o -> no_change o /\ yo_renorm o = (if rc then Fin c else Fin 1).
Proof. exact flat_rate. Qed.

(** Measured energy that is a multiple of the modelled one gives constant normalized energy, in both cases, for expected power and for PVWatts; without a rating the constant becomes 1. *)
Theorem C75_data : forall {P W T O YK SK YR SR} (E : environment P W T O YK SK YR SR) c (i : inputs W O) (k : completed P T) level energy model index poa en ins, 0 < level ->
  i_energy i = Present energy -> irradiance_of c i k = Some poa -> sorted_index poa -> noinf (vals poa) ->
  model_of c i k model index -> proportional (e_infer E) (e_freq E) level energy model index ->
  data E c i k = Ok (en, ins) -> flat_at (level_of i level) en /\ noinf (vals ins).
Proof. exact (fun P W T O YK SK YR SR => @data_flat P W T O YK SK YR SR). Qed.

(** Constant normalized energy is stored as constant performance, whatever the filters, if one of them excludes missing values. *)
Theorem C75_stored : forall {P W T O YK SK YR SR} (E : environment P W T O YK SK YR SR) (q : @request YK SK) (s s' : state P W T O YR SR) c, 0 < c ->
  analyse E q s = (s', Ok tt) -> (0 < i_width (s_inputs s))%Z -> dividing (i_width (s_inputs s)) ->
  dget "normalized_filter" (params_of s) <> None ->
  (forall energy insolation, data E (q_case q) (s_inputs s) (completion E (s_inputs s) (s_completed s)) = Ok (energy, insolation) ->
     flat_at c energy /\ noinf (vals insolation) /\ excludes_missing E energy) ->
  exists p, d_performance (side_of (q_case q) s') = Present p /\ flat_at c p.
Proof. exact (fun P W T O YK SK YR SR => @stored_flat P W T O YK SK YR SR). Qed.

(** The normalized filter is such a filter, with any limits. *)
Theorem C75_filter : forall {P W T O YK SK YR SR} (E : environment P W T O YK SK YR SR) (low high : P -> option fl),
  (forall p s, e_normalized E p s = Ok (normalized_filter (low p) (high p) s)) -> forall en, sorted_index en -> excludes_missing E en.
Proof. exact (fun P W T O YK SK YR SR => @filter_excludes P W T O YK SK YR SR). Qed.

(** From the measured energy to the reported degradation. *)
Theorem C75_analysis : forall {P W T O YK SK SR} (E : environment P W T O YK SK yoy_out SR) (q : @request YK SK) (s s' : state P W T O yoy_out SR) level energy model index poa
  infer sortv choice starts (recenter : YK -> bool) ep cl (m : YK -> umethod),
  let i := s_inputs s in let k := completion E i (s_completed s) in 0 < level ->
  sorts_by_shifted sortv -> draws_ok choice -> starts <> [] ->
  (forall y p, e_yoy E y p = degradation_year_on_year infer sortv choice starts (recenter y) (ep y) (cl y) (m y) p) ->
  (forall en, sorted_index en -> excludes_missing E en) -> dget "normalized_filter" (params_of s) <> None ->
  (0 < i_width i)%Z -> dividing (i_width i) ->
  i_energy i = Present energy -> irradiance_of (q_case q) i k = Some poa -> sorted_index poa -> noinf (vals poa) ->
  model_of (q_case q) i k model index -> proportional (e_infer E) (e_freq E) level energy model index ->
  analyse E q s = (s', Ok tt) -> In "yoy_degradation"%string (q_names q) ->
  exists o z, d_result (side_of (q_case q) s') = Some (Outcome (Some o) z) /\ no_change o /\
    yo_renorm o = (if recenter (q_yoy q) then Fin (level_of i level) else Fin 1).
Proof. exact (fun P W T O YK SK SR => @analysis_flat P W T O YK SK SR). Qed.

(** Twelve rows every 73 days: irradiance, expected power in proportion, one of them missing; the
    measured energy is 0.9 times the expected one. *)
Definition step : Z := (73 * ns_day)%Z.
Definition every (w : Z) (l : list fl) : series := combine (map (fun k => (Z.of_nat k * w)%Z) (seq 0 (List.length l))) l.
Definition sun : list fl := [fz 5; fz 6; fz 8; fz 9; fz 7; fz 5; NaN; fz 8; fz 9; fz 4; fz 6; fz 6].
Definition expected12 : series := every step sun.
Definition poa12 : series := every step (map (fun x => fmul (fz 100) (if isnan x then fz 1 else x)) sun).
Definition energy12 : series := match energy_from_power None expected12 (Some step) None RightLabeled with
  | Ok e => map (fun r => (fst r, fmul (ff 9 10) (snd r))) e | Raise _ => [] end.
Definition no_mask (s : series) : result mask := Ok (where_ (fun _ => true) s).
Definition year_on_year (p : series) : result yoy_out :=
  degradation_year_on_year (fun _ => Some (fun t => t - step)%Z) demo_sortv (fun n => [seq 0 n; [0%nat; 0%nat]]) [[0%nat]] true (qz 95) (qz 68) Simple p.
Definition steady_env (w : Z) (normalized : series -> mask) : environment unit unit unit unit unit unit yoy_out unit :=
  Environment (fun _ => Some w) (fun _ => Some w) (fun _ x => x) tt tt (fun _ _ a _ => Ok a) (fun _ _ _ => Raise ValueError) (fun _ _ => Raise ValueError)
    (fun _ s => Ok (normalized s)) (fun _ => no_mask) (fun _ => no_mask) (fun _ => no_mask) (fun _ _ => no_mask) (fun _ s _ => no_mask s)
    (fun _ => no_mask) (fun _ => no_mask) (fun _ => no_mask) (fun _ => no_mask)
    (fun _ p => year_on_year p) (fun _ _ _ => Raise ValueError).
Definition default_normalized : series -> mask := normalized_filter (Some (ff 1 100)) None.
Definition steady_state (energy expected poa : series) (agg : Z) (params : list (string * setting unit)) : state unit unit unit unit yoy_out unit :=
  State (Inputs Unset (Present energy) (Some poa) None None agg tt (Some expected) None None Unset None)
   (Completed None None Unset Unset Unset (Validated valid_filter_params params) (Validated valid_filter_params_aggregated [])) empty_side empty_side.
Definition with_filter : list (string * setting unit) := [("normalized_filter"%string, Kwargs tt)].
Definition degradation_of (s : state unit unit unit unit yoy_out unit) : option yoy_out :=
  match d_result (s_sensor s) with Some (Outcome y _) => y | None => None end.
Definition same (a b : fl) : bool := feq a b || (isnan a && isnan b).
Lemma two_draws : draws_ok (fun n => [seq 0 n; [0%nat; 0%nat]]).
Proof.
  intros n N. split; [discriminate|]. intros d [<-|[<-|[]]].
  - split; [destruct n; [lia|discriminate]|]. intros i I. apply in_seq in I. lia.
  - split; [discriminate|]. intros i [<-|[<-|[]]]; exact N.
Qed.
Example C75_example :
  let s := steady_state energy12 expected12 poa12 step with_filter in
  let E := steady_env step default_normalized in
  let q := Request Sensor ["yoy_degradation"%string] tt tt in
  snd (analyse E q s) = Ok tt /\
  match degradation_of (fst (analyse E q s)) with
  | Some o => (same (yo_rate o) (fz 0) && same (yo_renorm o) (ff 9 10))%bool = true /\ List.length (yo_values o) = 3%nat
  | None => False end /\
  proportional (e_infer E) (e_freq E) (qf 9 10) energy12 expected12 expected12 /\
  model_of Sensor (s_inputs s) (completion E (s_inputs s) (s_completed s)) expected12 expected12 /\
  draws_ok (fun n => [seq 0 n; [0%nat; 0%nat]]) /\ sorts_by_shifted demo_sortv /\ excludes_missing E energy12 /\
  dividing step /\ List.length energy12 = 11%nat /\ existsb isnan (vals energy12) = true.
Proof.
  cbv zeta. split; [vm_compute; reflexivity|]. split; [vm_compute; auto|]. split.
  - split; [vm_compute; repeat constructor|]. split.
    + split; intros w H; injection H as <-; [split; [reflexivity|]|split; [reflexivity|split; [|vm_compute; lia]]]; exists step; vm_compute; reflexivity.
    + split.
      * intros (a & b & (_ & H1) & (_ & H2) & H). cbn [steady_env e_freq] in H1, H2. rewrite H1, H2 in H. exact (Qclt_not_eq _ _ H eq_refl).
      * exists step. eexists. split; [left; reflexivity|]. split; [vm_compute; reflexivity|vm_compute; reflexivity].
  - split; [split; reflexivity|]. split; [exact two_draws|]. split; [exact demo_sortv_ok|].
    split; [apply (C75_filter _ (fun _ => Some (ff 1 100)) (fun _ => None)); [reflexivity|vm_compute; repeat constructor]|]. split; [exists 73%Z; right; reflexivity|]. split; vm_compute; reflexivity.
Qed.

(** All hypotheses of C75_analysis together. *)
Example C75_applied :
  let s := steady_state energy12 expected12 poa12 step with_filter in
  let E := steady_env step default_normalized in
  let q := Request Sensor ["yoy_degradation"%string] tt tt in
  exists o z, d_result (side_of Sensor (fst (analyse E q s))) = Some (Outcome (Some o) z) /\ no_change o /\ yo_renorm o = Fin (qf 9 10).
Proof.
  cbv zeta. destruct C75_example as (X1 & _ & X3 & X4 & X5 & X6 & _ & X8 & _). cbv zeta in *.
  set (E := steady_env step default_normalized) in *. set (s := steady_state energy12 expected12 poa12 step with_filter) in *. set (q := Request Sensor ["yoy_degradation"%string] tt tt) in *.
  apply (C75_analysis E q s (fst (analyse E q s)) (qf 9 10) energy12 expected12 expected12 poa12 (fun _ => Some (fun t => t - step)%Z) demo_sortv (fun n => [seq 0 n; [0%nat; 0%nat]]) [[0%nat]]
    (fun _ => true) (fun _ => qz 95) (fun _ => qz 68) (fun _ => Simple)).
  - reflexivity.
  - exact demo_sortv_ok.
  - exact two_draws.
  - discriminate.
  - intros y p. reflexivity.
  - intros en Se. exact (C75_filter E (fun _ => Some (ff 1 100)) (fun _ => None) (fun _ _ => eq_refl) en Se).
  - discriminate.
  - reflexivity.
  - exact X8.
  - reflexivity.
  - reflexivity.
  - unfold sorted_index. vm_compute. repeat constructor.
  - intros v I. vm_compute in I. repeat (destruct I as [<-|I]; [split; discriminate|]). destruct I.
  - exact X4.
  - exact X3.
  - apply (f_equal (fun r => (fst (analyse E q s), r))) in X1. rewrite <- X1. apply surjective_pairing.
  - left. reflexivity.
Qed.

(** Without a filter for missing values a missing row counts as no production at full insolation,
    and the constant is lost. *)
Definition any_filters : Prop := forall (E : environment unit unit unit unit unit unit yoy_out unit) (q : @request unit unit) s s' c, 0 < c ->
  analyse E q s = (s', Ok tt) -> (0 < i_width (s_inputs s))%Z -> dividing (i_width (s_inputs s)) ->
  (forall energy insolation, data E (q_case q) (s_inputs s) (completion E (s_inputs s) (s_completed s)) = Ok (energy, insolation) ->
     flat_at c energy /\ noinf (vals insolation) /\ excludes_missing E energy) ->
  exists p, d_performance (side_of (q_case q) s') = Present p /\ flat_at c p.
Definition four : series := every ns_day [fz 24; fz 24; NaN; fz 24; fz 24].
Definition poa4 : series := every ns_day [fz 1; fz 1; fz 1; fz 1; fz 1].
Definition unfiltered := steady_state (tl four) (every ns_day [fz 1; fz 1; fz 1; fz 1; fz 1]) poa4 (2 * ns_day) [].
Definition env4 := steady_env ns_day default_normalized.
Definition ask4 : @request unit unit := Request Sensor [] tt tt.
Definition data4 := data env4 Sensor (s_inputs unfiltered) (completion env4 (s_inputs unfiltered) (s_completed unfiltered)).
Lemma data4_flat : match data4 with
  | Ok (e, n) => forallb (fun v => same v (fz 1) || isnan v) (vals e) && forallb (fun v => same v (fz 24)) (vals n) | Raise _ => false end = true.
Proof. vm_compute. reflexivity. Qed.
Lemma run4 : let (s', r) := analyse env4 ask4 unfiltered in
  match r with Ok tt => true | Raise _ => false end && match d_performance (s_sensor s') with Present p => existsb (fun v => feq v (ff 1 2)) (vals p) | _ => false end = true.
Proof. vm_compute. reflexivity. Qed.
Theorem C75_unfiltered_refuted : ~ any_filters.
Proof.
  intros H. specialize (H env4 ask4 unfiltered). pose proof run4 as R. destruct (analyse env4 ask4 unfiltered) as [s' r].
  apply andb_prop in R. destruct R as [R1 R2]. destruct r as [[]|]; [|discriminate R1]. specialize (H s' 1).
  change (q_case ask4) with Sensor in H. pose proof data4_flat as K. unfold data4 in K.
  destruct H as (p & Hp & F); [reflexivity|reflexivity|reflexivity|exists 2%Z; right; reflexivity| |].
  - intros energy insolation D. assert (Se : sorted_index energy) by exact (proj2 (TrendP8.data_one env4 _ _ _ _ _ D)). rewrite D in K.
    apply andb_prop in K. destruct K as [K1 K2]. rewrite forallb_forall in K1, K2. split; [|split].
    + intros t v I. assert (J : In v (vals energy)) by (apply in_map_iff; exists (t, v); auto). specialize (K1 v J). destruct v as [| |x|]; try discriminate K1; [now right|left].
      change (((qeq x (qz 1) || false) || false)%bool = true) in K1. rewrite !orb_false_r in K1. qb. subst x. reflexivity.
    + intros v I. specialize (K2 v I). destruct v; try discriminate K2; split; discriminate.
    + apply (C75_filter env4 (fun _ => Some (ff 1 100)) (fun _ => None)); [reflexivity|exact Se].
  - change (side_of Sensor s') with (s_sensor s') in Hp. rewrite Hp in R2. apply existsb_exists in R2. destruct R2 as (v & I & V). apply in_map_iff in I. destruct I as ([t x] & <- & I). cbn [snd] in V.
    destruct (F t x I) as [->| ->]; discriminate V.
Qed.
Print Assumptions C75_unfiltered_refuted.

Print Assumptions C75_rate.
Print Assumptions C75_data.
Print Assumptions C75_stored.
Print Assumptions C75_filter.
Print Assumptions C75_analysis.
