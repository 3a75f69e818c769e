(** What the filters of an analysis need, and the settings for clear-sky analyses. *)

From Coq Require Import QArith Qcanon List ZArith Bool Arith String Sorted Lia.
From Verif.Base Require Import QcExtra Fl TimeSeries Calendar Rolling.
From Verif.Model Require Import Normalization FilterDict TrendAnalysis.
From Verif.Spec Require Import FilterSets TrendRuns TrendCalls.
From Verif.Proofs Require Import TrendP1 TrendP2 TrendP3 TrendP4 TrendP5.
Import ListNotations.
Open Scope list_scope.

Section Needs.
Context {P W T O YK SK YR SR : Type}.
Local Notation env := (environment P W T O YK SK YR SR).
Local Notation st := (state P W T O YR SR).
Local Notation req := (@request YK SK).

Definition full_object (E : env) (s : st) : st := object (s_inputs s) (completion E (s_inputs s) (s_completed s)) empty_side.
Lemma full_params_of : forall (E : env) (s : st) k, k <> "ad_hoc_filter"%string -> dget k (params_of (full_object E s)) = dget k (params_of s).
Proof.
  intros E s k N. unfold params_of, full_object, object. cbn [s_completed completion c_params]. rewrite exclude_cleaned. now apply dget_cleaned.
Qed.
Lemma success_components : forall (E : env) (q : req) (s : st), snd (analyse E q s) = Ok tt ->
  exists n parts, data E (q_case q) (s_inputs s) (completion E (s_inputs s) (s_completed s)) = Ok n /\ components_are E (q_case q) (fst n) (full_object E s) parts.
Proof.
  intros E q s H. pose proof (analyse_run E q s) as R. destruct (analyse E q s) as [s' r]. cbn [snd] in H. subst r. destruct R as (_ & _ & _ & R).
  unfold gives_on, run_of in R. destruct (data E (q_case q) _ _) as [n|e]; cbn [bind] in R; [|destruct R; discriminate].
  exists n. unfold processed in R. pose proof (components_spec E (q_case q) (fst n) (full_object E s)) as C. unfold full_object in C at 1.
  destruct (components E (q_case q) (fst n) _) as [parts|e]; cbn [bind] in R; [|destruct R; discriminate]. exists parts. auto.
Qed.
Lemma success_filter : forall (E : env) (q : req) (s : st) k, snd (analyse E q s) = Ok tt -> In k filter_order -> used (q_case q) (params_of s) k ->
  (forall e, ~ lacks (q_case q) (full_object E s) k e) /\ exists p, dget k (params_of s) = Some (Kwargs p).
Proof.
  intros E q s k H I U. destruct (success_components E q s H) as (n & parts & _ & [_ C]).
  assert (N : k <> "ad_hoc_filter"%string) by (unfold filter_order in I; cbn in I; intros ->; intuition discriminate).
  assert (U' : used (q_case q) (params_of (full_object E s)) k).
  { unfold used in *. destruct (String.eqb k "clearsky_filter"); [exact U|]. now rewrite full_params_of. }
  destruct (parts_for _ _ _ _ C k I U') as (m & _ & (L & p & G & _)). split; [exact L|]. exists p. now rewrite <- (full_params_of E s k N).
Qed.

Theorem needs_power : forall (E : env) (q : req) (s : st), dget "clip_filter" (params_of s) <> None -> i_power (s_inputs s) = Absent \/ i_power (s_inputs s) = Unset -> snd (analyse E q s) <> Ok tt.
Proof.
  intros E q s U Pw H. destruct (success_filter E q s "clip_filter" H) as [L _]; [cbn; tauto|exact U|].
  destruct Pw as [Pw|Pw]; [apply (L ValueError); apply lacks_power; exact Pw|apply (L AttributeError); apply lacks_any_power; exact Pw].
Qed.
Theorem needs_location : forall (E : env) (q : req) (s : st), dget "hour_angle_filter" (params_of s) <> None -> i_location (s_inputs s) = Absent \/ i_location (s_inputs s) = Unset -> snd (analyse E q s) <> Ok tt.
Proof.
  intros E q s U Pw H. destruct (success_filter E q s "hour_angle_filter" H) as [L _]; [cbn; tauto|exact U|].
  destruct Pw as [Pw|Pw]; [apply (L AttributeError); apply no_location; exact Pw|apply (L ValueError); apply lacks_location; exact Pw].
Qed.
Theorem needs_measured : forall (E : env) (q : req) (s : st), i_poa (s_inputs s) = None -> snd (analyse E q s) <> Ok tt.
Proof.
  intros E q s Pw H. destruct (q_case q) eqn:C.
  - rewrite (needs_poa E q s C Pw) in H. discriminate.
  - destruct (success_filter E q s "clearsky_filter" H) as [L _]; [cbn; tauto|exact C|]. apply (L ValueError). apply lacks_measured; [cbn; tauto|exact Pw].
Qed.
Theorem needs_clearsky_setting : forall (E : env) (q : req) (s : st), q_case q = Clearsky -> (forall p, dget "clearsky_filter" (params_of s) <> Some (Kwargs p)) -> snd (analyse E q s) <> Ok tt.
Proof.
  intros E q s C N H. destruct (success_filter E q s "clearsky_filter" H) as [_ [p G]]; [cbn; tauto|exact C|]. exact (N p G).
Qed.
Theorem needs_settings : forall (E : env) (q : req) (s : st) k v, In k filter_order -> k <> "clearsky_filter"%string -> dget k (params_of s) = Some v -> (forall p, v <> Kwargs p) -> snd (analyse E q s) <> Ok tt.
Proof.
  intros E q s k v I Nk G N H. destruct (success_filter E q s k H I) as [_ [p K]]; [|rewrite G in K; injection K as ->; exact (N p eq_refl)].
  unfold used. apply String.eqb_neq in Nk. rewrite Nk, G. discriminate.
Qed.
Theorem needs_energy : forall (E : env) (q : req) (s : st), i_energy (s_inputs s) = Absent \/ i_energy (s_inputs s) = Unset -> snd (analyse E q s) <> Ok tt.
Proof.
  intros E q s N H. destruct (success_components E q s H) as (n & parts & D & _).
  assert (A : forall poa c, pvwatts_norm E (s_inputs s) poa c = Raise AttributeError) by (intros; unfold pvwatts_norm; destruct N as [-> | ->]; reflexivity).
  assert (B : forall x poa, expected_norm E (s_inputs s) x poa = Raise AttributeError) by (intros; unfold expected_norm; destruct N as [-> | ->]; reflexivity).
  unfold data in D. destruct (q_case q).
  - unfold sensor_data in D. destruct (need ValueError (i_poa (s_inputs s))) as [poa|]; [|discriminate]. cbn [bind] in D.
    destruct (if dhas _ _ then _ else _) as [x|]; [|discriminate]. cbn [bind] in D.
    destruct (i_expected (s_inputs s)); [rewrite B in D; discriminate|].
    destruct (match c_cell _ with Some c => Ok c | None => _ end) as [c|]; [|discriminate]. cbn [bind] in D. rewrite A in D. discriminate.
  - unfold clearsky_data in D. destruct (match c_clear_poa _ with Unset => _ | Absent => _ | Present p => _ end) as [poa|]; [|discriminate]. cbn [bind] in D.
    destruct (match c_clear_cell _ with Unset => _ | Absent => _ | Present p => _ end) as [c|]; [|discriminate]. cbn [bind] in D.
    destruct (i_expected (s_inputs s)); [rewrite B in D; discriminate|]. rewrite A in D. discriminate.
Qed.

(** ** set_clearsky *)
Lemma sensor_same : forall (E : env) (s s' : st) (q : req), q_case q = Sensor ->
  dget "sensor_clearsky_filter" (params_of s) = None -> dget "hour_angle_filter" (params_of s) = None ->
  (exists loc o, s_inputs s' = let i := s_inputs s in Inputs (i_power i) (i_energy i) (i_poa i) (i_ambient i) (i_gamma i) (i_width i) (i_wind i) (i_expected i) (i_rated i) (i_max_timedelta i) loc o) ->
  (exists p a c, s_completed s' = set_clear_poa p (set_clear_cell c (set_clear_ambient a (s_completed s)))) ->
  gives_on E s' q = gives_on E s q.
Proof.
  intros E s s' q C F1 F2 (loc & o & Hi) (p & a & c & Hc). unfold gives_on, run_of. rewrite C. rewrite Hi, Hc. cbv zeta.
  destruct s as [i k x y]. cbn [s_inputs s_completed] in *. unfold params_of in F1, F2. cbn [s_completed] in F1, F2.
  set (i' := Inputs _ _ _ _ _ _ _ _ _ _ loc o). set (k' := set_clear_poa p _).
  assert (D : data E Sensor i' (completion E i' k') = data E Sensor i (completion E i k)).
  { unfold data, sensor_data. unfold dhas. cbn [completion c_params]. rewrite !exclude_cleaned, !dget_cleaned by discriminate. subst k'. cbn [set_clear_poa set_clear_cell set_clear_ambient c_params]. rewrite F1. reflexivity. }
  rewrite D. destruct (data E Sensor i (completion E i k)) as [n|e]; cbn [bind]; [|reflexivity].
  assert (R : processed E Sensor i' (completion E i' k') (fst n) (snd n) = processed E Sensor i (completion E i k) (fst n) (snd n)).
  { unfold processed.
    assert (Ec : components E Sensor (fst n) (object i' (completion E i' k') (@empty_side YR SR)) = components E Sensor (fst n) (object i (completion E i k) empty_side)).
    { unfold components, object, part. cbv zeta. cbn [s_inputs s_completed completion c_params]. rewrite !exclude_cleaned. rewrite !dget_cleaned by discriminate.
      subst k' i'. cbn [set_clear_poa set_clear_cell set_clear_ambient c_params]. rewrite F1, F2. reflexivity. }
    rewrite Ec. reflexivity. }
  rewrite R. reflexivity.
Qed.
Theorem set_clearsky_sensor : forall (E : env) (q : req) (s s' : st) loc o poa cell ambient r, set_clearsky loc o poa cell ambient s = (s', r) ->
  s_sensor s' = s_sensor s /\ s_clear s' = s_clear s /\ (forall e, r = Raise e -> s' = s) /\
  (q_case q = Sensor -> dget "sensor_clearsky_filter" (params_of s) = None -> dget "hour_angle_filter" (params_of s) = None ->
   snd (analyse E q s') = snd (analyse E q s) /\ (snd (analyse E q s) = Ok tt -> s_sensor (fst (analyse E q s')) = s_sensor (fst (analyse E q s)))).
Proof.
  intros E q s s' loc o poa cell ambient r H. unfold set_clearsky in H. cbv zeta in H.
  destruct (bind _ _) as [[[p c] a]|e]; injection H as <- <-; cbn [s_sensor s_clear]; (split; [reflexivity|]); (split; [reflexivity|]).
  2: { split; [reflexivity|]. auto. }
  split; [discriminate|]. intros C F1 F2. set (s1 := State _ _ _ _).
  assert (G : gives_on E s1 q = gives_on E s q).
  { apply sensor_same; auto; [exists (attr_of loc), (Some o); reflexivity|]. exists (attr_of p), (attr_of a), (attr_of c). reflexivity. }
  pose proof (analyse_run E q s) as R. pose proof (analyse_run E q s1) as R1. rewrite G in R1. rewrite C in *.
  destruct (analyse E q s) as [t r], (analyse E q s1) as [t1 r1]. cbn [fst snd]. destruct R as (_ & _ & _ & R), R1 as (_ & _ & _ & R1).
  cbn [side_of] in R, R1. destruct (gives_on E s q) as [[u z]|e]; destruct R as [-> R], R1 as [-> R1]; (split; [reflexivity|]); intros K; [congruence|discriminate].
Qed.
End Needs.
