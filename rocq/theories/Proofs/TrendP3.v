(** Analyses against runs: completion is never changed by a call. *)

From Coq Require Import QArith Qcanon List ZArith Bool Arith String Sorted Lia.
From Verif.Base Require Import QcExtra Fl TimeSeries Calendar Rolling.
From Verif.Model Require Import Normalization FilterDict TrendAnalysis.
From Verif.Spec Require Import FilterSets TrendRuns.
From Verif.Proofs Require Import TrendP1.
Import ListNotations.
Open Scope list_scope.

Section Runs.
Context {P W T O YK SK YR SR : Type}.
Local Notation env := (environment P W T O YK SK YR SR).
Local Notation st := (state P W T O YR SR).

(** ** Completion *)
Lemma clean_twice : forall a, without_missing (without_missing a) = without_missing a.
Proof. intros a. unfold without_missing. rewrite map_map. apply map_ext. intros [u [v|]]; reflexivity. Qed.
Lemma exclude_cleaned : forall d : validated (setting P), exclude_missing d = cleaned d.
Proof. intros [v d]. unfold exclude_missing, cleaned. cbn [contents valid_keys]. destruct (dget "ad_hoc_filter" d) as [[|p|a]|]; reflexivity. Qed.
Lemma dset_twice : forall {V} k (v w : V) d, dset k v (dset k w d) = dset k v d.
Proof.
  intros V k v w d. induction d as [|[q x] d IH]; cbn; [rewrite String.eqb_refl; reflexivity|].
  destruct (String.eqb_spec q k) as [->|N]; cbn; [rewrite String.eqb_refl; reflexivity|]. destruct (String.eqb_spec q k); [congruence|]. now rewrite IH.
Qed.
Lemma cleaned_twice : forall d : validated (setting P), cleaned (cleaned d) = cleaned d.
Proof.
  intros [v d]. unfold cleaned at 2. cbn [contents valid_keys]. destruct (dget "ad_hoc_filter" d) as [[|p|a]|] eqn:G; try (unfold cleaned; cbn [contents]; rewrite G; reflexivity).
  unfold cleaned. cbn [contents valid_keys]. rewrite dget_dset, String.eqb_refl, clean_twice, dset_twice, G. reflexivity.
Qed.
Lemma ad_hoc_cleaned : forall idx (d : validated (setting P)), snd (ad_hoc idx (cleaned d)) = snd (ad_hoc idx d).
Proof.
  intros idx [v d]. unfold cleaned, ad_hoc. cbn [contents valid_keys]. destruct (dget "ad_hoc_filter" d) as [[|p|a]|] eqn:G; cbn [contents]; try (rewrite G; reflexivity).
  rewrite dget_dset. cbn. f_equal. unfold ad_hoc_column. now rewrite clean_twice.
Qed.
Lemma dget_cleaned : forall (d : validated (setting P)) k, k <> "ad_hoc_filter"%string -> dget k (contents (cleaned d)) = dget k (contents d).
Proof. intros d k N. apply (cleaned_spec d). exact N. Qed.

(** Steps that fill something in. *)
Section Completion.
Variables (E : env) (i : inputs W O).
Local Notation full := (completion E i).
Ltac unfolds := unfold completion, clear_cell_value, clear_ambient_value, clear_poa_value, cell_value, the_model in *.
Lemma full_model : forall k, full (set_model (the_model E k) k) = full k.
Proof. intros [m c p a l d e]. unfolds. cbn. destruct m; reflexivity. Qed.
Lemma full_cell : forall k poa a c, c_cell k = None -> i_expected i = None -> i_ambient i = Some a -> i_poa i = Some poa ->
  e_cell E (the_model E k) poa a (i_wind i) = Ok c -> full (set_cell c k) = full k.
Proof. intros [m c0 p a l d e] poa a' c H1 H2 H3 H4 H5. unfolds. cbn in *. subst. rewrite H2, H3, H4, H5. reflexivity. Qed.
Lemma full_clear_poa : forall k v, c_clear_poa k = Absent -> clearsky_poa E i = Ok v -> full (set_clear_poa (Present v) k) = full k.
Proof. intros [m c p a l d e] v H1 H2. unfolds. cbn in *. subst. rewrite H2. reflexivity. Qed.
Lemma full_clear_ambient : forall k p loc v, c_clear_ambient k = Absent -> c_clear_poa k = Present p -> i_location i = Present loc ->
  e_ambient E loc (times p) = Ok v -> full (set_clear_ambient (Present v) k) = full k.
Proof. intros [m c p a l d e] p' loc v H1 H2 H3 H4. unfolds. cbn in *. subst. cbn. rewrite H3, H4. reflexivity. Qed.
Lemma full_clear_cell : forall k p a v, c_clear_cell k = Absent -> c_clear_poa k = Present p -> c_clear_ambient k = Present a ->
  e_cell E (the_model E k) p a (e_calm E) = Ok v -> full (set_clear_cell (Present v) k) = full k.
Proof. intros [m c p a l d e] p' a' v H1 H2 H3 H4. unfolds. cbn in *. subst. cbn. rewrite H4. reflexivity. Qed.
Lemma full_params : forall k, full (set_params (cleaned (c_params k)) k) = full k.
Proof. intros [m c p a l d e]. unfolds. cbn. rewrite !exclude_cleaned, cleaned_twice. reflexivity. Qed.
Lemma full_params_aggregated : forall k, full (set_params_aggregated (cleaned (c_params_aggregated k)) k) = full k.
Proof. intros [m c p a l d e]. unfolds. cbn. rewrite !exclude_cleaned, cleaned_twice. reflexivity. Qed.
End Completion.

(** ** Reading the completed attributes *)
Definition settled (E : env) (c : case) (i : inputs W O) (k : completed P T) : Prop :=
  match c with
  | Sensor => c_cell k = cell_value E i k /\ (dget "sensor_clearsky_filter" (contents (c_params k)) <> None -> c_clear_poa k = clear_poa_value E i k)
  | Clearsky => c_clear_poa k = clear_poa_value E i k /\ c_clear_cell k = clear_cell_value E i k
  end.
Lemma part_cleaned : forall {A} (d : validated (setting P)) k (input : result A) f, k <> "ad_hoc_filter"%string -> part (contents (cleaned d)) k input f = part (contents d) k input f.
Proof. intros A d k input f N. unfold part. now rewrite (dget_cleaned d k N). Qed.
Lemma components_settled : forall (E : env) c energy (s : st), settled E c (s_inputs s) (s_completed s) ->
  components E c energy (object (s_inputs s) (completion E (s_inputs s) (s_completed s)) empty_side) = components E c energy s.
Proof.
  intros E c energy s S. unfold components, object, call_clearsky_filter. cbv zeta. cbn [s_inputs s_completed completion c_params c_cell c_clear_poa c_clear_cell].
  rewrite exclude_cleaned. destruct c; cbn [settled] in S; destruct S as [S1 S2].
  - rewrite <- S1. cbn [bind]. rewrite !part_cleaned by discriminate. rewrite !dget_cleaned by discriminate.
    destruct (dget "sensor_clearsky_filter" (contents (c_params (s_completed s)))) eqn:G; [|reflexivity].
    rewrite <- S2 by discriminate. reflexivity.
  - rewrite <- S1, <- S2. destruct (c_clear_poa (s_completed s)); cbn [read bind]; [reflexivity| |];
      (destruct (c_clear_cell (s_completed s)); cbn [read bind fst snd]; [reflexivity| |]); rewrite !part_cleaned by discriminate; rewrite !dget_cleaned by discriminate; reflexivity.
Qed.
Lemma components_aggregated_full : forall (E : env) c a b (s : st) d, d_insolation (side_of c s) = Present b -> c_params_aggregated d = cleaned (c_params_aggregated (s_completed s)) ->
  components_aggregated E c a (object (s_inputs s) d (set_insolation b empty_side)) = components_aggregated E c a s.
Proof.
  intros E c a b s d I D. unfold components_aggregated, object. cbv zeta. rewrite I. cbn [s_completed side_of]. rewrite D.
  destruct c; cbn [side_of s_sensor s_clear set_insolation d_insolation read bind]; rewrite !part_cleaned by discriminate; reflexivity.
Qed.

(** ** From normalized energy to the stored series *)
Definition same_result (c : case) (s s' : st) : Prop := d_result (side_of c s') = d_result (side_of c s).
Definition same_rest (E : env) (c : case) (s s' : st) : Prop :=
  s_inputs s' = s_inputs s /\ completion E (s_inputs s) (s_completed s') = completion E (s_inputs s) (s_completed s) /\ side_of (other c) s' = side_of (other c) s.
Lemma same_rest_refl : forall E c s, same_rest E c s s.
Proof. repeat split. Qed.
Lemma same_rest_trans : forall E c s s' s'', same_rest E c s s' -> same_rest E c s' s'' -> same_rest E c s s''.
Proof. intros E c s s' s'' (A & B & C) (A' & B' & C'). rewrite A in *. repeat split; congruence. Qed.

Definition combined_in (s : st) rows parts := combined rows parts (c_params (s_completed s)).
Lemma combined_cleaned : forall rows parts (d : validated (setting P)), combined rows parts (cleaned d) = combined rows parts d.
Proof. intros rows parts d. unfold combined. cbv zeta. now rewrite ad_hoc_cleaned. Qed.
Lemma filter_run : forall (E : env) c energy (s : st),
  filter_ E c energy s =
  match components E c energy s with
  | Raise e => (s, Raise e)
  | Ok parts =>
    match combined (times energy) parts (c_params (s_completed s)) with
    | Raise e => (with_params s (cleaned (c_params (s_completed s))), Raise e)
    | Ok f => (with_side c (with_params s (cleaned (c_params (s_completed s)))) (set_filter (fst f) (snd f)), Ok tt)
    end
  end.
Proof.
  intros E c energy s. unfold filter_, next, ask, complete, store. destruct (components E c energy s) as [parts|e]; [|reflexivity]. cbv beta iota zeta.
  rewrite default_where. unfold combined. cbv zeta. rewrite ad_hoc_params. destruct (snd (ad_hoc _ (c_params (s_completed s)))) as [extra|e]; [|reflexivity].
  cbn [bind fst snd]. unfold with_side. destruct c; reflexivity.
Qed.
Lemma aggregated_filter_run : forall (E : env) c a (s : st),
  aggregated_filter E c a s =
  match components_aggregated E c a s with
  | Raise e => (s, Raise e)
  | Ok parts =>
    match combined (times a) parts (c_params_aggregated (s_completed s)) with
    | Raise e => (with_params_aggregated s (cleaned (c_params_aggregated (s_completed s))), Raise e)
    | Ok f => (with_side c (with_params_aggregated s (cleaned (c_params_aggregated (s_completed s)))) (set_filter_aggregated (fst f) (snd f)), Ok tt)
    end
  end.
Proof.
  intros E c energy s. unfold aggregated_filter, next, ask, complete, store. destruct (components_aggregated E c energy s) as [parts|e]; [|reflexivity]. cbv beta iota zeta.
  rewrite default_where. unfold combined. cbv zeta. rewrite ad_hoc_params. destruct (snd (ad_hoc _ (c_params_aggregated (s_completed s)))) as [extra|e]; [|reflexivity].
  cbn [bind fst snd]. unfold with_side. destruct c; reflexivity.
Qed.
Lemma rest_side : forall E c s f, same_rest E c s (with_side c s f).
Proof. intros E c s f. unfold same_rest. destruct c; repeat split. Qed.
Lemma rest_params : forall E c s, same_rest E c s (with_params s (cleaned (c_params (s_completed s)))).
Proof. intros E c s. split; [reflexivity|]. split; [apply full_params|]. destruct c; reflexivity. Qed.
Lemma rest_params_aggregated : forall E c s, same_rest E c s (with_params_aggregated s (cleaned (c_params_aggregated (s_completed s)))).
Proof. intros E c s. split; [reflexivity|]. split; [apply full_params_aggregated|]. destruct c; reflexivity. Qed.
Lemma side_with : forall c (s : st) f, side_of c (with_side c s f) = f (side_of c s).
Proof. intros [] s f; reflexivity. Qed.
Lemma completed_with : forall c (s : st) f, s_completed (with_side c s f) = s_completed s.
Proof. intros [] s f; reflexivity. Qed.
Lemma inputs_with : forall c (s : st) f, s_inputs (with_side c s f) = s_inputs s.
Proof. intros [] s f; reflexivity. Qed.
Lemma store_with : forall c f (s : st), store c f s = (with_side c s f, Ok tt).
Proof. intros [] f s; reflexivity. Qed.

Definition run_side (u : run) (d : side YR SR) : side YR SR :=
  Side (Present (u_filter u)) (Present (u_parts u)) (Present (u_filter_aggregated u)) (Present (u_parts_aggregated u)) (Present (u_performance u)) (Present (u_insolation u)) (d_result d).
Lemma finish_run : forall (E : env) c energy insolation (s : st), settled E c (s_inputs s) (s_completed s) ->
  match finish E c energy insolation s with (s', r) =>
    same_rest E c s s' /\
    match processed E c (s_inputs s) (completion E (s_inputs s) (s_completed s)) energy insolation with
    | Ok u => r = Ok tt /\ side_of c s' = run_side u (side_of c s)
    | Raise e => r = Raise e /\ same_result c s s'
    end
  end.
Proof.
  intros E c energy insolation s S. unfold finish, processed, same_result. rewrite (components_settled E c energy s S).
  cbn [completion c_params c_params_aggregated]. rewrite !exclude_cleaned. unfold next at 1. rewrite filter_run.
  destruct (components E c energy s) as [parts|e]; cbn [bind]; [|split; [apply same_rest_refl|auto]].
  rewrite combined_cleaned. destruct (combined (times energy) parts (c_params (s_completed s))) as [f|e]; cbn [bind];
    [|split; [apply rest_params|split; [reflexivity|destruct c; reflexivity]]].
  set (s1 := with_side c (with_params s (cleaned (c_params (s_completed s)))) (set_filter (fst f) (snd f))).
  assert (R1 : same_rest E c s s1) by (eapply same_rest_trans; [apply rest_params|apply rest_side]).
  assert (D1 : side_of c s1 = set_filter (fst f) (snd f) (side_of c s)) by (unfold s1; rewrite side_with; destruct c; reflexivity).
  assert (I1 : s_inputs s1 = s_inputs s) by apply R1.
  assert (A1 : c_params_aggregated (s_completed s1) = c_params_aggregated (s_completed s)) by (unfold s1; rewrite completed_with; reflexivity).
  clearbody s1. unfold next at 1. unfold ask at 1. rewrite D1. cbn [set_filter d_filter use bind]. rewrite I1.
  destruct (select energy (fst f)) as [en|e]; cbn [bind]; [|split; [exact R1|split; [reflexivity|rewrite D1; reflexivity]]].
  destruct (select insolation (fst f)) as [ins|e]; cbn [bind]; [|split; [exact R1|split; [reflexivity|rewrite D1; reflexivity]]].
  cbv zeta. cbn [fst snd]. set (a := aggregation_insol en ins (i_width (s_inputs s))). set (b := resample_day_sum ins (i_width (s_inputs s))).
  unfold next at 1. rewrite store_with. set (s2 := with_side c s1 (set_insolation b)).
  assert (R2 : same_rest E c s s2) by (eapply same_rest_trans; [exact R1|apply rest_side]).
  assert (D2 : side_of c s2 = set_insolation b (set_filter (fst f) (snd f) (side_of c s))) by (unfold s2; rewrite side_with, D1; reflexivity).
  assert (I2 : s_inputs s2 = s_inputs s) by apply R2.
  assert (A2 : c_params_aggregated (s_completed s2) = c_params_aggregated (s_completed s)) by (unfold s2; rewrite completed_with; exact A1).
  clearbody s2. clear D1 I1 A1 R1. unfold next at 1. rewrite aggregated_filter_run.
  assert (Ca : components_aggregated E c a s2 = components_aggregated E c a (object (s_inputs s) (completion E (s_inputs s) (s_completed s)) (set_insolation b empty_side))).
  { rewrite <- I2. symmetry. apply components_aggregated_full; [rewrite D2; reflexivity|]. cbn [completion c_params_aggregated]. rewrite exclude_cleaned, A2. reflexivity. }
  rewrite <- Ca. destruct (components_aggregated E c a s2) as [parts'|e]; cbn [bind]; [|split; [exact R2|split; [reflexivity|rewrite D2; reflexivity]]].
  rewrite combined_cleaned, A2. destruct (combined (times a) parts' (c_params_aggregated (s_completed s))) as [g|e]; cbn [bind];
    [|split; [eapply same_rest_trans; [exact R2|rewrite <- A2; apply rest_params_aggregated]|split; [reflexivity|change (d_result (side_of c s2) = d_result (side_of c s)); rewrite D2; reflexivity]]].
  rewrite <- A2. set (s3 := with_side c (with_params_aggregated s2 (cleaned (c_params_aggregated (s_completed s2)))) (set_filter_aggregated (fst g) (snd g))).
  assert (R3 : same_rest E c s s3) by (eapply same_rest_trans; [exact R2|eapply same_rest_trans; [apply rest_params_aggregated|apply rest_side]]).
  assert (D3 : side_of c s3 = set_filter_aggregated (fst g) (snd g) (set_insolation b (set_filter (fst f) (snd f) (side_of c s)))).
  { unfold s3. rewrite side_with, <- D2. destruct c; reflexivity. }
  clearbody s3. clear D2 I2 A2 R2 Ca s2. unfold next at 1. unfold ask at 1. rewrite D3. cbn [set_filter_aggregated d_filter_aggregated use bind].
  destruct (select a (fst g)) as [p|e]; cbn [bind]; [|split; [exact R3|split; [reflexivity|rewrite D3; reflexivity]]].
  unfold next at 1. rewrite store_with. set (s4 := with_side c s3 (set_performance p)).
  assert (R4 : same_rest E c s s4) by (eapply same_rest_trans; [exact R3|apply rest_side]).
  assert (D4 : side_of c s4 = set_performance p (set_filter_aggregated (fst g) (snd g) (set_insolation b (set_filter (fst f) (snd f) (side_of c s))))) by (unfold s4; rewrite side_with, D3; reflexivity).
  assert (I4 : s_inputs s4 = s_inputs s) by apply R4.
  clearbody s4. clear D3 R3. unfold next at 1. unfold ask at 1. rewrite D4. cbn [set_performance set_filter_aggregated d_filter_aggregated use bind].
  destruct (select b (fst g)) as [q|e]; cbn [bind]; [|split; [exact R4|split; [reflexivity|rewrite D4; reflexivity]]].
  unfold next, ask. rewrite !store_with. rewrite inputs_with, I4.
  split; [eapply same_rest_trans; [exact R4|]; eapply same_rest_trans; [apply rest_side|]; eapply same_rest_trans; apply rest_side|].
  split; [reflexivity|]. rewrite !side_with, D4. reflexivity.
Qed.
End Runs.
