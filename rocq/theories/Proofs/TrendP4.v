(** Analyses against runs: the calls. *)

From Coq Require Import QArith Qcanon List ZArith Bool Arith String Sorted Lia.
From Verif.Base Require Import QcExtra Fl TimeSeries Calendar Rolling.
From Verif.Model Require Import Normalization FilterDict TrendAnalysis.
From Verif.Spec Require Import FilterSets TrendRuns.
From Verif.Proofs Require Import TrendP1 TrendP3.
Import ListNotations.
Open Scope list_scope.

Section Runs.
Context {P W T O YK SK YR SR : Type}.
Local Notation env := (environment P W T O YK SK YR SR).
Local Notation st := (state P W T O YR SR).

Definition with_completed (s : st) (k : completed P T) : st := State (s_inputs s) k (s_sensor s) (s_clear s).
Lemma rest_completed : forall (E : env) c (s : st) k, completion E (s_inputs s) k = completion E (s_inputs s) (s_completed s) -> same_rest E c s (with_completed s k).
Proof. intros E c s k H. split; [reflexivity|]. split; [exact H|]. destruct c; reflexivity. Qed.
Lemma result_completed : forall c (s : st) k, same_result c s (with_completed s k).
Proof. intros [] s k; reflexivity. Qed.
Lemma full_the_model : forall (E : env) i k, the_model E (completion E i k) = the_model E k.
Proof. reflexivity. Qed.

(** Filling in the clear-sky irradiance. *)
Definition poa_step (E : env) (s : st) : st * result unit :=
  match c_clear_poa (s_completed s) with Unset => (s, Raise AttributeError) | Absent => calc_clearsky_poa E s | Present _ => (s, Ok tt) end.
Definition poa_of (E : env) (i : inputs W O) (a : attr series) : result series := match a with Unset => Raise AttributeError | Present p => Ok p | Absent => clearsky_poa E i end.
Lemma poa_of_value : forall (E : env) i k, poa_of E i (clear_poa_value E i k) = poa_of E i (c_clear_poa k).
Proof. intros E i k. unfold clear_poa_value. destruct (c_clear_poa k); cbn; try reflexivity. destruct (clearsky_poa E i) eqn:G; cbn; [reflexivity|exact G]. Qed.
Lemma poa_step_run : forall (E : env) (s : st),
  match poa_of E (s_inputs s) (c_clear_poa (s_completed s)) with
  | Ok p => poa_step E s = (with_completed s (set_clear_poa (Present p) (s_completed s)), Ok tt) /\
            completion E (s_inputs s) (set_clear_poa (Present p) (s_completed s)) = completion E (s_inputs s) (s_completed s) /\ clear_poa_value E (s_inputs s) (s_completed s) = Present p
  | Raise e => poa_step E s = (s, Raise e)
  end.
Proof.
  intros E s. unfold poa_step, poa_of. destruct (c_clear_poa (s_completed s)) as [| |p] eqn:G; [reflexivity| |].
  - unfold calc_clearsky_poa, next, ask, complete. destruct (clearsky_poa E (s_inputs s)) as [p|e] eqn:C; [|reflexivity]. split; [reflexivity|].
    split; [now apply full_clear_poa|]. unfold clear_poa_value. rewrite G, C. reflexivity.
  - split; [|split; [|unfold clear_poa_value; now rewrite G]]; destruct s as [i [m c q a l d e] x y]; cbn in *; subst; reflexivity.
Qed.

(** ** sensor_preprocess *)
Lemma data_settled : forall (E : env) (s : st) k, completion E (s_inputs s) k = completion E (s_inputs s) (s_completed s) ->
  forall c energy insolation, settled E c (s_inputs s) k ->
  match finish E c energy insolation (with_completed s k) with (s', r) =>
    same_rest E c s s' /\
    match processed E c (s_inputs s) (completion E (s_inputs s) (s_completed s)) energy insolation with
    | Ok u => r = Ok tt /\ side_of c s' = run_side u (side_of c s)
    | Raise e => r = Raise e /\ same_result c s s'
    end
  end.
Proof.
  intros E s k H c energy insolation S. pose proof (finish_run E c energy insolation (with_completed s k) S) as F.
  destruct (finish E c energy insolation (with_completed s k)) as [s' r]. destruct F as [R F]. split; [eapply same_rest_trans; [apply (rest_completed E c s k H)|exact R]|].
  cbn [with_completed s_inputs s_completed] in F. rewrite H in F. destruct (processed _ _ _ _ _ _) as [u|e]; (split; [apply F|]).
  - destruct F as [_ F]. rewrite F. destruct c; reflexivity.
  - destruct F as [_ F]. unfold same_result in *. rewrite F. destruct c; reflexivity.
Qed.

Definition sensor_rest (E : env) (poa : series) : method unit :=
  next (fun s =>
    let i := s_inputs s in
    match i_expected i with
    | None =>
      next (match c_cell (s_completed s) with
            | Some c => ret c
            | None =>
              match i_ambient i with
              | None => raise ValueError
              | Some a => next (calc_cell_temperature E poa a (i_wind i)) (fun c => next (complete (set_cell c)) (fun _ => ret c))
              end
            end) (fun c => ask (fun _ => pvwatts_norm E i poa c)) s
    | Some expected => (s, expected_norm E i expected poa)
    end) (fun n => finish E Sensor (fst n) (snd n)).
Definition sensor_values (E : env) (i : inputs W O) (k : completed P T) (poa : series) : result (series * series) :=
  match i_expected i with
  | Some expected => expected_norm E i expected poa
  | None =>
    bind (match c_cell k with
          | Some c => Ok c
          | None => bind (need ValueError (i_ambient i)) (fun a => e_cell E (the_model E k) poa a (i_wind i)) end) (fun c =>
    pvwatts_norm E i poa c)
  end.
Lemma with_completed_same : forall s : st, with_completed s (s_completed s) = s.
Proof. intros []; reflexivity. Qed.
Lemma sensor_rest_run : forall (E : env) (s : st) poa, i_poa (s_inputs s) = Some poa ->
  (dget "sensor_clearsky_filter" (contents (c_params (s_completed s))) <> None -> c_clear_poa (s_completed s) = clear_poa_value E (s_inputs s) (s_completed s)) ->
  match sensor_rest E poa s with (s', r) =>
    same_rest E Sensor s s' /\
    match bind (sensor_values E (s_inputs s) (completion E (s_inputs s) (s_completed s)) poa)
               (fun n => processed E Sensor (s_inputs s) (completion E (s_inputs s) (s_completed s)) (fst n) (snd n)) with
    | Ok u => r = Ok tt /\ s_sensor s' = run_side u (s_sensor s)
    | Raise e => r = Raise e /\ same_result Sensor s s'
    end
  end.
Proof.
  intros E s poa Hp Hc. unfold sensor_rest, sensor_values. unfold next at 1. cbv zeta. destruct (i_expected (s_inputs s)) as [ex|] eqn:Ex.
  - destruct (expected_norm E (s_inputs s) ex poa) as [n|e]; cbn [bind]; [|split; [apply same_rest_refl|split; reflexivity]].
    pose proof (data_settled E s (s_completed s) eq_refl Sensor (fst n) (snd n)) as F. rewrite with_completed_same in F. apply F.
    split; [|exact Hc]. unfold cell_value. rewrite Ex. destruct (c_cell (s_completed s)); reflexivity.
  - cbn [completion c_cell]. destruct (c_cell (s_completed s)) as [cell|] eqn:Ce.
    + unfold cell_value. rewrite Ce. cbn [or_else bind]. unfold next, ret, ask. destruct (pvwatts_norm E (s_inputs s) poa cell) as [n|e]; cbn [bind]; [|split; [apply same_rest_refl|split; reflexivity]].
      pose proof (data_settled E s (s_completed s) eq_refl Sensor (fst n) (snd n)) as F. rewrite with_completed_same in F. apply F.
      split; [|exact Hc]. unfold cell_value. rewrite Ce. reflexivity.
    + unfold cell_value. rewrite Ce, Ex, Hp. cbn [or_else].
      destruct (i_ambient (s_inputs s)) as [a|] eqn:Am; cbn [need bind]; [|split; [apply same_rest_refl|split; reflexivity]].
      unfold calc_cell_temperature, next, ask, complete, ret. fold (the_model E (s_completed s)).
      rewrite full_the_model.
      destruct (e_cell E (the_model E (s_completed s)) poa a (i_wind (s_inputs s))) as [c|e] eqn:Ec; cbn [computed bind].
      * cbn [s_inputs s_completed s_sensor s_clear]. set (k := set_cell c (set_model (the_model E (s_completed s)) (s_completed s))).
        assert (K : completion E (s_inputs s) k = completion E (s_inputs s) (s_completed s)).
        { unfold k. rewrite (full_cell E (s_inputs s) (set_model (the_model E (s_completed s)) (s_completed s)) poa a c Ce Ex Am Hp Ec). apply full_model. }
        destruct (pvwatts_norm E (s_inputs s) poa c) as [n|e]; cbn [bind];
          [|split; [exact (rest_completed E Sensor s k K)|split; [reflexivity|exact (result_completed Sensor s k)]]].
        apply (data_settled E s k K Sensor (fst n) (snd n)).
        split; [unfold cell_value; reflexivity|]. intros D. change (c_clear_poa (s_completed s) = clear_poa_value E (s_inputs s) (s_completed s)). exact (Hc D).
      * set (k := set_model (the_model E (s_completed s)) (s_completed s)). split; [apply (rest_completed E Sensor s k), full_model|]. split; [reflexivity|exact (result_completed Sensor s k)].
Qed.

Lemma sensor_run : forall (E : env) (s : st),
  match sensor_preprocess E s with (s', r) =>
    same_rest E Sensor s s' /\
    match bind (sensor_data E (s_inputs s) (completion E (s_inputs s) (s_completed s)))
               (fun n => processed E Sensor (s_inputs s) (completion E (s_inputs s) (s_completed s)) (fst n) (snd n)) with
    | Ok u => r = Ok tt /\ s_sensor s' = run_side u (s_sensor s)
    | Raise e => r = Raise e /\ same_result Sensor s s'
    end
  end.
Proof.
  intros E s. unfold sensor_preprocess, sensor_data. unfold next at 1, ask at 1.
  destruct (i_poa (s_inputs s)) as [poa|] eqn:Hp; cbn [need bind]; [|split; [apply same_rest_refl|split; reflexivity]].
  unfold next at 1.
  assert (Dh : dhas "sensor_clearsky_filter" (contents (c_params (completion E (s_inputs s) (s_completed s)))) = dhas "sensor_clearsky_filter" (contents (c_params (s_completed s)))).
  { cbn [completion c_params]. rewrite exclude_cleaned. unfold dhas. rewrite dget_cleaned by discriminate. reflexivity. }
  rewrite Dh. change (match i_expected (s_inputs s) with Some expected => _ | None => _ end) with (sensor_values E (s_inputs s) (completion E (s_inputs s) (s_completed s)) poa).
  destruct (dhas "sensor_clearsky_filter" (contents (c_params (s_completed s)))) eqn:D.
  - change (match c_clear_poa (s_completed s) with Unset => _ | Absent => _ | Present _ => _ end) with (poa_step E s).
    assert (V : match c_clear_poa (completion E (s_inputs s) (s_completed s)) with Unset => Raise AttributeError | Present _ => Ok tt | Absent => bind (clearsky_poa E (s_inputs s)) (fun _ => Ok tt) end
                = bind (poa_of E (s_inputs s) (c_clear_poa (s_completed s))) (fun _ => Ok tt)).
    { cbn [completion c_clear_poa]. rewrite <- poa_of_value. destruct (clear_poa_value E (s_inputs s) (s_completed s)); reflexivity. }
    assert (V' : match c_clear_poa (completion E (s_inputs s) (s_completed s)) with Unset => Raise AttributeError | Absent => bind (clearsky_poa E (s_inputs s)) (fun _ => Ok tt) | Present _ => Ok tt end
                = bind (poa_of E (s_inputs s) (c_clear_poa (s_completed s))) (fun _ => Ok tt)) by exact V.
    rewrite V'. pose proof (poa_step_run E s) as Q. destruct (poa_of E (s_inputs s) (c_clear_poa (s_completed s))) as [p|e]; cbn [bind].
    + destruct Q as (-> & K & Vp). pose proof (sensor_rest_run E (with_completed s (set_clear_poa (Present p) (s_completed s))) poa Hp) as R.
      assert (Hs : dget "sensor_clearsky_filter" (contents (c_params (s_completed (with_completed s (set_clear_poa (Present p) (s_completed s)))))) <> None ->
        c_clear_poa (s_completed (with_completed s (set_clear_poa (Present p) (s_completed s)))) = clear_poa_value E (s_inputs (with_completed s (set_clear_poa (Present p) (s_completed s)))) (s_completed (with_completed s (set_clear_poa (Present p) (s_completed s))))) by (intros _; reflexivity).
      specialize (R Hs). cbn [with_completed s_inputs s_completed s_sensor] in R. rewrite K in R.
      change (next _ (fun n => finish E Sensor (fst n) (snd n)) (with_completed s (set_clear_poa (Present p) (s_completed s)))) with (sensor_rest E poa (with_completed s (set_clear_poa (Present p) (s_completed s)))).
      unfold with_completed in *. destruct (sensor_rest E poa _) as [s' r]. destruct R as [R1 R2]. split; [eapply same_rest_trans; [apply (rest_completed E Sensor s _ K)|exact R1]|].
      exact R2.
    + rewrite Q. split; [apply same_rest_refl|split; reflexivity].
  - cbn [bind]. change (next _ (fun n => finish E Sensor (fst n) (snd n)) s) with (sensor_rest E poa s).
    apply sensor_rest_run; [exact Hp|]. intros H. unfold dhas in D. destruct (dget "sensor_clearsky_filter" (contents (c_params (s_completed s)))); [discriminate|congruence].
Qed.

(** ** clearsky_preprocess *)
Definition clear_cell_step (E : env) (poa : series) (s : st) : st * result unit :=
  match c_clear_cell (s_completed s) with
  | Unset => (s, Raise AttributeError)
  | Present _ => (s, Ok tt)
  | Absent =>
    next (fun s => match c_clear_ambient (s_completed s) with
                   | Unset => (s, Raise AttributeError)
                   | Absent => calc_clearsky_tamb E s
                   | Present _ => (s, Ok tt) end) (fun _ =>
    next (ask (fun s => use (c_clear_ambient (s_completed s)))) (fun a =>
    next (calc_cell_temperature E poa a (e_calm E)) (fun c => complete (set_clear_cell (Present c))))) s
  end.
Definition ambient_of (E : env) (i : inputs W O) (a : attr series) (poa : series) : result series :=
  match a with Unset => Raise AttributeError | Present v => Ok v
  | Absent => bind (match i_location i with Unset => Raise ValueError | a => use a end) (fun loc => e_ambient E loc (times poa)) end.
Definition clear_cell_of (E : env) (i : inputs W O) (k : completed P T) (poa : series) : result series :=
  match c_clear_cell k with Unset => Raise AttributeError | Present c => Ok c
  | Absent => bind (ambient_of E i (c_clear_ambient k) poa) (fun a => e_cell E (the_model E k) poa a (e_calm E)) end.
Lemma ambient_full : forall (E : env) i k poa, clear_poa_value E i k = Present poa -> ambient_of E i (clear_ambient_value E i k) poa = ambient_of E i (c_clear_ambient k) poa.
Proof.
  intros E i k poa H. unfold clear_ambient_value. rewrite H. destruct (c_clear_ambient k); cbn; try reflexivity.
  destruct (i_location i) as [| |loc] eqn:L; cbn; rewrite ?L; try reflexivity. destruct (e_ambient E loc (times poa)) eqn:A; cbn; rewrite ?L; [reflexivity|exact A].
Qed.
Lemma clear_cell_full : forall (E : env) i k poa, clear_poa_value E i k = Present poa -> clear_cell_of E i (completion E i k) poa = clear_cell_of E i k poa.
Proof.
  intros E i k poa H. unfold clear_cell_of. rewrite full_the_model. cbn [completion c_clear_cell c_clear_ambient]. rewrite (ambient_full E i k poa H).
  unfold clear_cell_value. destruct (c_clear_cell k); cbn [or_filled]; try reflexivity. rewrite H. rewrite <- (ambient_full E i k poa H).
  destruct (clear_ambient_value E i k) as [| |a] eqn:A; cbn; try reflexivity. destruct (e_cell E (the_model E k) poa a (e_calm E)) eqn:C; cbn; reflexivity.
Qed.
Lemma clear_cell_run : forall (E : env) (s : st) poa, c_clear_poa (s_completed s) = Present poa ->
  match clear_cell_of E (s_inputs s) (s_completed s) poa with
  | Ok c => exists k, clear_cell_step E poa s = (with_completed s k, Ok tt) /\ completion E (s_inputs s) k = completion E (s_inputs s) (s_completed s) /\
                      c_clear_cell k = Present c /\ c_clear_poa k = Present poa
  | Raise e => exists k, clear_cell_step E poa s = (with_completed s k, Raise e) /\ completion E (s_inputs s) k = completion E (s_inputs s) (s_completed s)
  end.
Proof.
  intros E s poa Hp. unfold clear_cell_of, clear_cell_step. destruct (c_clear_cell (s_completed s)) as [| |c] eqn:Cc.
  - exists (s_completed s). rewrite with_completed_same. auto.
  - set (i := s_inputs s).
    assert (A : match ambient_of E i (c_clear_ambient (s_completed s)) poa with
      | Ok a => exists k, match c_clear_ambient (s_completed s) with Unset => (s, Raise AttributeError) | Absent => calc_clearsky_tamb E s | Present _ => (s, Ok tt) end = (with_completed s k, Ok tt) /\
          completion E i k = completion E i (s_completed s) /\ c_clear_ambient k = Present a /\ c_clear_poa k = Present poa /\ c_clear_cell k = Absent /\ c_model k = c_model (s_completed s)
      | Raise e => match c_clear_ambient (s_completed s) with Unset => (s, Raise AttributeError) | Absent => calc_clearsky_tamb E s | Present _ => (s, Ok tt) end = (s, Raise e)
      end).
    { unfold ambient_of. destruct (c_clear_ambient (s_completed s)) as [| |a] eqn:Ca; [reflexivity| |].
      - unfold calc_clearsky_tamb, next, ask, complete. rewrite Hp. cbn [use bind]. fold i.
        destruct (i_location i) as [| |loc] eqn:L; cbn [use bind]; try reflexivity.
        destruct (e_ambient E loc (times poa)) as [a|e] eqn:Ea; [|reflexivity].
        exists (set_clear_ambient (Present a) (s_completed s)). split; [reflexivity|]. split; [now apply (full_clear_ambient E i (s_completed s) poa loc)|].
        repeat split; assumption.
      - exists (s_completed s). rewrite with_completed_same. repeat split; assumption. }
    unfold next. destruct (ambient_of E i (c_clear_ambient (s_completed s)) poa) as [a|e]; cbn [bind].
    + destruct A as (k & -> & K & Ka & Kp & Kc & Km). cbv beta iota.
      unfold calc_cell_temperature, next, ask, complete. cbn [with_completed s_completed s_inputs s_sensor s_clear]. rewrite Ka. cbn [use]. fold (the_model E k).
      assert (M : the_model E k = the_model E (s_completed s)) by (unfold the_model; now rewrite Km). rewrite <- M.
      destruct (e_cell E (the_model E k) poa a (e_calm E)) as [c|e] eqn:Ec.
      * eexists. split; [reflexivity|]. split; [|split; [reflexivity|exact Kp]].
        fold i. rewrite (full_clear_cell E i (set_model (the_model E k) k) poa a c Kc Kp Ka Ec), full_model. exact K.
      * exists (set_model (the_model E k) k). split; [reflexivity|]. fold i. rewrite full_model. exact K.
    + rewrite A. exists (s_completed s). rewrite with_completed_same. auto.
  - exists (s_completed s). rewrite with_completed_same. auto.
Qed.

Lemma clearsky_run : forall (E : env) (s : st),
  match clearsky_preprocess E s with (s', r) =>
    same_rest E Clearsky s s' /\
    match bind (clearsky_data E (s_inputs s) (completion E (s_inputs s) (s_completed s)))
               (fun n => processed E Clearsky (s_inputs s) (completion E (s_inputs s) (s_completed s)) (fst n) (snd n)) with
    | Ok u => r = Ok tt /\ s_clear s' = run_side u (s_clear s)
    | Raise e => r = Raise e /\ same_result Clearsky s s'
    end
  end.
Proof.
  intros E s. unfold clearsky_preprocess, clearsky_data. unfold next at 1.
  change (match c_clear_poa (s_completed s) with Unset => _ | Absent => _ | Present _ => _ end) with (poa_step E s).
  change (match c_clear_poa (completion E (s_inputs s) (s_completed s)) with Unset => _ | Absent => _ | Present _ => _ end) with (poa_of E (s_inputs s) (clear_poa_value E (s_inputs s) (s_completed s))).
  rewrite poa_of_value. pose proof (poa_step_run E s) as Q. destruct (poa_of E (s_inputs s) (c_clear_poa (s_completed s))) as [poa|e]; cbn [bind];
    [|rewrite Q; split; [apply same_rest_refl|split; reflexivity]].
  destruct Q as (-> & K & Vp). set (s1 := with_completed s (set_clear_poa (Present poa) (s_completed s))).
  unfold next at 1, ask at 1. change (use (c_clear_poa (s_completed s1))) with (Ok poa). cbv beta iota.
  unfold next at 1.
  change (match c_clear_cell (s_completed s1) with Unset => _ | Absent => _ | Present _ => _ end) with (clear_cell_step E poa s1).
  change (match c_clear_cell (completion E (s_inputs s) (s_completed s)) with Unset => _ | Absent => _ | Present _ => _ end) with (clear_cell_of E (s_inputs s) (completion E (s_inputs s) (s_completed s)) poa).
  assert (Cf : clear_cell_of E (s_inputs s) (completion E (s_inputs s) (s_completed s)) poa = clear_cell_of E (s_inputs s1) (s_completed s1) poa).
  { rewrite <- K. apply (clear_cell_full E (s_inputs s) (set_clear_poa (Present poa) (s_completed s)) poa). reflexivity. }
  rewrite Cf. pose proof (clear_cell_run E s1 poa eq_refl) as R. destruct (clear_cell_of E (s_inputs s1) (s_completed s1) poa) as [c|e]; cbn [bind].
  - destruct R as (k & -> & Kk & Kc & Kp). change (s_inputs s1) with (s_inputs s) in Kk. change (completion E (s_inputs s) (s_completed s1)) with (completion E (s_inputs s) (set_clear_poa (Present poa) (s_completed s))) in Kk. rewrite K in Kk.
    change (with_completed s1 k) with (with_completed s k). unfold next at 1, ask at 1. cbv zeta. cbn [with_completed s_inputs s_completed]. rewrite Kc. cbn [use bind].
    change (State (s_inputs s) k (s_sensor s) (s_clear s)) with (with_completed s k).
    assert (S : settled E Clearsky (s_inputs s) k) by (split; [unfold clear_poa_value; now rewrite Kp|unfold clear_cell_value; now rewrite Kc]).
    destruct (i_expected (s_inputs s)) as [ex|].
    + destruct (expected_norm E (s_inputs s) ex poa) as [n|e]; cbn [bind]; [|split; [exact (rest_completed E Clearsky s k Kk)|split; [reflexivity|exact (result_completed Clearsky s k)]]].
      apply (data_settled E s k Kk Clearsky (fst n) (snd n) S).
    + destruct (pvwatts_norm E (s_inputs s) poa c) as [n|e]; cbn [bind]; [|split; [exact (rest_completed E Clearsky s k Kk)|split; [reflexivity|exact (result_completed Clearsky s k)]]].
      apply (data_settled E s k Kk Clearsky (fst n) (snd n) S).
  - destruct R as (k & -> & Kk). change (s_inputs s1) with (s_inputs s) in Kk. change (completion E (s_inputs s) (s_completed s1)) with (completion E (s_inputs s) (set_clear_poa (Present poa) (s_completed s))) in Kk. rewrite K in Kk.
    change (with_completed s1 k) with (with_completed s k). split; [exact (rest_completed E Clearsky s k Kk)|split; [reflexivity|exact (result_completed Clearsky s k)]].
Qed.

(** ** Analyses *)
Lemma analyses_run : forall (E : env) (q : request) (s : st) u, d_performance (side_of (q_case q) s) = Present (u_performance u) -> d_insolation (side_of (q_case q) s) = Present (u_insolation u) ->
  analyses_of E (q_case q) (q_names q) (q_yoy q) (q_srr q) s =
  match results_of E (i_width (s_inputs s)) q u with
  | Ok o => (with_side (q_case q) s (set_result o), Ok tt)
  | Raise e => (s, Raise e)
  end.
Proof.
  intros E q s u Hp Hi. unfold analyses_of, results_of, when. unfold next at 1, ask at 1. rewrite Hp. cbn [use].
  destruct (requested "yoy_degradation" (q_names q)); cbn [bind].
  - unfold next at 1, ask at 1. unfold next at 1. destruct (yoy_degradation E (q_yoy q) (u_performance u)) as [y|e]; cbn [bind ret]; [|reflexivity].
    unfold ret at 1. destruct (requested "srr_soiling" (q_names q)); cbn [bind].
    + unfold next, ask, ret. rewrite Hi. cbn [use bind]. destruct (srr_soiling _ _ _ _ _) as [r|e]; cbn [bind]; [apply store_with|reflexivity].
    + unfold next, ret. apply store_with.
  - unfold next at 1. unfold ret at 1. destruct (requested "srr_soiling" (q_names q)); cbn [bind].
    + unfold next, ask, ret. rewrite Hi. cbn [use bind]. destruct (srr_soiling _ _ _ _ _) as [r|e]; cbn [bind]; [apply store_with|reflexivity].
    + unfold next, ret. apply store_with.
Qed.

Theorem analyse_run : forall (E : env) (q : request) (s : st),
  match analyse E q s with (s', r) =>
    s_inputs s' = s_inputs s /\ completion E (s_inputs s) (s_completed s') = completion E (s_inputs s) (s_completed s) /\
    side_of (other (q_case q)) s' = side_of (other (q_case q)) s /\
    match gives_on E s q with
    | Ok (u, o) => r = Ok tt /\ side_of (q_case q) s' = stored_side u o
    | Raise e => r = Raise e /\ d_result (side_of (q_case q) s') = d_result (side_of (q_case q) s)
    end
  end.
Proof.
  intros E q s. unfold analyse, gives_on, run_of.
  assert (Step : forall (pre : method unit) s' r (p : result run), pre s = (s', r) -> same_rest E (q_case q) s s' ->
    match p with Ok u => r = Ok tt /\ side_of (q_case q) s' = run_side u (side_of (q_case q) s) | Raise e => r = Raise e /\ same_result (q_case q) s s' end ->
    match next pre (fun _ => analyses_of E (q_case q) (q_names q) (q_yoy q) (q_srr q)) s with (s'', r') =>
      s_inputs s'' = s_inputs s /\ completion E (s_inputs s) (s_completed s'') = completion E (s_inputs s) (s_completed s) /\
      side_of (other (q_case q)) s'' = side_of (other (q_case q)) s /\
      match bind p (fun u => bind (results_of E (i_width (s_inputs s)) q u) (fun o => Ok (u, o))) with
      | Ok (u, o) => r' = Ok tt /\ side_of (q_case q) s'' = stored_side u o
      | Raise e => r' = Raise e /\ d_result (side_of (q_case q) s'') = d_result (side_of (q_case q) s)
      end end).
  { intros pre s' r p H R F. unfold next. rewrite H. destruct p as [u|e]; cbn [bind].
    - destruct F as [-> F]. rewrite (analyses_run E q s' u) by (rewrite F; reflexivity). rewrite (proj1 R).
      destruct (results_of E (i_width (s_inputs s)) q u) as [o|e]; cbn [bind].
      + destruct (same_rest_trans E (q_case q) s s' (with_side (q_case q) s' (set_result o)) R (rest_side E (q_case q) s' _)) as (A & B & C).
        repeat split; try assumption. rewrite side_with, F. reflexivity.
      + destruct R as (A & B & C). repeat split; try assumption. rewrite F. reflexivity.
    - destruct F as [-> F]. destruct R as (A & B & C). repeat split; assumption. }
  assert (Assoc : forall (d : result (series * series)) f, bind d (fun n => bind (processed E (q_case q) (s_inputs s) (completion E (s_inputs s) (s_completed s)) (fst n) (snd n)) f)
      = @bind run (run * outcome YR SR) (bind d (fun n => processed E (q_case q) (s_inputs s) (completion E (s_inputs s) (s_completed s)) (fst n) (snd n))) f) by (intros [n|e] f; reflexivity).
  rewrite Assoc. clear Assoc. destruct q as [c names yk sk]. cbn [q_case q_names q_yoy q_srr] in *. destruct c; cbn [data].
  - pose proof (sensor_run E s) as R. destruct (sensor_preprocess E s) as [s' r] eqn:H. destruct R as [R F]. unfold sensor_analysis. exact (Step _ s' r _ H R F).
  - pose proof (clearsky_run E s) as R. destruct (clearsky_preprocess E s) as [s' r] eqn:H. destruct R as [R F]. unfold clearsky_analysis. exact (Step _ s' r _ H R F).
Qed.
End Runs.
