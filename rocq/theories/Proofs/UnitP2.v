(** Analyses of power in another unit. *)

From Coq Require Import QArith Qcanon List ZArith Bool Arith Lia String.
From Verif.Base Require Import QcExtra ISort Quantile Fl TimeSeries Calendar Rolling.
From Verif.Model Require Import Utilities Interpolation Energy Normalization Filters Clipping ClipFeatures FilterDict TrendAnalysis.
From Verif.Spec Require Import Interp Energy TrendRuns Units.
From Verif.Proofs Require Import StatsP FlP FiltersP ClipP3 ClipP4 UnitP ClipFeatP3.
Import ListNotations.
Open Scope list_scope.
Open Scope Qc_scope.

Section UnitObject.
Context {P W T O YK SK YR SR : Type}.
Local Notation env := (environment P W T O YK SK YR SR).
Local Notation st := (state P W T O YR SR).
Local Notation inp := (inputs W O).
Local Notation req := (@request YK SK).
Variable k : Qc.
Hypothesis Hk : 0 < k.

Lemma number_scale : forall x, number_in k x = fscale k x.
Proof. intros [| |q|]; cbn [number_in]; [now rewrite fscale_NaN|now rewrite (fscale_NInf k Hk)|now rewrite fscale_Fin|now rewrite (fscale_PInf k Hk)]. Qed.
Lemma series_scale : forall s, series_in k s = on_values (fscale k) s.
Proof. intros s. unfold series_in, on_values. apply map_ext. intros r. now rewrite number_scale. Qed.
Lemma times_in : forall s, times (series_in k s) = times s.
Proof. intros s. rewrite series_scale. apply times_u. Qed.

(** ** Normalized energy *)
Lemma expected_in : forall (E : env) (i : inp) e poa, expected_norm E (inputs_in k i) (series_in k e) poa = expected_norm E i e poa.
Proof.
  intros E i e poa. unfold expected_norm, inputs_in. cbn [i_energy]. destruct (i_energy i) as [| |en]; try reflexivity. cbn [attr_in read bind need].
  rewrite !times_in, !series_scale. now rewrite (normalize_both k Hk).
Qed.
Lemma numbers_scale : forall l, filter is_finite (map (fscale k) l) = map (fscale k) (filter is_finite l).
Proof.
  intros l. rewrite filter_map_comm. f_equal. apply filter_ext. intros [| |q|]; [now rewrite fscale_NaN|now rewrite (fscale_NInf k Hk)|now rewrite fscale_Fin|now rewrite (fscale_PInf k Hk)].
Qed.
Lemma pvwatts_in : forall (E : env) (i : inp) poa cell, pvwatts_norm E (inputs_in k i) poa cell = pvwatts_norm E i poa cell.
Proof.
  intros E i poa cell. unfold pvwatts_norm, inputs_in. cbn [i_energy i_rated i_gamma]. destruct (i_energy i) as [| |en]; try reflexivity. cbn [attr_in read bind need].
  rewrite times_in, series_scale. destruct (i_rated i) as [r|]; cbn [option_map]; unfold normalize_with_pvwatts.
  - rewrite number_scale, (pvwatts_u k Hk), (normalize_both k Hk). reflexivity.
  - rewrite (normalize_measured k Hk). destruct (normalize_with_expected_power _ _ _ en _ _ _) as [[e ins]|]; [|reflexivity]. cbn [rmap bind fst snd].
    rewrite vals_u, numbers_scale, (robust_quantile_fscale k Hk). do 2 f_equal. unfold on_values. rewrite map_map. apply map_ext. intros r. cbn [fst snd]. now rewrite (fdiv_fscale k Hk).
Qed.

(** ** Methods *)
Definition alike {A} (i : inp) (m : method A) : Prop := forall s : st, s_inputs s = i -> m (object_in k s) = (object_in k (fst (m s)), snd (m s)) /\ s_inputs (fst (m s)) = i.
Lemma alike_next : forall A B i (m : method A) (f : A -> method B), alike i m -> (forall a, alike i (f a)) -> alike i (next m f).
Proof.
  intros A B i m f Hm Hf s Hs. unfold next. destruct (Hm s Hs) as [E I]. rewrite E. destruct (m s) as [s' [a|e]]; cbn [fst snd] in *; [apply (Hf a s' I)|split; [reflexivity|exact I]].
Qed.
Lemma alike_ask : forall A i (f : st -> result A), (forall s, s_inputs s = i -> f (object_in k s) = f s) -> alike i (ask f).
Proof. intros A i f H s Hs. unfold ask. cbn [fst snd]. now rewrite (H s Hs). Qed.
Lemma alike_ret : forall A i (a : A), alike i (ret a).
Proof. intros A i a s Hs. split; [reflexivity|exact Hs]. Qed.
Lemma alike_raise : forall A i (e : exn), alike (A := A) i (raise e).
Proof. intros A i e s Hs. split; [reflexivity|exact Hs]. Qed.
Lemma alike_complete : forall i f, alike i (complete f).
Proof. intros i f s Hs. split; [reflexivity|exact Hs]. Qed.
Lemma alike_store : forall i c f, alike i (store c f).
Proof. intros i c f s Hs. destruct c; (split; [reflexivity|exact Hs]). Qed.
Lemma alike_state : forall A i (m : st -> method A), (forall s0, alike i (m s0)) -> (forall s, s_inputs s = i -> m (object_in k s) = m s) -> alike i (fun s => m s s).
Proof. intros A i m H X s Hs. rewrite (X s Hs). apply (H s s Hs). Qed.
Hint Resolve alike_ret alike_raise alike_complete alike_store : alike.

Lemma side_in : forall c (s : st), side_of c (object_in k s) = side_of c s.
Proof. now intros []. Qed.

Section Env.
Variable E : env.
Variable i : inp.
Hypothesis HC : clips_alike E k (i_power i).

Lemma components_in : forall c en s, s_inputs s = i -> components E c en (object_in k s) = components E c en s.
Proof.
  intros c en s Hs. unfold components. cbn [object_in s_completed s_inputs]. 
  set (params := contents (c_params (s_completed s))). cbv zeta.
  assert (X : part params "clip_filter" (bind (read (i_power (inputs_in k (s_inputs s)))) (need ValueError)) (e_clip E)
            = part params "clip_filter" (bind (read (i_power (s_inputs s))) (need ValueError)) (e_clip E)).
  { unfold part. destruct (dget _ _) as [v|]; [|reflexivity]. rewrite Hs. unfold inputs_in. cbn [i_power]. destruct (i_power i) as [| |p] eqn:Pw; try reflexivity.
    cbn [attr_in read bind need]. destruct (kwargs v) as [q|]; [|reflexivity]. cbn [bind]. rewrite (HC q p eq_refl). reflexivity. }
  rewrite X. reflexivity.
Qed.
Lemma filter_in : forall c en, alike i (filter_ E c en).
Proof.
  intros c en. unfold filter_. apply alike_next; [apply alike_ask; intros s Hs; now apply components_in|]. intros cols. cbv zeta.
  repeat (apply alike_next; [first [apply alike_ask; reflexivity|auto with alike]|intros ?]). auto with alike.
Qed.
Lemma aggregated_in : forall c a, alike i (aggregated_filter E c a).
Proof.
  intros c a. unfold aggregated_filter. apply alike_next; [apply alike_ask; intros s Hs; unfold components_aggregated; now rewrite side_in|]. intros cols. cbv zeta.
  repeat (apply alike_next; [first [apply alike_ask; reflexivity|auto with alike]|intros ?]). auto with alike.
Qed.
Lemma finish_in : forall c en ins, alike i (finish E c en ins).
Proof.
  intros c en ins. unfold finish. apply alike_next; [apply filter_in|]. intros _.
  apply alike_next; [apply alike_ask; intros s Hs; rewrite side_in; reflexivity|]. intros a.
  apply alike_next; [auto with alike|]. intros _. apply alike_next; [apply aggregated_in|]. intros _.
  repeat (apply alike_next; [first [apply alike_ask; intros s Hs; rewrite ?side_in; reflexivity|auto with alike]|intros ?]). auto with alike.
Qed.
Lemma clearsky_poa_in : forall s : st, clearsky_poa E (s_inputs (object_in k s)) = clearsky_poa E (s_inputs s).
Proof. reflexivity. Qed.
Lemma calc_poa_in : alike i (calc_clearsky_poa E).
Proof. unfold calc_clearsky_poa. apply alike_next; [apply alike_ask; reflexivity|]. auto with alike. Qed.
Lemma calc_cell_in : forall poa a w, alike i (calc_cell_temperature E poa a w).
Proof.
  intros poa a w. unfold calc_cell_temperature. apply alike_next; [apply alike_ask; reflexivity|]. intros m. apply alike_next; [auto with alike|]. intros _. apply alike_ask. reflexivity.
Qed.
Lemma calc_tamb_in : alike i (calc_clearsky_tamb E).
Proof. unfold calc_clearsky_tamb. apply alike_next; [apply alike_ask; reflexivity|]. auto with alike. Qed.
Lemma sensor_in : alike i (sensor_preprocess E).
Proof.
  unfold sensor_preprocess. apply alike_next; [apply alike_ask; reflexivity|]. intros poa. apply alike_next.
  { apply (alike_state _ i (fun s s' => if dhas "sensor_clearsky_filter"%string (contents (c_params (s_completed s))) then match c_clear_poa (s_completed s) with
                      | Unset => (s', Raise AttributeError) | Absent => calc_clearsky_poa E s' | Present _ => (s', Ok tt) end else (s', Ok tt))); [|reflexivity].
    intros s0. destruct (dhas _ _); [destruct (c_clear_poa _)|]; [exact (alike_raise _ i AttributeError)|apply calc_poa_in|exact (alike_ret _ i tt)|exact (alike_ret _ i tt)]. }
  intros _. apply alike_next; [|intros n; apply finish_in].
  intros s Hs. cbn zeta. unfold object_in at 1. cbn [s_inputs]. rewrite Hs. unfold inputs_in at 1. cbn [i_expected]. destruct (i_expected i) as [e|]; cbn [option_map].
  - cbn [fst snd]. split; [|exact Hs]. f_equal. unfold object_in. cbn [s_inputs]. rewrite ?Hs. apply expected_in.
  - assert (A : alike i (next (match c_cell (s_completed s) with Some c => ret c | None =>
        match i_ambient i with None => raise ValueError | Some a => next (calc_cell_temperature E poa a (i_wind i)) (fun c => next (complete (set_cell c)) (fun _ => ret c)) end end)
        (fun c => ask (fun _ => pvwatts_norm E i poa c)))).
    { apply alike_next; [|intros c; apply alike_ask; reflexivity]. destruct (c_cell _); [auto with alike|]. destruct (i_ambient i); [|auto with alike].
      apply alike_next; [apply calc_cell_in|]. intros c. apply alike_next; auto with alike. }
    destruct (A s Hs) as [A1 A2]. split; [|exact A2]. rewrite <- A1.
    assert (F : forall (m : method series) (x : st), next m (fun c => ask (fun _ => pvwatts_norm E (inputs_in k i) poa c)) x = next m (fun c => ask (fun _ => pvwatts_norm E i poa c)) x).
    { intros m x. unfold next. destruct (m x) as [x' [c|]]; [|reflexivity]. unfold ask. now rewrite pvwatts_in. }
    rewrite <- F. unfold object_in. cbn [s_inputs]. rewrite Hs. reflexivity.
Qed.
Lemma clear_in : alike i (clearsky_preprocess E).
Proof.
  unfold clearsky_preprocess. apply alike_next.
  { apply (alike_state _ i (fun s s' => match c_clear_poa (s_completed s) with Unset => (s', Raise AttributeError) | Absent => calc_clearsky_poa E s' | Present _ => (s', Ok tt) end)); [|reflexivity].
    intros s0. destruct (c_clear_poa _); [exact (alike_raise _ i AttributeError)|apply calc_poa_in|exact (alike_ret _ i tt)]. }
  intros _. apply alike_next; [apply alike_ask; reflexivity|]. intros poa. apply alike_next.
  { apply (alike_state _ i (fun s s' => match c_clear_cell (s_completed s) with Unset => (s', Raise AttributeError) | Present _ => (s', Ok tt)
        | Absent => next (fun s => match c_clear_ambient (s_completed s) with Unset => (s, Raise AttributeError) | Absent => calc_clearsky_tamb E s | Present _ => (s, Ok tt) end) (fun _ =>
                   next (ask (fun s => use (c_clear_ambient (s_completed s)))) (fun a =>
                   next (calc_cell_temperature E poa a (e_calm E)) (fun c => complete (set_clear_cell (Present c))))) s' end)); [|reflexivity].
    intros s0. destruct (c_clear_cell _); [exact (alike_raise _ i AttributeError)| |exact (alike_ret _ i tt)].
    apply alike_next.
    { apply (alike_state _ i (fun s s' => match c_clear_ambient (s_completed s) with Unset => (s', Raise AttributeError) | Absent => calc_clearsky_tamb E s' | Present _ => (s', Ok tt) end)); [|reflexivity].
      intros s1. destruct (c_clear_ambient _); [exact (alike_raise _ i AttributeError)|apply calc_tamb_in|exact (alike_ret _ i tt)]. }
    intros _. apply alike_next; [apply alike_ask; reflexivity|]. intros a. apply alike_next; [apply calc_cell_in|]. auto with alike. }
  intros _. apply alike_next; [|intros n; apply finish_in]. apply alike_ask. intros s Hs. unfold object_in at 1 2. cbn [s_inputs s_completed]. rewrite Hs. unfold inputs_in at 1. cbn [i_expected].
  destruct (i_expected i) as [e|]; cbn [option_map]; [apply expected_in|]. destruct (use _); [|reflexivity]. cbn [bind]. unfold object_in. cbn [s_inputs]. rewrite Hs. apply pvwatts_in.
Qed.
Lemma results_in : forall c names yk sk, alike i (analyses_of E c names yk sk).
Proof.
  intros c names yk sk. unfold analyses_of. apply alike_next; [apply alike_ask; intros s Hs; now rewrite side_in|]. intros p.
  apply alike_next. { destruct (requested _ _); [|auto with alike]. apply alike_next; [apply alike_ask; reflexivity|auto with alike]. }
  intros y. apply alike_next. { destruct (requested _ _); [|auto with alike]. apply alike_next; [apply alike_ask; intros s Hs; now rewrite side_in|auto with alike]. }
  auto with alike.
Qed.
Lemma analyse_in : forall q : req, alike i (analyse E q).
Proof.
  intros q. unfold analyse, sensor_analysis, clearsky_analysis. destruct (q_case q); (apply alike_next; [first [apply sensor_in|apply clear_in]|intros _; apply results_in]).
Qed.
End Env.

Theorem unit_call : forall (E : env) (q : req) (s : st), clips_alike E k (i_power (s_inputs s)) ->
  analyse E q (object_in k s) = (object_in k (fst (analyse E q s)), snd (analyse E q s)).
Proof. intros E q s H. exact (proj1 (analyse_in E (s_inputs s) H q s eq_refl)). Qed.
Theorem unit_calls : forall (E : env) (qs : list req) (s : st), clips_alike E k (i_power (s_inputs s)) -> after_calls E qs (object_in k s) = object_in k (after_calls E qs s).
Proof.
  intros E qs. induction qs as [|q qs IH]; intros s H; [reflexivity|]. cbn [after_calls fold_left]. fold (after_calls E qs (fst (analyse E q (object_in k s)))) (after_calls E qs (fst (analyse E q s))).
  rewrite (unit_call E q s H). cbn [fst]. apply IH. rewrite (proj2 (analyse_in E (s_inputs s) H q s eq_refl)). exact H.
Qed.

(** ** Construction *)
Theorem unit_clearsky : forall loc o p c a (s : st), set_clearsky loc o p c a (object_in k s) = (object_in k (fst (set_clearsky loc o p c a s)), snd (set_clearsky loc o p c a s)).
Proof.
  intros loc o p c a s. unfold set_clearsky. cbn [object_in s_inputs]. unfold inputs_in at 1 2 3 4 5 6. cbn [i_energy i_max_timedelta].
  assert (X : forall x : option series, match x with None => Ok None | Some _ => bind (use (attr_in k (i_energy (s_inputs s)))) (fun e => interpolated x (times e) (i_max_timedelta (s_inputs s))) end
            = match x with None => Ok None | Some _ => bind (use (i_energy (s_inputs s))) (fun e => interpolated x (times e) (i_max_timedelta (s_inputs s))) end).
  { intros [x|]; [|reflexivity]. destruct (i_energy (s_inputs s)); try reflexivity. cbn [attr_in use bind]. now rewrite times_in. }
  cbv zeta. rewrite !X. destruct (bind _ _) as [[[p' c'] a']|]; reflexivity.
Qed.
Lemma interpolated_in : forall o idx m, interpolated (option_map (series_in k) o) idx m = rmap (option_map (series_in k)) (interpolated o idx m).
Proof.
  intros [s|] idx m; [|reflexivity]. cbn [option_map interpolated]. rewrite series_scale, (interpolate_u k Hk). destruct (interpolate _ _ s _ _) as [r|]; [|reflexivity]. cbn [rmap bind option_map]. now rewrite series_scale.
Qed.
Theorem unit_object : forall (E : env) (empty : P) pv poa cell ambient gamma width kind wind expected (model : option T) rated interp m,
  construct_analysis E empty (series_in k pv) poa cell ambient gamma width kind wind (option_map (series_in k) expected) model (option_map (number_in k) rated) interp m =
  rmap (@object_in P W T O YR SR k) (construct_analysis E empty pv poa cell ambient gamma width kind wind expected model rated interp m).
Proof.
  intros E empty pv poa cell ambient gamma width kind wind expected model rated interp m. unfold construct_analysis.
  assert (X : match interp with None => Ok (series_in k pv) | Some w => interpolate true true (series_in k pv) (TFreq w) m end
            = rmap (series_in k) match interp with None => Ok pv | Some w => interpolate true true pv (TFreq w) m end).
  { destruct interp as [w|]; [|reflexivity]. rewrite series_scale, (interpolate_u k Hk). destruct (interpolate _ _ pv _ _); [|reflexivity]. cbn [rmap]. now rewrite series_scale. }
  rewrite X. clear X. destruct (match interp with None => _ | Some _ => _ end) as [pv'|]; [|reflexivity]. cbn [rmap bind]. cbv zeta. rewrite times_in.
  destruct (interpolated poa _ _) as [poa'|]; [|reflexivity]. cbn [bind]. destruct (interpolated cell _ _) as [cell'|]; [|reflexivity]. cbn [bind].
  destruct (interpolated ambient _ _) as [ambient'|]; [|reflexivity]. cbn [bind]. rewrite interpolated_in. destruct (interpolated expected _ _) as [expected'|]; [|reflexivity]. cbn [rmap bind].
  assert (X : (match kind with PvPower => bind (energy_from_power (e_freq E (times pv')) (series_in k pv') None m RightLabeled) (fun e => Ok (Present (series_in k pv'), Present e))
               | PvEnergy => Ok (Absent, Present (series_in k pv')) | PvOther => Ok (Unset, Unset) end)
            = rmap (fun pe : attr series * attr series => (attr_in k (fst pe), attr_in k (snd pe))) match kind with PvPower => bind (energy_from_power (e_freq E (times pv')) pv' None m RightLabeled) (fun e => Ok (Present pv', Present e))
               | PvEnergy => Ok (Absent, Present pv') | PvOther => Ok (Unset, Unset) end).
  { destruct kind; try reflexivity. rewrite series_scale, (energy_u k Hk). destruct (energy_from_power _ pv' _ _ _); [|reflexivity]. cbn [rmap bind fst snd attr_in]. now rewrite !series_scale. }
  rewrite X. clear X. destruct (match kind with PvPower => _ | PvEnergy => _ | PvOther => _ end) as [[pw en]|]; [|reflexivity]. cbn [rmap bind fst snd].
  assert (Y : match option_map (series_in k) expected' with Some _ => true | None => false end = match expected' with Some _ => true | None => false end) by (destruct expected'; reflexivity).
  rewrite Y. destruct (initial_params _ _ _ _); [|reflexivity]. cbn [bind]. destruct (initial_params_aggregated _ _); reflexivity.
Qed.
(** From the data to the results. *)
Theorem unit_whole : forall (E : env) (empty : P) pv poa cell ambient gamma width kind wind expected (model : option T) rated interp m (s s' : st) (qs : list req),
  construct_analysis E empty pv poa cell ambient gamma width kind wind expected model rated interp m = Ok s ->
  construct_analysis E empty (series_in k pv) poa cell ambient gamma width kind wind (option_map (series_in k) expected) model (option_map (number_in k) rated) interp m = Ok s' ->
  (forall p x, e_clip E p (series_in k x) = e_clip E p x) ->
  forall c, side_of c (after_calls E qs s') = side_of c (after_calls E qs s).
Proof.
  intros E empty pv poa cell ambient gamma width kind wind expected model rated interp m s s' qs H H' HC c. rewrite unit_object, H in H'. cbn [rmap] in H'. injection H' as <-.
  rewrite unit_calls; [apply side_in|]. intros p x _. apply HC.
Qed.
End UnitObject.

(** ** Without a rating *)
Section Unrated.
Context {P W T O YK SK YR SR : Type}.
Theorem unrated : forall (E : environment P W T O YK SK YR SR) (i : inputs W O) poa cell en ins, i_rated i = None -> pvwatts_norm E i poa cell = Ok (en, ins) ->
  exists energy en1, i_energy i = Present energy /\
    normalize_with_pvwatts (e_infer E) (e_freq E (times energy)) (e_freq E (times poa)) energy poa (Fin 1) (Some cell) (fz 1000) (fz 25) (i_gamma i) = Ok (en1, ins) /\
    en = map (fun r => (fst r, fdiv (snd r) (robust_quantile (qf 95 100) (numbers en1)))) en1 /\
    (forall q, robust_quantile (qf 95 100) (numbers en1) = Fin q -> 0 < q -> robust_quantile (qf 95 100) (numbers en) = Fin 1).
Proof.
  intros E i poa cell en ins R H. unfold pvwatts_norm in H. rewrite R in H. destruct (i_energy i) as [| |energy]; try discriminate. cbn [read bind need] in H.
  destruct (normalize_with_pvwatts _ _ _ energy _ _ _ _ _ _) as [[en1 ins1]|] eqn:N; [|discriminate]. cbn [bind fst snd] in H.
  assert (I : ins1 = ins) by congruence. assert (D : map (fun r => (fst r, fdiv (snd r) (robust_quantile (qf 95 100) (numbers en1)))) en1 = en).
  { unfold on_values, numbers in *. change (fun x : fl => match x with Fin _ => true | _ => false end) with is_finite. congruence. }
  subst ins1. exists energy, en1. split; [reflexivity|]. split; [exact N|]. split; [now symmetry|]. intros q Q Hq. rewrite <- D, Q.
  assert (Hi : 0 < 1 / q) by (apply Qc_lt_div; [exact Hq|qlra]). assert (Nq : q <> 0) by (apply Qc_pos_neq, Hq).
  assert (V : numbers (map (fun r => (fst r, fdiv (snd r) (Fin q))) en1) = map (fscale (1 / q)) (numbers en1)).
  { unfold numbers. change (fun x : fl => match x with Fin _ => true | _ => false end) with is_finite. rewrite <- (numbers_scale (1 / q) Hi). f_equal. unfold vals. rewrite !map_map. apply map_ext. intros [t v]. cbn [fst snd].
    destruct v; rewrite ?fscale_NaN, ?(fscale_NInf _ Hi), ?(fscale_PInf _ Hi), ?fscale_Fin; cbn [fdiv]; try reflexivity.
    - destruct (qeq q 0) eqn:Z; [apply qeq_spec in Z; contradiction|]. now rewrite ?(inf_sgn_k q Hq), ?(inf_sgn_neg_k q Hq).
    - destruct (qeq q 0) eqn:Z; [apply qeq_spec in Z; contradiction|]. f_equal. field. exact Nq.
    - destruct (qeq q 0) eqn:Z; [apply qeq_spec in Z; contradiction|]. now rewrite ?(inf_sgn_k q Hq), ?(inf_sgn_neg_k q Hq). }
  rewrite V, (robust_quantile_fscale _ Hi), Q, fscale_Fin. f_equal. field. exact Nq.
Qed.
End Unrated.

(** ** With a rating in the old unit *)
Section Rated.
Context {P W T O YK SK YR SR : Type}.
Theorem rated_energy : forall (E : environment P W T O YK SK YR SR) (i : inputs W O) poa cell c, 0 < c -> i_rated i <> None ->
  pvwatts_norm E (energy_only c i) poa cell = rmap (fun r => (series_in c (fst r), snd r)) (pvwatts_norm E i poa cell) /\
  (forall expected, expected_norm E (energy_only c i) expected poa = rmap (fun r => (series_in c (fst r), snd r)) (expected_norm E i expected poa)).
Proof.
  intros E i poa cell c Hc R. unfold pvwatts_norm, expected_norm, energy_only. cbn [i_energy i_rated i_gamma]. destruct (i_energy i) as [| |en]; try (split; reflexivity). cbn [attr_in read bind need].
  rewrite (times_in c Hc), (series_scale c Hc). split.
  - destruct (i_rated i) as [r|]; [|congruence]. unfold normalize_with_pvwatts. rewrite (normalize_measured c Hc). destruct (normalize_with_expected_power _ _ _ en _ _ _) as [[e ins]|]; [|reflexivity]. cbn [rmap bind fst snd].
    now rewrite (series_scale c Hc).
  - intros expected. rewrite (normalize_measured c Hc). destruct (normalize_with_expected_power _ _ _ en _ _ _) as [[e ins]|]; [|reflexivity]. cbn [rmap bind fst snd]. now rewrite (series_scale c Hc).
Qed.
End Rated.

(** ** Clipping filters *)
Theorem clip_models : forall c, 0 < c -> forall s,
  (forall q, quantile_clip_filter q (series_in c s) = quantile_clip_filter q s) /\
  (forall m cutoff roll, logic_clip_filter (series_in c s) m cutoff roll = logic_clip_filter s m cutoff roll) /\
  (forall predict m, xgboost_filter predict (series_in c s) m = xgboost_filter predict s m).
Proof.
  intros c Hc s. split; [| split]; intros.
  - rewrite (series_scale c Hc). apply quantile_clip_scale, Hc.
  - rewrite (series_scale c Hc). apply logic_clip_scale, Hc.
  - assert (series_in c s = on_values (affine c 0) s) as ->; [| apply filter_a66, Hc].
    unfold series_in, on_values. apply map_ext. intros r. f_equal. destruct (affine_cases c 0 Hc) as (E1 & E2 & E3 & E4).
    destruct (snd r) as [| | q |]; cbn [number_in]; [symmetry; exact E1 | symmetry; exact E3 | rewrite E4; f_equal; ring | symmetry; exact E2].
Qed.
