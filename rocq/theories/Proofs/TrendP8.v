(** The performance stored by a successful analysis. *)

From Coq Require Import QArith Qcanon List ZArith Bool Arith String Sorted Lia.
From Verif.Base Require Import QcExtra Fl TimeSeries Calendar Rolling.
From Verif.Model Require Import Normalization FilterDict TrendAnalysis.
From Verif.Spec Require Import FilterSets TrendRuns Normalization Pipeline.
From Verif.Proofs Require Import NormP3 NormP4 TrendP1 TrendP2 TrendP3 TrendP4 TrendP7.
Import ListNotations.
Open Scope list_scope.

Section Pipeline.
Context {P W T O YK SK YR SR : Type}.
Local Notation env := (environment P W T O YK SK YR SR).
Local Notation st := (state P W T O YR SR).
Local Notation req := (@request YK SK).

(** ** Normalized energy and insolation have one index *)
Definition one_index (r : result (series * series)) : Prop := forall e n, r = Ok (e, n) -> times e = times n /\ sorted_index e.
Lemma bind_one : forall {A} (r : result A) f, (forall a, one_index (f a)) -> one_index (bind r f).
Proof. intros A [a|e] f H; cbn; [apply H|intros x y; discriminate]. Qed.
Lemma normalize_one : forall infer f g a b c kind, one_index (normalize_with_expected_power infer f g a b c kind).
Proof.
  intros. unfold normalize_with_expected_power. repeat (apply bind_one; intros ?; cbv zeta). intros e n H. injection H as <- <-.
  unfold sorted_index. rewrite !times_reindex. split; [reflexivity|apply zset_sorted].
Qed.
Lemma times_values : forall f s, times (on_values f s) = times s.
Proof. intros f s. unfold on_values, times. rewrite map_map. reflexivity. Qed.
Lemma data_one : forall (E : env) c i k, one_index (data E c i k).
Proof.
  intros E c i k.
  assert (A : forall poa t, one_index (pvwatts_norm E i poa t)).
  { intros poa t. unfold pvwatts_norm. do 2 (apply bind_one; intros ?). cbv zeta. unfold normalize_with_pvwatts.
    pose proof (normalize_one (e_infer E) (e_freq E (times a0)) (e_freq E (times poa)) a0 (pvwatts_dc_power poa match i_rated i with Some r => r | None => Fin 1 end (Some t) (fz 1000) (fz 25) (i_gamma i)) poa PvEnergy) as N.
    destruct (normalize_with_expected_power _ _ _ _ _ _ _) as [[e n]|x]; [|intros e n; discriminate]. cbn [bind fst snd]. specialize (N e n eq_refl).
    destruct (i_rated i); intros e' n' H; injection H as <- <-; [exact N|]. unfold sorted_index. rewrite times_values. exact N. }
  assert (B : forall x poa, one_index (expected_norm E i x poa)).
  { intros x poa. unfold expected_norm. do 2 (apply bind_one; intros ?). apply normalize_one. }
  destruct c; cbn [data].
  - unfold sensor_data. do 2 (apply bind_one; intros ?). destruct (i_expected i); [apply B|]. apply bind_one. intros t. apply A.
  - unfold clearsky_data. do 2 (apply bind_one; intros ?). destruct (i_expected i); [apply B|apply A].
Qed.

(** ** From the filtered rows to the regular ones *)
Lemma keep_filter_In : forall m (s : series) t, In t (times (kept_rows m s)) <-> In (t, true) m /\ In t (times s).
Proof. intros m s t. rewrite times_kept, filter_In, keep_In. tauto. Qed.
Lemma kept_value : forall m (s : series) t v, In (t, v) (kept_rows m s) <-> In (t, true) m /\ In (t, v) s.
Proof. intros m s t v. unfold kept_rows. rewrite filter_In. cbn [fst]. fold (keep m t). rewrite keep_In. tauto. Qed.
Lemma sorted_kept : forall m s, sorted_index s -> sorted_index (kept_rows m s).
Proof. intros m s S. now apply sorted_filter. Qed.

Lemma binned_spec : forall w e n, (0 < w)%Z -> times e = times n -> sorted_index e -> binned w e n (aggregation_insol e n w) (resample_day_sum n w).
Proof.
  intros w e n Hw He S.
  assert (Ha : times (aggregation_insol e n w) = times (resample_day_sum n w)) by (now apply times_aggregation).
  destruct n as [|[t0 v0] n'] eqn:En.
  - assert (e = []) as -> by (destruct e; [reflexivity|discriminate]). cbn in *. split; [reflexivity|]. split; [constructor|]. split; [|intros _ _; split; intros b x []].
    intros b. split; [intros []|]. intros (f & l & m & j & H & _); discriminate.
  - rewrite <- En in *. assert (Sn : sorted_index n) by (unfold sorted_index in *; now rewrite <- He).
    assert (Hf : exists l, times n = t0 :: l) by (rewrite En; eexists; reflexivity).
    assert (Hl : exists last, exists l, times n = l ++ [last]).
    { destruct (exists_last (l := n) ltac:(rewrite En; discriminate)) as (l & [t v] & ->). exists t, (times l). unfold times. now rewrite map_app. }
    destruct Hl as (last & Hl). assert (Hle : (t0 <= last)%Z).
    { destruct Hf as [l Hf], Hl as [l' Hl]. exact (first_le_last l l' t0 last (times n) Sn Hf Hl). }
    assert (Hd : hd_error (times n) = Some t0) by (rewrite En; reflexivity).
    pose proof (times_bins n w t0 last Hf Hl) as Hb.
    assert (Bins : forall b, In b (times (resample_day_sum n w)) <-> bin_of w (times n) b) by (intros b; rewrite Hb; now apply bins_spec).
    split; [now symmetry|]. split; [unfold sorted_index; rewrite Ha, Hb; apply sorted_steps; exact Hw|]. split; [intros b; rewrite Ha; apply Bins|].
    intros Ne Nn. split.
    + intros b x I. rewrite (aggregation_closed e n w t0 last He Nn Ne Hw Hf Hl) in I. apply in_map_iff in I. destruct I as (b' & E' & _). injection E' as -> <-. reflexivity.
    + intros b y I. rewrite En in I. rewrite resample_day_value in I; [|exact Hw|rewrite <- En; exact Nn]. rewrite <- En in I. apply in_map_iff in I.
      destruct I as (b' & E' & _). injection E' as -> <-. reflexivity.
Qed.
Lemma bins_aligned : forall w rows, exists d, forall b, bin_of w rows b -> exists j, b = (ns_day * d + w * j)%Z.
Proof.
  intros w rows. destruct rows as [|t rows].
  - exists 0%Z. intros b (f & l & m & j & H & _). discriminate.
  - exists (t / ns_day)%Z. intros b (f & l & m & j & H & _ & Hm & -> & _). injection H as <-. exists j. f_equal.
    apply (midnight_unique t); [exact Hm|apply start_day_midnight].
Qed.
Lemma regular_spec : forall (E : env) w rows M a, (0 < w)%Z -> dividing w -> sorted_index a -> (forall b, In b (times a) -> bin_of w rows b) -> good_mask (times a) M ->
  regular_rows w M a (as_freq E (kept_rows M a) w).
Proof.
  intros E w rows M a Hw Dv S B (_ & _ & G).
  assert (Full : forall b, In (b, true) M -> In b (times (kept_rows M a))) by (intros b I; apply keep_filter_In; split; [exact I|now apply G]).
  assert (D : kept_rows M a = [] \/ kept_rows M a <> []) by (destruct (kept_rows M a); [now left|right; discriminate]).
  destruct D as [D|D].
  - rewrite D in *. cbn [as_freq]. split; [intros b I; destruct (Full b I)|]. split; [now left|]. intros b x [].
  - destruct (bins_aligned w rows) as [d Al].
    assert (On : forall t, In t (times (kept_rows M a)) -> exists j, t = (ns_day * d + w * j)%Z) by (intros t I; apply keep_filter_In in I; apply Al, B, I).
    destruct (as_freq_spec E (kept_rows M a) w (ns_day * d) Hw Dv (sorted_kept M a S) (ex_intro _ d eq_refl) On D) as (b1 & k1 & A1 & A2 & A3 & A4).
    rewrite A4. split; [intros b I; rewrite times_reindex; apply A3, Full, I|]. split.
    + right. exists b1, k1. split; [apply times_reindex|]. apply keep_filter_In in A1, A2. tauto.
    + intros b x I. unfold reindex in I. apply in_map_iff in I. destruct I as (u & Eu & _). injection Eu as -> <-. split.
      * intros I. destruct (lookup_cases (kept_rows M a) b) as [(v & Iv & ->)|[N _]]; [apply kept_value in Iv; tauto|]. destruct (N (Full b I)).
      * intros N. apply lookup_none. rewrite keep_filter_In. tauto.
Qed.

(** ** The analysis *)
Lemma pipeline_core : forall (E : env) (q : req) (s s' : st), analyse E q s = (s', Ok tt) -> (0 < i_width (s_inputs s))%Z ->
  let filled := object (s_inputs s) (completion E (s_inputs s) (s_completed s)) empty_side in
  exists energy insolation m a c M p i,
    data E (q_case q) (s_inputs filled) (s_completed filled) = Ok (energy, insolation) /\ times energy = times insolation /\ sorted_index energy /\
    d_filter (side_of (q_case q) s') = Present m /\ d_filter_aggregated (side_of (q_case q) s') = Present M /\
    d_performance (side_of (q_case q) s') = Present p /\ d_insolation (side_of (q_case q) s') = Present i /\
    (exists parts idx, components_are E (q_case q) energy filled parts /\ common_index (times energy) parts idx /\ mask_of idx (kept (times energy) parts (rows_by_hand (params_of s))) m) /\
    binned (i_width (s_inputs s)) (kept_rows m energy) (kept_rows m insolation) a c /\
    (exists parts idx, aggregated_are E a c filled parts /\ common_index (times a) parts idx /\ mask_of idx (kept (times a) parts (rows_by_hand (aggregated_params_of s))) M) /\
    good_mask (times a) M /\ p = as_freq E (kept_rows M a) (i_width (s_inputs s)) /\ i = as_freq E (kept_rows M c) (i_width (s_inputs s)).
Proof.
  intros E q s s' H Hw filled. pose proof (analyse_run E q s) as R. rewrite H in R. destruct R as (_ & _ & _ & R).
  unfold gives_on, run_of in R. change (s_inputs filled) with (s_inputs s). change (s_completed filled) with (completion E (s_inputs s) (s_completed s)).
  pose proof (data_one E (q_case q) (s_inputs s) (completion E (s_inputs s) (s_completed s))) as O1.
  destruct (data E (q_case q) (s_inputs s) (completion E (s_inputs s) (s_completed s))) as [[energy insolation]|]; cbn [bind] in R; [|destruct R; discriminate].
  destruct (O1 _ _ eq_refl) as [Ht Hs]. cbn [fst snd] in R. unfold processed in R. fold filled in R.
  pose proof (components_spec E (q_case q) energy filled) as C1.
  destruct (components E (q_case q) energy filled) as [parts|]; cbn [bind] in R; [|destruct R; discriminate].
  cbn [completion c_params c_params_aggregated] in R.
  destruct (combined (times energy) parts (exclude_missing (c_params (s_completed s)))) as [f|] eqn:F; cbn [bind] in R; [|destruct R; discriminate].
  destruct (combined_mask _ _ _ _ F) as (idx & F1 & F2). pose proof (mask_good _ _ _ _ _ F1 F2) as F3.
  rewrite (select_good _ _ energy F3 eq_refl) in R. cbn [bind] in R. rewrite (select_good _ _ insolation F3 (eq_sym Ht)) in R. cbn [bind] in R. cbv zeta in R.
  set (e := kept_rows (fst f) energy) in *. set (n := kept_rows (fst f) insolation) in *. set (w := i_width (s_inputs s)) in *.
  assert (Hen : times e = times n) by (unfold e, n; rewrite !times_kept, Ht; reflexivity).
  assert (Se : sorted_index e) by (now apply sorted_kept). pose proof (binned_spec w e n Hw Hen Se) as B.
  set (a := aggregation_insol e n w) in *. set (c := resample_day_sum n w) in *.
  assert (C2 : match components_aggregated E (q_case q) a (object (s_inputs s) (completion E (s_inputs s) (s_completed s)) (@set_insolation YR SR c empty_side)) with
               | Ok parts' => aggregated_are E a c filled parts' | Raise _ => True end).
  { pose proof (components_aggregated_spec E (q_case q) a c (object (s_inputs s) (completion E (s_inputs s) (s_completed s)) (@set_insolation YR SR c empty_side))) as C2.
    destruct (components_aggregated _ _ _ _); [|exact I]. apply C2. destruct (q_case q); reflexivity. }
  destruct (components_aggregated E (q_case q) a _) as [parts'|]; cbn [bind] in R; [|destruct R; discriminate].
  destruct (combined (times a) parts' (exclude_missing (c_params_aggregated (s_completed s)))) as [g|] eqn:G; cbn [bind] in R; [|destruct R; discriminate].
  destruct (combined_mask _ _ _ _ G) as (idx' & G1 & G2). pose proof (mask_good _ _ _ _ _ G1 G2) as G3.
  rewrite (select_good _ _ a G3 eq_refl) in R. cbn [bind] in R. destruct B as (B1 & B2 & B3 & B4).
  rewrite (select_good _ _ c G3 B1) in R. cbn [bind] in R.
  destruct (results_of E w q _) as [o|]; cbn [bind] in R; [|destruct R; discriminate]. destruct R as [_ R].
  exists energy, insolation, (fst f), a, c, (fst g). eexists. eexists. rewrite R. cbn [stored_side d_filter d_filter_aggregated d_performance d_insolation u_filter u_filter_aggregated u_performance u_insolation].
  split; [reflexivity|]. split; [exact Ht|]. split; [exact Hs|]. do 4 (split; [reflexivity|]).
  split; [exists parts, idx; auto|]. split; [exact (conj B1 (conj B2 (conj B3 B4)))|]. split; [exists parts', idx'; auto|].
  split; [exact G3|]. split; reflexivity.
Qed.
Theorem pipeline : forall (E : env) (q : req) (s s' : st), analyse E q s = (s', Ok tt) -> (0 < i_width (s_inputs s))%Z -> dividing (i_width (s_inputs s)) ->
  let filled := object (s_inputs s) (completion E (s_inputs s) (s_completed s)) empty_side in
  exists energy insolation m a c M p i,
    data E (q_case q) (s_inputs filled) (s_completed filled) = Ok (energy, insolation) /\ times energy = times insolation /\ sorted_index energy /\
    d_filter (side_of (q_case q) s') = Present m /\ d_filter_aggregated (side_of (q_case q) s') = Present M /\
    d_performance (side_of (q_case q) s') = Present p /\ d_insolation (side_of (q_case q) s') = Present i /\
    (exists parts idx, components_are E (q_case q) energy filled parts /\ common_index (times energy) parts idx /\ mask_of idx (kept (times energy) parts (rows_by_hand (params_of s))) m) /\
    binned (i_width (s_inputs s)) (kept_rows m energy) (kept_rows m insolation) a c /\
    (exists parts idx, aggregated_are E a c filled parts /\ common_index (times a) parts idx /\ mask_of idx (kept (times a) parts (rows_by_hand (aggregated_params_of s))) M) /\
    regular_rows (i_width (s_inputs s)) M a p /\ regular_rows (i_width (s_inputs s)) M c i.
Proof.
  intros E q s s' H Hw Dv filled. destruct (pipeline_core E q s s' H Hw) as (energy & insolation & m & a & c & M & p & i & D & Ht & Hs & F1 & F2 & F3 & F4 & X & B & Y & G & -> & ->).
  exists energy, insolation, m, a, c, M. do 2 eexists. split; [exact D|]. split; [exact Ht|]. split; [exact Hs|]. split; [exact F1|]. split; [exact F2|]. split; [exact F3|]. split; [exact F4|].
  split; [exact X|]. split; [exact B|]. split; [exact Y|]. destruct B as (B1 & B2 & B3 & _).
  split; [apply (regular_spec E _ (times (kept_rows m insolation))); auto; intros b I; now apply B3|].
  apply (regular_spec E _ (times (kept_rows m insolation))); auto; [unfold sorted_index; rewrite B1; exact B2|intros b I; apply B3; now rewrite <- B1|].
  rewrite B1. exact G.
Qed.

(** ** Any width *)
Lemma counted_anew : forall (E : env) w M a, (0 < w)%Z -> sorted_index a -> good_mask (times a) M ->
  rows_anew (e_infer E) w M a (as_freq E (kept_rows M a) w).
Proof.
  intros E w M a Hw S (_ & _ & G).
  assert (Full : forall b, In (b, true) M -> In b (times (kept_rows M a))) by (intros b I; apply keep_filter_In; split; [exact I|now apply G]).
  assert (Kv : forall b v, In (b, v) (kept_rows M a) -> In (b, v) a) by (intros b v I; apply kept_value in I; tauto).
  assert (Kn : forall b, ~ In (b, true) M -> ~ In b (times (kept_rows M a))) by (intros b N; rewrite keep_filter_In; tauto).
  pose proof (sorted_kept M a S) as Sk. unfold rows_anew. cbv zeta. set (s := kept_rows M a) in *. clearbody s.
  destruct s as [|[t0 v0] r] eqn:Es.
  - split; [constructor|]. split; [intros b; split; [intros []|intros (f & l & m & j & H & _); discriminate H]|]. split; [reflexivity|]. intros _ b x [].
  - rewrite <- Es in *. assert (NE : s <> []) by (rewrite Es; discriminate).
    assert (Hl : exists last, exists l, times s = l ++ [last]).
    { destruct (exists_last NE) as (l & [t v] & ->). exists t, (times l). unfold times. now rewrite map_app. }
    destruct Hl as (last & Hl). assert (Hf : exists l, times s = t0 :: l) by (rewrite Es; eexists; reflexivity).
    assert (Hle : (t0 <= last)%Z) by (destruct Hf as [l Hf], Hl as [l' Hl']; exact (first_le_last l l' t0 last (times s) Sk Hf Hl')).
    assert (Hd : hd_error (times s) = Some t0) by (rewrite Es; reflexivity).
    pose proof (fun b => bins_spec w (times s) t0 last b Hw Hd Hl Hle) as Bins.
    assert (El : fst (List.last s (t0, NaN)) = last) by (destruct Hl as [l Hl']; exact (last_of _ _ _ _ Hl')).
    assert (Ea : as_freq E s w = if (match e_infer E (times s) with Some x => (x =? w)%Z | None => false end && (List.length s =? List.length (bin_starts t0 w last))%nat)%bool
                                 then combine (bin_starts t0 w last) (vals s) else reindex s (bin_starts t0 w last)).
    { rewrite <- El. rewrite Es. reflexivity. }
    assert (St : StronglySorted Z.lt (bin_starts t0 w last)) by (apply sorted_steps; exact Hw).
    rewrite Ea. set (L := bin_starts t0 w last) in *. destruct (_ && _)%bool eqn:Q.
    + apply andb_true_iff in Q. destruct Q as [Q1 Q2]. apply Nat.eqb_eq in Q2.
      assert (Q3 : e_infer E (times s) = Some w) by (destruct (e_infer E (times s)); [apply Z.eqb_eq in Q1; now subst|discriminate]).
      assert (LL : List.length L = List.length (vals s)) by (unfold vals; rewrite map_length; lia).
      assert (TL : times (combine L (vals s)) = L) by (clear - LL; revert LL; generalize (vals s); induction L as [|x l IH]; intros [|y q] H; cbn in *; try discriminate; [reflexivity|f_equal; apply IH; lia]).
      split; [unfold sorted_index; rewrite TL; exact St|]. split; [intros b; rewrite TL; apply Bins|].
      split.
      * intros _ _. clear - LL. revert LL. generalize (vals s). induction L as [|x l IH]; intros [|y q] H; cbn in *; try discriminate; [reflexivity|f_equal; apply IH; lia].
      * intros [N|N]; [contradiction|]. exfalso. apply N. rewrite combine_length. lia.
    + assert (TL : times (reindex s L) = L) by apply times_reindex.
      split; [unfold sorted_index; rewrite TL; exact St|]. split; [intros b; rewrite TL; apply Bins|].
      split.
      * intros Q1 Q2. exfalso. rewrite Q1, Z.eqb_refl in Q. cbn [andb] in Q. apply Nat.eqb_neq in Q. apply Q. rewrite Q2. unfold reindex. apply map_length.
      * intros _ b x I. unfold reindex in I. apply in_map_iff in I. destruct I as (u & Eu & _). injection Eu as -> <-. split.
        -- intros I. destruct (lookup_cases s b) as [(v & Iv & ->)|[N _]]; [exact (Kv _ _ Iv)|]. destruct (N (Full b I)).
        -- intros N. apply lookup_none, Kn, N.
Qed.
Theorem pipeline_any : forall (E : env) (q : req) (s s' : st), analyse E q s = (s', Ok tt) -> (0 < i_width (s_inputs s))%Z ->
  let filled := object (s_inputs s) (completion E (s_inputs s) (s_completed s)) empty_side in
  exists energy insolation m a c M p i,
    data E (q_case q) (s_inputs filled) (s_completed filled) = Ok (energy, insolation) /\ times energy = times insolation /\ sorted_index energy /\
    d_filter (side_of (q_case q) s') = Present m /\ d_filter_aggregated (side_of (q_case q) s') = Present M /\
    d_performance (side_of (q_case q) s') = Present p /\ d_insolation (side_of (q_case q) s') = Present i /\
    (exists parts idx, components_are E (q_case q) energy filled parts /\ common_index (times energy) parts idx /\ mask_of idx (kept (times energy) parts (rows_by_hand (params_of s))) m) /\
    binned (i_width (s_inputs s)) (kept_rows m energy) (kept_rows m insolation) a c /\
    (exists parts idx, aggregated_are E a c filled parts /\ common_index (times a) parts idx /\ mask_of idx (kept (times a) parts (rows_by_hand (aggregated_params_of s))) M) /\
    rows_anew (e_infer E) (i_width (s_inputs s)) M a p /\ rows_anew (e_infer E) (i_width (s_inputs s)) M c i.
Proof.
  intros E q s s' H Hw filled. destruct (pipeline_core E q s s' H Hw) as (energy & insolation & m & a & c & M & p & i & D & Ht & Hs & F1 & F2 & F3 & F4 & X & B & Y & G & -> & ->).
  exists energy, insolation, m, a, c, M. do 2 eexists. split; [exact D|]. split; [exact Ht|]. split; [exact Hs|]. split; [exact F1|]. split; [exact F2|]. split; [exact F3|]. split; [exact F4|].
  split; [exact X|]. split; [exact B|]. split; [exact Y|]. destruct B as (B1 & B2 & _ & _).
  split; apply counted_anew; auto; [unfold sorted_index; rewrite B1; exact B2|rewrite B1; exact G].
Qed.
End Pipeline.
