(** Histories of calls, prerequisites, and the requested analyses. *)

From Coq Require Import QArith Qcanon List ZArith Bool Arith String Sorted Lia.
From Verif.Base Require Import QcExtra Fl TimeSeries Calendar Rolling.
From Verif.Model Require Import Normalization FilterDict TrendAnalysis.
From Verif.Spec Require Import FilterSets TrendRuns TrendCalls.
From Verif.Proofs Require Import TrendP1 TrendP2 TrendP3 TrendP4.
Import ListNotations.
Open Scope list_scope.

Section Calls.
Context {P W T O YK SK YR SR : Type}.
Local Notation env := (environment P W T O YK SK YR SR).
Local Notation st := (state P W T O YR SR).
Local Notation req := (@request YK SK).

Lemma requested_In : forall k names, requested k names = true <-> In k names.
Proof.
  intros k names. unfold requested. rewrite existsb_exists. split.
  - intros (x & I & H). apply String.eqb_eq in H. now subst.
  - intros I. exists k. split; [exact I|apply String.eqb_refl].
Qed.
Lemma requested_not : forall k names, requested k names = false <-> ~ In k names.
Proof. intros k names. rewrite <- requested_In. destruct (requested k names); split; congruence. Qed.

Lemma times_last : forall (s : series) d, s <> [] -> exists l, times s = l ++ [fst (List.last s d)].
Proof.
  intros s d N. destruct (exists_last N) as (l & [t v] & ->). exists (times l). unfold times. rewrite map_app, last_last. reflexivity.
Qed.
Lemma filter_check_spec : forall p, filter_check p = Ok tt /\ two_years p \/ filter_check p = Raise ValueError /\ ~ two_years p.
Proof.
  intros p. unfold filter_check, two_years. destruct p as [|[t v] p].
  - right. split; [reflexivity|]. intros (a & b & H & _). discriminate.
  - cbv zeta. destruct (times_last ((t, v) :: p) (t, NaN) ltac:(discriminate)) as (l & Hl).
    set (z := fst (List.last ((t, v) :: p) (t, NaN))) in *.
    destruct (Z.ltb_spec (z - t) (730 * ns_day)) as [G|G].
    + right. split; [reflexivity|]. intros (a & b & Ha & (l' & Hb) & D). cbn in Ha. injection Ha as <-.
      rewrite Hl in Hb. apply app_inj_tail in Hb. destruct Hb as [_ <-]. unfold ns_day in *. lia.
    + left. split; [reflexivity|]. exists t, z. split; [reflexivity|]. split; [exists l; exact Hl|]. unfold ns_day in *. lia.
Qed.

(** ** One call *)
Theorem call_entry : forall (E : env) (q : req) (s s' : st) r, analyse E q s = (s', r) ->
  s_inputs s' = s_inputs s /\ side_of (other (q_case q)) s' = side_of (other (q_case q)) s /\
  (forall e, r = Raise e -> d_result (side_of (q_case q) s') = d_result (side_of (q_case q) s)) /\
  (r = Ok tt -> exists p i y z, d_performance (side_of (q_case q) s') = Present p /\ d_insolation (side_of (q_case q) s') = Present i /\
     d_result (side_of (q_case q) s') = Some (Outcome y z) /\ degradation_entry E q p y /\ soiling_entry E q (i_width (s_inputs s)) p i z).
Proof.
  intros E q s s' r H. pose proof (analyse_run E q s) as A. rewrite H in A. destruct A as (Hi & _ & Ho & A).
  split; [exact Hi|]. split; [exact Ho|]. destruct (gives_on E s q) as [[u o]|e0] eqn:G.
  - destruct A as [-> Hs]. split; [discriminate|]. intros _. exists (u_performance u), (u_insolation u), (r_yoy o), (r_srr o).
    rewrite Hs. split; [reflexivity|]. split; [reflexivity|]. split; [destruct o; reflexivity|].
    unfold gives_on, run_of in G. destruct (data E (q_case q) _ _) as [n|]; [|discriminate]. cbn [bind] in G.
    destruct (processed E (q_case q) _ _ _ _) as [u'|]; [|discriminate]. cbn [bind] in G.
    destruct (results_of E _ q u') as [o'|] eqn:R; [|discriminate]. cbn [bind] in G. injection G as -> ->.
    unfold results_of in R. unfold degradation_entry, soiling_entry.
    destruct (requested "yoy_degradation" (q_names q)) eqn:Y; cbn [when] in R.
    + apply requested_In in Y. unfold yoy_degradation in R.
      destruct (filter_check_spec (u_performance u)) as [[C L]|[C L]]; rewrite C in R; cbn [bind] in R; [|discriminate].
      destruct (e_yoy E (q_yoy q) (u_performance u)) as [y|] eqn:Ey; cbn [bind] in R; [|discriminate].
      destruct (requested "srr_soiling" (q_names q)) eqn:Z0; cbn [when] in R.
      * apply requested_In in Z0. unfold srr_soiling in R. destruct (Z.eqb_spec (i_width (s_inputs s)) ns_day) as [Ew|]; cbn [bind] in R; [|discriminate].
        destruct (e_srr E (q_srr q) _ _) as [z|] eqn:Ez; cbn [bind] in R; [|discriminate]. injection R as <-. cbn [r_yoy r_srr].
        split; [left; split; [exact Y|]; split; [exact L|]; exists y; auto|]. left. split; [exact Z0|]. split; [exact Ew|]. exists z. auto.
      * apply requested_not in Z0. cbn [bind] in R. injection R as <-. cbn [r_yoy r_srr].
        split; [left; split; [exact Y|]; split; [exact L|]; exists y; auto|]. right. auto.
    + apply requested_not in Y. cbn [bind] in R.
      destruct (requested "srr_soiling" (q_names q)) eqn:Z0; cbn [when] in R.
      * apply requested_In in Z0. unfold srr_soiling in R. destruct (Z.eqb_spec (i_width (s_inputs s)) ns_day) as [Ew|]; cbn [bind] in R; [|discriminate].
        destruct (e_srr E (q_srr q) _ _) as [z|] eqn:Ez; cbn [bind] in R; [|discriminate]. injection R as <-. cbn [r_yoy r_srr].
        split; [right; auto|]. left. split; [exact Z0|]. split; [exact Ew|]. exists z. auto.
      * apply requested_not in Z0. cbn [bind] in R. injection R as <-. cbn [r_yoy r_srr]. split; right; auto.
  - destruct A as [-> Hs]. split; [intros e _; exact Hs|discriminate].
Qed.

(** ** Histories *)
Lemma gives_on_same : forall (E : env) (s s' : st) (q : req), s_inputs s' = s_inputs s -> completion E (s_inputs s) (s_completed s') = completion E (s_inputs s) (s_completed s) -> gives_on E s' q = gives_on E s q.
Proof. intros E s s' q Hi Hc. unfold gives_on. now rewrite Hi, Hc. Qed.
Lemma after_same : forall (E : env) (qs : list req) (s : st), s_inputs (after_calls E qs s) = s_inputs s /\
  completion E (s_inputs s) (s_completed (after_calls E qs s)) = completion E (s_inputs s) (s_completed s).
Proof.
  intros E qs. induction qs as [|q qs IH]; intros s; [split; reflexivity|]. cbn [after_calls fold_left]. fold (after_calls E qs (fst (analyse E q s))).
  destruct (IH (fst (analyse E q s))) as [A B]. pose proof (analyse_run E q s) as R. destruct (analyse E q s) as [s' r]. cbn [fst] in *.
  destruct R as (Hi & Hc & _). split; [congruence|]. rewrite Hi in B. congruence.
Qed.
Theorem call_repeated : forall (E : env) (qs : list req) (q : req) (s : st),
  snd (analyse E q (after_calls E qs s)) = snd (analyse E q s) /\
  (snd (analyse E q s) = Ok tt -> side_of (q_case q) (fst (analyse E q (after_calls E qs s))) = side_of (q_case q) (fst (analyse E q s))).
Proof.
  intros E qs q s. destruct (after_same E qs s) as [A B].
  pose proof (analyse_run E q s) as R. pose proof (analyse_run E q (after_calls E qs s)) as R'.
  rewrite (gives_on_same E s _ q A B) in R'.
  destruct (analyse E q s) as [s1 r1], (analyse E q (after_calls E qs s)) as [s2 r2]. cbn [fst snd].
  destruct R as (_ & _ & _ & R), R' as (_ & _ & _ & R'). destruct (gives_on E s q) as [[u o]|e].
  - destruct R as [-> R], R' as [-> R']. split; [reflexivity|]. intros _. congruence.
  - destruct R as [-> R], R' as [-> R']. split; [reflexivity|discriminate].
Qed.
Lemma after_app : forall (E : env) (a b : list req) (s : st), after_calls E (a ++ b) s = after_calls E b (after_calls E a s).
Proof. intros. unfold after_calls. apply fold_left_app. Qed.
Theorem history_entry : forall (E : env) c (qs : list req) (s : st), last_successful E c s qs (d_result (side_of c (after_calls E qs s))).
Proof.
  intros E c qs s. induction qs as [|q qs IH] using rev_ind.
  - right. split; [|reflexivity]. intros q [].
  - rewrite after_app. cbn [after_calls fold_left]. change (fold_left _ qs s) with (after_calls E qs s).
    set (s1 := after_calls E qs s) in *. destruct (call_repeated E qs q s) as [Hr Hs]. fold s1 in Hr, Hs.
    pose proof (analyse_run E q s1) as R. destruct (analyse E q s1) as [s2 r2] eqn:G. cbn [fst snd] in *. destruct R as (_ & _ & Ho & R).
    assert (D : q_case q = c /\ snd (analyse E q s) = Ok tt \/ ((q_case q = c -> snd (analyse E q s) <> Ok tt) /\ d_result (side_of c s2) = d_result (side_of c s1))).
    { destruct (gives_on E s1 q) as [[u o]|e].
      - destruct R as [-> _]. assert (D : q_case q = c \/ c = other (q_case q)) by (destruct (q_case q), c; auto).
        destruct D as [D|D]; [left; split; [exact D|now symmetry]|]. right. subst c. split; [destruct (q_case q); discriminate|]. now rewrite Ho.
      - destruct R as [-> R]. right. split; [intros _; rewrite <- Hr; discriminate|].
        assert (D : q_case q = c \/ c = other (q_case q)) by (destruct (q_case q), c; auto). destruct D as [<-|D]; [exact R|]. subst c. now rewrite Ho. }
    destruct D as [[D K]|[D K]].
    + left. exists qs, q, []. split; [reflexivity|]. split; [exact D|]. split; [exact K|]. split; [intros q' []|].
      specialize (Hs K). rewrite D in Hs. now rewrite Hs.
    + rewrite K. destruct IH as [(before & q0 & after & Hq & C0 & K0 & N & H)|[N H]].
      * left. exists before, q0, (after ++ [q]). split; [rewrite Hq; rewrite <- app_assoc; reflexivity|]. split; [exact C0|]. split; [exact K0|]. split; [|exact H].
        intros q' I Cq. apply in_app_or in I. destruct I as [I|[<-|[]]]; [now apply N|now apply D].
      * right. split; [|exact H]. intros q' I Cq. apply in_app_or in I. destruct I as [I|[<-|[]]]; [now apply N|now apply D].
Qed.

(** ** The requested analyses *)
Lemma gives_none : forall (E : env) c yk sk (s : st), gives_on E s (Request c [] yk sk) =
  bind (data E c (s_inputs s) (completion E (s_inputs s) (s_completed s))) (fun n =>
  bind (processed E c (s_inputs s) (completion E (s_inputs s) (s_completed s)) (fst n) (snd n)) (fun u => Ok (u, Outcome None None))).
Proof. reflexivity. Qed.
Theorem request_fails : forall (E : env) c names yk sk yk' sk' (s : st) e, snd (analyse E (Request c [] yk' sk') s) = Raise e -> snd (analyse E (Request c names yk sk) s) = Raise e.
Proof.
  intros E c names yk sk yk' sk' s e H.
  pose proof (analyse_run E (Request c [] yk' sk') s) as R0. destruct (analyse E (Request c [] yk' sk') s) as [s0 r0]. cbn [snd] in H. subst r0.
  destruct R0 as (_ & _ & _ & R0). rewrite gives_none in R0.
  pose proof (analyse_run E (Request c names yk sk) s) as R. destruct (analyse E (Request c names yk sk) s) as [s' r]. cbn [snd].
  destruct R as (_ & _ & _ & R). unfold gives_on, run_of in R. cbn [q_case q_names q_yoy q_srr] in R.
  destruct (data E c _ _) as [n|e1]; cbn [bind] in R0, R; [|destruct R0 as [R0 _], R as [R _]; congruence].
  destruct (processed E c _ _ _ _) as [u|e1]; cbn [bind] in R0, R; [|destruct R0 as [R0 _], R as [R _]; congruence].
  destruct R0; discriminate.
Qed.
Theorem request_spec : forall (E : env) c names yk sk yk' sk' (s : st) s0, analyse E (Request c [] yk' sk') s = (s0, Ok tt) ->
  exists p i, d_performance (side_of c s0) = Present p /\ d_insolation (side_of c s0) = Present i /\ d_result (side_of c s0) = Some (Outcome None None) /\
  match analyse E (Request c names yk sk) s with
  | (s', Ok tt) => exists y z, side_of c s' = set_result (Outcome y z) (side_of c s0) /\
      degradation_entry E (Request c names yk sk) p y /\ soiling_entry E (Request c names yk sk) (i_width (s_inputs s)) p i z
  | (_, Raise e) =>
      degradation_fails E (Request c names yk sk) p e \/
      (exists y, degradation_entry E (Request c names yk sk) p y) /\ soiling_fails E (Request c names yk sk) (i_width (s_inputs s)) p i e
  end.
Proof.
  intros E c names yk sk yk' sk' s s0 H.
  pose proof (analyse_run E (Request c [] yk' sk') s) as R0. rewrite H in R0. destruct R0 as (_ & _ & _ & R0). rewrite gives_none in R0.
  pose proof (call_entry E (Request c names yk sk) s) as A.
  pose proof (analyse_run E (Request c names yk sk) s) as R. destruct (analyse E (Request c names yk sk) s) as [s' r].
  destruct R as (_ & _ & _ & R). unfold gives_on, run_of in R. cbn [q_case q_names q_yoy q_srr] in *.
  destruct (data E c _ _) as [n|e1]; cbn [bind] in R0, R; [|destruct R0; discriminate].
  destruct (processed E c _ _ _ _) as [u|e1]; cbn [bind] in R0, R; [|destruct R0; discriminate].
  destruct R0 as [_ R0]. exists (u_performance u), (u_insolation u). rewrite R0. split; [reflexivity|]. split; [reflexivity|]. split; [reflexivity|].
  destruct (results_of E _ _ u) as [o|e] eqn:G; cbn [bind] in R.
  - destruct R as [-> R]. destruct (A s' (Ok tt) eq_refl) as (_ & _ & _ & A'). destruct (A' eq_refl) as (p & i & y & z & Hp & Hi & Hr & Dy & Dz).
    rewrite R in Hp, Hi, Hr. cbn in Hp, Hi, Hr. injection Hp as <-. injection Hi as <-. injection Hr as ->. exists y, z. split; [rewrite R; reflexivity|]. auto.
  - destruct R as [-> _]. unfold results_of in G. unfold degradation_fails, soiling_fails, degradation_entry. cbn [q_names q_yoy q_srr] in *.
    assert (Soil : forall (k : outcome YR SR -> result (outcome YR SR)), bind (when (requested "srr_soiling" names) (srr_soiling E sk (i_width (s_inputs s)) (u_performance u) (u_insolation u))) (fun r => Ok (Outcome (None : option YR) r)) = Raise e ->
       In "srr_soiling"%string names /\ (i_width (s_inputs s) <> ns_day /\ e = ValueError \/ i_width (s_inputs s) = ns_day /\ e_srr E sk (u_performance u) (u_insolation u) = Raise e)).
    { intros _ K. destruct (requested "srr_soiling" names) eqn:Z0; cbn [when bind] in K; [|discriminate]. apply requested_In in Z0. split; [exact Z0|].
      unfold srr_soiling in K. destruct (Z.eqb_spec (i_width (s_inputs s)) ns_day) as [Ew|Ew]; cbn [bind] in K.
      - right. split; [exact Ew|]. destruct (e_srr E sk _ _); cbn in K; congruence.
      - left. split; [exact Ew|congruence]. }
    destruct (requested "yoy_degradation" names) eqn:Y; cbn [when] in G.
    + apply requested_In in Y. unfold yoy_degradation in G.
      destruct (filter_check_spec (u_performance u)) as [[C L]|[C L]]; rewrite C in G; cbn [bind] in G; [|left; split; [exact Y|]; left; split; [exact L|congruence]].
      destruct (e_yoy E yk (u_performance u)) as [y|e'] eqn:Ey; cbn [bind] in G; [|left; split; [exact Y|]; right; split; [exact L|congruence]].
      right. split; [exists (Some y); left; split; [exact Y|]; split; [exact L|]; exists y; auto|]. apply (Soil (fun o => Ok o)).
      destruct (when _ _); cbn in *; congruence.
    + apply requested_not in Y. cbn [bind] in G. right. split; [exists None; right; auto|]. apply (Soil (fun o => Ok o)). exact G.
Qed.

(** ** What an analysis needs *)
Theorem needs_poa : forall (E : env) (q : req) (s : st), q_case q = Sensor -> i_poa (s_inputs s) = None -> analyse E q s = (s, Raise ValueError).
Proof. intros E q s C H. unfold analyse, sensor_analysis, sensor_preprocess, next, ask. rewrite C, H. reflexivity. Qed.
Theorem needs_temperature : forall (E : env) (q : req) (s : st), q_case q = Sensor -> dget "sensor_clearsky_filter" (params_of s) = None ->
  i_expected (s_inputs s) = None -> c_cell (s_completed s) = None -> i_ambient (s_inputs s) = None -> analyse E q s = (s, Raise ValueError).
Proof.
  intros E q s C F X Y Z0. unfold analyse, sensor_analysis, sensor_preprocess, next, ask. rewrite C. unfold dhas. fold (params_of s). rewrite F, X, Y, Z0.
  destruct (i_poa (s_inputs s)); reflexivity.
Qed.
Theorem needs_clearsky : forall (E : env) (q : req) (s : st), q_case q = Clearsky -> c_clear_poa (s_completed s) = Unset -> analyse E q s = (s, Raise AttributeError).
Proof. intros E q s C H. unfold analyse, clearsky_analysis, clearsky_preprocess, next. rewrite C, H. reflexivity. Qed.
Theorem needs_clearsky_filter : forall (E : env) (q : req) (s : st), q_case q = Sensor -> i_poa (s_inputs s) <> None -> dget "sensor_clearsky_filter" (params_of s) <> None ->
  c_clear_poa (s_completed s) = Unset -> analyse E q s = (s, Raise AttributeError).
Proof.
  intros E q s C H F G. unfold analyse, sensor_analysis, sensor_preprocess, next, ask. rewrite C. unfold dhas. fold (params_of s). rewrite G.
  destruct (i_poa (s_inputs s)); [|congruence]. cbn [need]. destruct (dget "sensor_clearsky_filter" (params_of s)); [reflexivity|congruence].
Qed.
End Calls.
