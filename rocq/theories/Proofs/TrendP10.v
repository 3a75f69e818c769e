(** The plots of a TrendAnalysis. *)

From Coq Require Import List ZArith Bool String Lia Sorted.
From Verif.Base Require Import Fl TimeSeries.
From Verif.Spec Require Import TrendRuns TrendCalls TrendPlots.
From Verif.Model Require Import TrendAnalysis TrendPlots.
From Verif.Proofs Require Import TrendP4 TrendP5.
Import ListNotations.
Open Scope list_scope.

Section Plots.
Context {P W T O YK SK YR SR F : Type}.
Local Notation env := (environment P W T O YK SK YR SR).
Local Notation st := (state P W T O YR SR).
Local Notation req := (@request YK SK).

Lemma case_name : forall c, case_named (name_of c) = Ok c.
Proof. intros []; reflexivity. Qed.
Lemma case_other : forall name, name <> "sensor"%string -> name <> "clearsky"%string -> case_named name = Raise ValueError.
Proof. intros name H1 H2. unfold case_named. apply String.eqb_neq in H1. apply String.eqb_neq in H2. rewrite H1, H2. reflexivity. Qed.

(** ** One plot *)
Lemma plot_other : forall {A} (key : outcome YR SR -> option A) (draw : A -> option series -> result F) (draw' : A -> result F) name (s : st),
  name <> "sensor"%string -> name <> "clearsky"%string ->
  plot_with_performance key draw name s = Raise ValueError /\ plot_entry key draw' name s = Raise ValueError /\ plot_pv_vs_irradiance name s = Raise ValueError.
Proof. intros A key draw draw' name s H1 H2. unfold plot_with_performance, plot_entry, plot_pv_vs_irradiance. rewrite (case_other name H1 H2). repeat split. Qed.

Lemma plot_none : forall {A} (key : outcome YR SR -> option A) (draw : A -> option series -> result F) (draw' : A -> result F) c (s : st),
  (forall o, d_result (side_of c s) = Some o -> key o = None) ->
  plot_with_performance key draw (name_of c) s = Raise KeyError /\ plot_entry key draw' (name_of c) s = Raise KeyError.
Proof.
  intros A key draw draw' c s H. unfold plot_with_performance, plot_entry. rewrite case_name. cbn [bind]. unfold entry. destruct (d_result (side_of c s)) as [o |]; cbn [need bind]; [rewrite (H o eq_refl) |]; split; reflexivity.
Qed.
Lemma plot_some : forall {A} (key : outcome YR SR -> option A) (draw : A -> option series -> result F) (draw' : A -> result F) c (s : st) o r p,
  d_result (side_of c s) = Some o -> key o = Some r -> d_performance (side_of c s) = Present p ->
  plot_with_performance key draw (name_of c) s = draw r (Some p) /\ plot_entry key draw' (name_of c) s = draw' r.
Proof. intros A key draw draw' c s o r p H1 H2 H3. unfold plot_with_performance, plot_entry. rewrite case_name. cbn [bind]. unfold entry. rewrite H1. cbn [need bind]. rewrite H2, H3. split; reflexivity. Qed.

(** ** Histories *)
Lemma analyses_keep : forall (E : env) c names yk sk (s : st),
  d_performance (side_of c (fst (analyses_of E c names yk sk s))) = d_performance (side_of c s) /\ d_insolation (side_of c (fst (analyses_of E c names yk sk s))) = d_insolation (side_of c s).
Proof.
  intros E c names yk sk s. unfold analyses_of, next, ask, ret, store, yoy_degradation, srr_soiling. destruct (use (d_performance (side_of c s))) as [p |]; [| split; reflexivity].
  destruct (requested "yoy_degradation" names), (requested "srr_soiling" names);
    repeat match goal with |- context [match bind ?a ?b with _ => _ end] => destruct (bind a b) end; try (split; reflexivity); destruct c; split; reflexivity.
Qed.
Definition preprocess (E : env) (c : case) : @method P W T O YR SR unit := match c with Sensor => sensor_preprocess E | Clearsky => clearsky_preprocess E end.
Lemma analyse_steps : forall (E : env) (q : req) (s : st), analyse E q s = next (preprocess E (q_case q)) (fun _ => analyses_of E (q_case q) (q_names q) (q_yoy q) (q_srr q)) s.
Proof. intros E q s. unfold analyse. destruct (q_case q); reflexivity. Qed.

(** A call stores the same performance as one that succeeds, whatever it is asked for. *)
Lemma same_performance : forall (E : env) (q q' : req) (s : st), q_case q' = q_case q -> snd (analyse E q' s) = Ok tt ->
  d_performance (side_of (q_case q) (fst (analyse E q s))) = d_performance (side_of (q_case q) (fst (analyse E q' s))) /\
  d_insolation (side_of (q_case q) (fst (analyse E q s))) = d_insolation (side_of (q_case q) (fst (analyse E q' s))).
Proof.
  intros E q q' s C S. rewrite (analyse_steps E q), (analyse_steps E q') in *. rewrite C in *. unfold next in *. destruct (preprocess E (q_case q) s) as [s1 [[] | e]]; [| discriminate].
  destruct (analyses_keep E (q_case q) (q_names q) (q_yoy q) (q_srr q) s1) as [-> ->]. destruct (analyses_keep E (q_case q) (q_names q') (q_yoy q') (q_srr q') s1) as [-> ->]. split; reflexivity.
Qed.
Lemma other_case : forall c c' : case, c <> c' -> c = other c'.
Proof. intros [] [] H; try reflexivity; exfalso; apply H; reflexivity. Qed.

(** Performance and insolation after calls that include one that succeeds. *)
Lemma performance_after : forall (E : env) (qs : list req) (q : req) (s : st), snd (analyse E q s) = Ok tt -> (exists q', In q' qs /\ q_case q' = q_case q) ->
  d_performance (side_of (q_case q) (after_calls E qs s)) = d_performance (side_of (q_case q) (fst (analyse E q s))) /\
  d_insolation (side_of (q_case q) (after_calls E qs s)) = d_insolation (side_of (q_case q) (fst (analyse E q s))).
Proof.
  intros E qs q s S. induction qs as [| q1 qs IH] using rev_ind; intros (q' & Hq & C); [destruct Hq |]. rewrite after_app. change (after_calls E [q1] (after_calls E qs s)) with (fst (analyse E q1 (after_calls E qs s))).
  assert ({q_case q1 = q_case q} + {q_case q1 <> q_case q}) as [C1 | C1] by (decide equality).
  - destruct (call_repeated E qs q s) as [R1 R2]. rewrite S in R1. specialize (R2 S). rewrite <- R2. rewrite <- C1 at 1 3. rewrite <- C1. apply same_performance; [congruence | exact R1].
  - destruct (analyse E q1 (after_calls E qs s)) as [s1 r1] eqn:E1. destruct (call_entry E q1 _ _ _ E1) as (_ & K & _). rewrite <- (other_case (q_case q) (q_case q1)) in K by congruence. cbn [fst]. rewrite K. apply IH.
    apply in_app_or in Hq. destruct Hq as [Hq | [<- | []]]; [exists q'; split; assumption | contradiction].
Qed.

(** What is plotted after any calls: the results of the last call that succeeds, with the
    performance they were computed from. *)
Lemma plots_after : forall (E : env) (qs : list req) (c : case) (s : st) (draw : YR -> option series -> result F) (draw' : YR -> result F) (drawn : SR -> option series -> result F) (drawn' : SR -> result F), d_result (side_of c s) = None ->
  (exists before q after p i, qs = before ++ q :: after /\ q_case q = c /\ snd (analyse E q s) = Ok tt /\ (forall q', In q' after -> q_case q' = c -> snd (analyse E q' s) <> Ok tt) /\
     d_performance (side_of c (after_calls E qs s)) = Present p /\ d_insolation (side_of c (after_calls E qs s)) = Present i /\
     (In "yoy_degradation"%string (q_names q) -> exists r, e_yoy E (q_yoy q) p = Ok r /\ plot_degradation_summary draw (name_of c) (after_calls E qs s) = draw r (Some p) /\
        plot_degradation_timeseries draw' (name_of c) (after_calls E qs s) = draw' r) /\
     (~ In "yoy_degradation"%string (q_names q) -> plot_degradation_summary draw (name_of c) (after_calls E qs s) = Raise KeyError /\ plot_degradation_timeseries draw' (name_of c) (after_calls E qs s) = Raise KeyError) /\
     (In "srr_soiling"%string (q_names q) -> exists r, e_srr E (q_srr q) p i = Ok r /\ plot_soiling_monte_carlo drawn (name_of c) (after_calls E qs s) = drawn r (Some p) /\
        plot_soiling_interval drawn (name_of c) (after_calls E qs s) = drawn r (Some p) /\ plot_soiling_rate_histogram drawn' (name_of c) (after_calls E qs s) = drawn' r) /\
     (~ In "srr_soiling"%string (q_names q) -> plot_soiling_monte_carlo drawn (name_of c) (after_calls E qs s) = Raise KeyError /\
        plot_soiling_interval drawn (name_of c) (after_calls E qs s) = Raise KeyError /\ plot_soiling_rate_histogram drawn' (name_of c) (after_calls E qs s) = Raise KeyError)) \/
  ((forall q, In q qs -> q_case q = c -> snd (analyse E q s) <> Ok tt) /\
     plot_degradation_summary draw (name_of c) (after_calls E qs s) = Raise KeyError /\ plot_degradation_timeseries draw' (name_of c) (after_calls E qs s) = Raise KeyError /\
     plot_soiling_monte_carlo drawn (name_of c) (after_calls E qs s) = Raise KeyError /\ plot_soiling_interval drawn (name_of c) (after_calls E qs s) = Raise KeyError /\
     plot_soiling_rate_histogram drawn' (name_of c) (after_calls E qs s) = Raise KeyError).
Proof.
  intros E qs c s draw draw' drawn drawn' N. destruct (history_entry E c qs s) as [(before & q & after & EQ & C & S & L & R) | (L & R)].
  - left. subst c. destruct (performance_after E qs q s S) as [Kp Ki]; [exists q; split; [rewrite EQ; apply in_or_app; right; left; reflexivity | reflexivity] |].
    destruct (analyse E q s) as [s1 r1] eqn:E1. cbn [fst snd] in *. destruct (call_entry E q s s1 r1 E1) as (_ & _ & _ & K). destruct (K S) as (p & i & y & z & Hp & Hi & Hr & Dy & Dz). rewrite Hp in Kp. rewrite Hi in Ki. rewrite Hr in R.
    exists before, q, after, p, i. do 6 (split; [first [assumption | reflexivity | rewrite E1; exact S] |]). split; [| split; [| split]].
    + intros Y. destruct Dy as [(_ & _ & v & Hv & ->) | [Y' _]]; [| contradiction]. exists v. split; [exact Hv |]. exact (plot_some r_yoy draw draw' _ _ _ v p R eq_refl Kp).
    + intros Y. destruct Dy as [[Y' _] | [_ ->]]; [contradiction |]. apply plot_none. intros o Ho. rewrite R in Ho. injection Ho as <-. reflexivity.
    + intros Y. destruct Dz as [(_ & _ & v & Hv & ->) | [Y' _]]; [| contradiction]. exists v. split; [exact Hv |]. destruct (plot_some r_srr drawn drawn' _ _ _ v p R eq_refl Kp) as [P1 P2]. split; [exact P1 |]. split; [exact P1 | exact P2].
    + intros Y. destruct Dz as [[Y' _] | [_ ->]]; [contradiction |]. destruct (plot_none r_srr drawn drawn' (q_case q) (after_calls E qs s)) as [P1 P2]. { intros o Ho. rewrite R in Ho. injection Ho as <-. reflexivity. }
      split; [exact P1 |]. split; [exact P1 | exact P2].
  - right. split; [exact L |]. rewrite N in R. destruct (plot_none r_yoy draw draw' c (after_calls E qs s)) as [P1 P2]; [intros o Ho; congruence |]. destruct (plot_none r_srr drawn drawn' c (after_calls E qs s)) as [P3 P4]; [intros o Ho; congruence |].
    split; [exact P1 |]. split; [exact P2 |]. split; [exact P3 |]. split; [exact P3 | exact P4].
Qed.

(** A failing call, in any state, does not change the plots of the results alone. *)
Lemma failing_entry : forall {A} (key : outcome YR SR -> option A) (draw : A -> result F) (E : env) (q : req) (s : st) e name, snd (analyse E q s) = Raise e ->
  plot_entry key draw name (fst (analyse E q s)) = plot_entry key draw name s.
Proof.
  intros A key draw E q s e name S. destruct (analyse E q s) as [s1 r1] eqn:E1. cbn [fst snd] in *. destruct (call_entry E q s s1 r1 E1) as (_ & K1 & K2 & _). specialize (K2 e S).
  unfold plot_entry. destruct (case_named name) as [c |]; [| reflexivity]. cbn [bind]. unfold entry. assert (d_result (side_of c s1) = d_result (side_of c s)) as ->; [| reflexivity].
  assert ({c = q_case q} + {c <> q_case q}) as [-> | C] by (decide equality); [exact K2 |]. rewrite (other_case _ _ C), K1. reflexivity.
Qed.
(** No call for one case changes the plots of the other case. *)
Lemma other_plots : forall {A} (key : outcome YR SR -> option A) (draw : A -> option series -> result F) (draw' : A -> result F) (E : env) (q : req) (s : st),
  let c := other (q_case q) in
  plot_with_performance key draw (name_of c) (fst (analyse E q s)) = plot_with_performance key draw (name_of c) s /\ plot_entry key draw' (name_of c) (fst (analyse E q s)) = plot_entry key draw' (name_of c) s.
Proof.
  intros A key draw draw' E q s c. destruct (analyse E q s) as [s1 r1] eqn:E1. cbn [fst]. destruct (call_entry E q s s1 r1 E1) as (_ & K1 & _). fold c in K1. unfold plot_with_performance, plot_entry. rewrite case_name. cbn [bind]. unfold entry. rewrite K1. split; reflexivity.
Qed.

(** ** The scatter plot *)
Lemma at_time : forall (b : series) t, StronglySorted Z.lt (times b) -> (~ In t (times b) /\ filter (fun e => (fst e =? t)%Z) b = []) \/ exists v, In (t, v) b /\ filter (fun e => (fst e =? t)%Z) b = [(t, v)].
Proof.
  induction b as [| [u v] b IH]; intros t S; [left; split; [intros [] | reflexivity] |]. inversion S as [| ? ? S' H]; subst. cbn [filter fst]. destruct (Z.eqb_spec u t) as [-> | N].
  - right. exists v. split; [left; reflexivity |]. f_equal. destruct (IH t S') as [[_ E] | (w & Hw & _)]; [exact E |]. exfalso. rewrite Forall_forall in H. specialize (H t (in_map fst _ _ Hw)). cbn in H. lia.
  - destruct (IH t S') as [[Ni E] | (w & Hw & E)]; [left; split; [intros [K | K]; [exact (N K) | exact (Ni K)] | exact E] | right; exists w; split; [right; exact Hw | exact E]].
Qed.
Lemma pairs_spec : forall a b, StronglySorted Z.lt (times a) -> StronglySorted Z.lt (times b) ->
  paired a b (flat_map (fun r => map (fun e => (snd r, snd e)) (filter (fun e => (fst e =? fst r)%Z) b)) a).
Proof.
  intros a b Sa Sb. induction a as [| [t x] a IH]; [exists []; split; [constructor |]; split; [intros t; split; [intros [] | intros [[] _]] | constructor] |].
  inversion Sa as [| ? ? Sa' H]; subst. destruct (IH Sa') as (ts & S & I & Fo). cbn [flat_map fst snd]. rewrite Forall_forall in H.
  assert (Forall2 (fun u xy => In (u, fst xy) ((t, x) :: a) /\ In (u, snd xy) b) ts (flat_map (fun r => map (fun e => (snd r, snd e)) (filter (fun e => (fst e =? fst r)%Z) b)) a)) as Fo'.
  { revert Fo. apply Forall2_impl || (clear; intros Fo; induction Fo as [| u xy us l [H1 H2] Fo IHf]; constructor; [split; [right; exact H1 | exact H2] | exact IHf]). }
  destruct (at_time b t Sb) as [[Nt ->] | (y & Hy & ->)].
  - exists ts. split; [exact S |]. split; [| exact Fo']. intros u. rewrite I. cbn [times map fst In]. split; [intros [A B]; split; [right; exact A | exact B] |]. intros [[<- | A] B]; [contradiction | split; assumption].
  - exists (t :: ts). cbn [map app snd]. split; [constructor; [exact S |]; apply Forall_forall; intros u Hu; apply I in Hu; apply H; exact (proj1 Hu) |]. split.
    + intros u. cbn [In times map fst]. rewrite I. split; [intros [<- | [A B]]; [split; [left; reflexivity | exact (in_map fst _ _ Hy)] | split; [right; exact A | exact B]] |]. intros [[<- | A] B]; [left; reflexivity | right; split; assumption].
    + constructor; [split; [left; reflexivity | exact Hy] | exact Fo'].
Qed.
Lemma scatter_spec : forall c (s : st),
  match match c with Sensor => Ok (i_poa (s_inputs s)) | Clearsky => read (c_clear_poa (s_completed s)) end, i_energy (s_inputs s) with
  | Raise _, _ | Ok _, Unset => plot_pv_vs_irradiance (name_of c) s = Raise AttributeError
  | Ok None, _ | Ok _, Absent => plot_pv_vs_irradiance (name_of c) s = Raise IndexError
  | Ok (Some poa), Present energy => StronglySorted Z.lt (times poa) -> StronglySorted Z.lt (times energy) -> exists l, plot_pv_vs_irradiance (name_of c) s = Ok l /\ paired poa energy l
  end.
Proof.
  intros c s. unfold plot_pv_vs_irradiance. rewrite case_name. cbn [bind]. destruct c.
  - cbn [bind]. destruct (i_poa (s_inputs s)) as [poa |], (i_energy (s_inputs s)) as [| | energy]; cbn [read bind]; try reflexivity. intros Sa Sb. eexists. split; [reflexivity | apply pairs_spec; assumption].
  - destruct (c_clear_poa (s_completed s)) as [| | poa], (i_energy (s_inputs s)) as [| | energy]; cbn [read bind]; try reflexivity. intros Sa Sb. eexists. split; [reflexivity | apply pairs_spec; assumption].
Qed.
End Plots.
