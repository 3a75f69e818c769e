(** Consequences for the combination of filters. *)

From Coq Require Import QArith Qcanon List ZArith Bool Arith String Sorted Lia.
From Verif.Base Require Import QcExtra Fl TimeSeries Rolling.
From Verif.Model Require Import Filters FilterDict TrendAnalysis.
From Verif.Spec Require Import FilterSets.
From Verif.Proofs Require Import TrendP1.
Import ListNotations.
Open Scope list_scope.

Section Sets.
Context {P W T O YK SK YR SR : Type}.
Local Notation env := (environment P W T O YK SK YR SR).
Local Notation st := (state P W T O YR SR).

(** ** Parts *)
Lemma parts_none : forall (use_ : string -> Prop) give order parts, (forall k, In k order -> ~ use_ k) -> parts_of use_ give order parts -> parts = [].
Proof.
  intros use_ give order parts H R. induction R as [|k m l r U G R IH|k l r U R IH]; [reflexivity|exfalso; apply (H k); [now left|exact U]|].
  apply IH. intros k' I. apply H. now right.
Qed.
Lemma parts_In : forall (use_ : string -> Prop) give order parts, parts_of use_ give order parts -> forall k m, In (k, m) parts -> In k order /\ use_ k /\ give k m.
Proof.
  intros use_ give order parts R. induction R as [|k m l r U G R IH|k l r U R IH]; intros k' m' I; [destruct I| |].
  - destruct I as [E|I]; [injection E as <- <-; repeat split; auto; now left|]. destruct (IH _ _ I) as (A & B). split; [now right|exact B].
  - destruct (IH _ _ I) as (A & B). split; [now right|exact B].
Qed.
Lemma parts_for : forall (use_ : string -> Prop) give order parts, parts_of use_ give order parts -> forall k, In k order -> use_ k -> exists m, In (k, m) parts /\ give k m.
Proof.
  intros use_ give order parts R. induction R as [|k m l r U G R IH|k l r U R IH]; intros k' I Hu; [destruct I| |].
  - destruct I as [<-|I]; [exists m; split; [now left|exact G]|]. destruct (IH k' I Hu) as (m' & A & B). exists m'. split; [now right|exact B].
  - destruct I as [<-|I]; [tauto|]. exact (IH k' I Hu).
Qed.

(** ** Without filters *)
Lemma index_alone : forall rows idx, StronglySorted Z.lt rows -> common_index rows [] idx -> idx = rows.
Proof.
  intros rows idx S [Si I]. assert (I' : forall t, In t idx <-> In t rows) by (intros t; rewrite I; split; [intros [H|(k & m & [] & _)]; exact H|now left]). clear I.
  revert rows S I'. induction Si as [|t idx Si IH F]; intros rows S I.
  - destruct rows as [|u rows]; [reflexivity|]. destruct (proj2 (I u)); now left.
  - destruct S as [|u rows S G]; [destruct (proj1 (I t)); now left|].
    assert (E : t = u).
    { destruct (proj1 (I t) (or_introl eq_refl)) as [E|J]; [now symmetry|]. destruct (proj2 (I u) (or_introl eq_refl)) as [E|J']; [exact E|].
      rewrite Forall_forall in F, G. specialize (F u J'). specialize (G t J). lia. }
    subst u. f_equal. apply (IH rows S). intros v. rewrite Forall_forall in F, G. split; intros J.
    + destruct (proj1 (I v) (or_intror J)) as [E|K]; [subst v; specialize (F t J); lia|exact K].
    + destruct (proj2 (I v) (or_intror J)) as [E|K]; [subst v; specialize (G t J); lia|exact K].
Qed.
Theorem filter_none : forall (E : env) energy (s : st), sorted_index energy -> (forall k, In k filter_order -> dget k (params_of s) = None) ->
  (dget "ad_hoc_filter" (params_of s) = None \/ dget "ad_hoc_filter" (params_of s) = Some NoValue) ->
  exists s', filter_ E Sensor energy s = (s', Ok tt) /\ s' = with_side Sensor s (set_filter (map (fun t => (t, true)) (times energy)) []).
Proof.
  intros E energy s S N A.
  assert (C : components E Sensor energy s = Ok []).
  { unfold components. cbv zeta. cbn [bind]. fold (params_of s). unfold part, filter_order in *. cbn [In] in N.
    rewrite !(N _) by tauto. reflexivity. }
  eexists. split; [|reflexivity]. unfold filter_, next, ask, complete, store. rewrite C. cbv beta iota zeta.
  assert (Ha : forall idx, ad_hoc idx (c_params (s_completed s)) = (c_params (s_completed s), Ok [])).
  { intros idx. unfold ad_hoc. fold (params_of s). destruct A as [-> | ->]; reflexivity. }
  rewrite Ha. cbn [fst snd]. unfold with_side. f_equal. destruct s as [i [a b c d e p q] x y]. cbn [s_inputs s_completed s_sensor s_clear set_params c_model c_cell c_clear_poa c_clear_ambient c_clear_cell c_params c_params_aggregated].
  f_equal. unfold set_filter. f_equal. f_equal. rewrite default_where. rewrite !app_nil_r.
  change (@cons (string * mask) ("default"%string, map (fun t => (t, true)) (times energy)) []) with (with_default (times energy) []).
  assert (Ei : frame_index (with_default (times energy) []) = times energy) by (apply index_alone; [exact S|apply frame_common]).
  unfold frame. rewrite Ei. unfold all_of. apply map_ext_in. intros t I. f_equal. cbn [with_default map forallb snd fst]. rewrite andb_true_r.
  unfold on_index. rewrite (mask_at_map (times energy) (fun t => match mask_at (map (fun t => (t, true)) (times energy)) t with Some b => b | None => false end) t).
  destruct (in_dec Z.eq_dec t (times energy)); [|tauto]. rewrite (mask_at_map (times energy) (fun _ => true) t). destruct (in_dec Z.eq_dec t (times energy)); [reflexivity|tauto].
Qed.

Theorem aggregated_none : forall (E : env) c aggregated insolation (s : st), sorted_index aggregated -> d_insolation (side_of c s) = Present insolation ->
  (forall k, In k aggregated_order -> dget k (aggregated_params_of s) = None) ->
  (dget "ad_hoc_filter" (aggregated_params_of s) = None \/ dget "ad_hoc_filter" (aggregated_params_of s) = Some NoValue) ->
  exists s', aggregated_filter E c aggregated s = (s', Ok tt) /\ s' = with_side c s (set_filter_aggregated (map (fun t => (t, true)) (times aggregated)) []).
Proof.
  intros E c aggregated insolation s S Hi N A.
  assert (C : components_aggregated E c aggregated s = Ok []).
  { unfold components_aggregated. rewrite Hi. cbv zeta. cbn [read bind]. fold (aggregated_params_of s). unfold part, aggregated_order in *. cbn [In] in N.
    rewrite !(N _) by tauto. reflexivity. }
  eexists. split; [|reflexivity]. unfold aggregated_filter, next, ask, complete, store. rewrite C. cbv beta iota zeta.
  assert (Ha : forall idx, ad_hoc idx (c_params_aggregated (s_completed s)) = (c_params_aggregated (s_completed s), Ok [])).
  { intros idx. unfold ad_hoc. fold (aggregated_params_of s). destruct A as [-> | ->]; reflexivity. }
  rewrite Ha. cbn [fst snd]. unfold with_side. f_equal. destruct s as [i [a b c' d e p q] x y]. cbn [s_inputs s_completed s_sensor s_clear set_params_aggregated c_model c_cell c_clear_poa c_clear_ambient c_clear_cell c_params c_params_aggregated].
  assert (Em : all_of (frame_index [("default"%string, where_ (fun _ => true) aggregated)]) (frame [("default"%string, where_ (fun _ => true) aggregated)] ++ []) = map (fun t => (t, true)) (times aggregated)).
  { rewrite default_where. rewrite !app_nil_r.
  change (@cons (string * mask) ("default"%string, map (fun t => (t, true)) (times aggregated)) []) with (with_default (times aggregated) []).
  assert (Ei : frame_index (with_default (times aggregated) []) = times aggregated) by (apply index_alone; [exact S|apply frame_common]).
  unfold frame. rewrite Ei. unfold all_of. apply map_ext_in. intros t I. f_equal. cbn [with_default map forallb snd fst]. rewrite andb_true_r.
  unfold on_index. rewrite (mask_at_map (times aggregated) (fun t => match mask_at (map (fun t => (t, true)) (times aggregated)) t with Some b => b | None => false end) t).
  destruct (in_dec Z.eq_dec t (times aggregated)); [|tauto]. rewrite (mask_at_map (times aggregated) (fun _ => true) t). destruct (in_dec Z.eq_dec t (times aggregated)); [reflexivity|tauto]. }
  rewrite Em. destruct c; reflexivity.
Qed.

(** ** More filters *)
Lemma lacks_params : forall c (s : st) d k e, lacks c (with_params s d) k e <-> lacks c s k e.
Proof. intros c s d k e. split; intros L; destruct L; (try (constructor; assumption)). Qed.
Lemma call_params : forall (E : env) c energy (s : st) d k p r, call E c energy (with_params s d) k p r <-> call E c energy s k p r.
Proof. intros E c energy s d k p r. split; intros L; destruct L; econstructor; eassumption. Qed.
Lemma call_functional : forall (E : env) c energy (s : st) k p r r', call E c energy s k p r -> call E c energy s k p r' -> r = r'.
Proof.
  intros E c energy s k p r r' A B. destruct A; inversion B; subst; try congruence; try (cbn in *; intuition discriminate).
Qed.
Theorem filter_more : forall (E : env) c energy (s : st) d s1 s2 m1 m2,
  (forall k v, dget k (params_of s) = Some v -> dget k (contents d) = Some v \/ (k = "ad_hoc_filter"%string /\ v = NoValue)) ->
  filter_ E c energy s = (s1, Ok tt) -> filter_ E c energy (with_params s d) = (s2, Ok tt) ->
  d_filter (side_of c s1) = Present m1 -> d_filter (side_of c s2) = Present m2 ->
  forall t, In (t, true) m2 -> In (t, true) m1.
Proof.
  intros E c energy s d s1 s2 m1 m2 Sub H1 H2 F1 F2 t I.
  pose proof (filter_spec E c energy s) as A. rewrite H1 in A. destruct A as (p1 & d1 & i1 & n1 & q1 & C1 & I1 & _ & _ & _ & _ & M1 & _ & E1).
  pose proof (filter_spec E c energy (with_params s d)) as B. rewrite H2 in B. destruct B as (p2 & d2 & i2 & n2 & q2 & C2 & I2 & _ & _ & _ & _ & M2 & _ & E2).
  assert (n1 = m1) by (rewrite E1 in F1; unfold with_side, side_of in F1; destruct c; cbn in F1; congruence).
  assert (n2 = m2) by (rewrite E2 in F2; unfold with_side, side_of in F2; destruct c; cbn in F2; congruence).
  subst n1 n2. apply M2 in I. destruct I as [_ (Ie & Ip & Ih)]. apply M1. split; [apply I1; now left|].
  split; [exact Ie|]. split.
  - intros k m J. destruct C1 as [_ C1], C2 as [_ C2]. destruct (parts_In _ _ _ _ C1 _ _ J) as (Ko & U & G). destruct G as (L & p & Gp & R).
    assert (G2 : dget k (contents d) = Some (Kwargs p)).
    { destruct (Sub k _ Gp) as [G2|[_ G2]]; [exact G2|discriminate]. }
    assert (U2 : used c (params_of (with_params s d)) k).
    { unfold used in *. destruct (String.eqb k "clearsky_filter"); [exact U|]. change (params_of (with_params s d)) with (contents d). congruence. }
    destruct (parts_for _ _ _ _ C2 k Ko U2) as (m' & J' & (_ & p' & Gp' & R')). change (params_of (with_params s d)) with (contents d) in Gp'.
    assert (p' = p) by congruence. subst p'. apply call_params in R'. pose proof (call_functional _ _ _ _ _ _ _ _ R R') as Em. injection Em as <-. exact (Ip k m J').
  - intros v J. apply Ih. unfold rows_by_hand, by_hand in *. change (params_of (with_params s d)) with (contents d).
    destruct (dget "ad_hoc_filter" (params_of s)) as [[|p|a]|] eqn:Ga; try (destruct J; fail).
    destruct (Sub _ _ Ga) as [G2|[_ G2]]; [|discriminate]. rewrite G2. exact J.
Qed.

Lemma call_aggregated_functional : forall (E : env) a n k p r r', call_aggregated E a n k p r -> call_aggregated E a n k p r' -> r = r'.
Proof. intros E a n k p r r' A B. destruct A; inversion B; subst; congruence. Qed.
Theorem aggregated_more : forall (E : env) c aggregated insolation (s : st) d s1 s2 m1 m2, d_insolation (side_of c s) = Present insolation ->
  (forall k v, dget k (aggregated_params_of s) = Some v -> dget k (contents d) = Some v \/ (k = "ad_hoc_filter"%string /\ v = NoValue)) ->
  aggregated_filter E c aggregated s = (s1, Ok tt) -> aggregated_filter E c aggregated (with_params_aggregated s d) = (s2, Ok tt) ->
  d_filter_aggregated (side_of c s1) = Present m1 -> d_filter_aggregated (side_of c s2) = Present m2 ->
  forall t, In (t, true) m2 -> In (t, true) m1.
Proof.
  intros E c energy ins s d s1 s2 m1 m2 Hi Sub H1 H2 F1 F2 t I.
  pose proof (aggregated_filter_spec E c energy ins s Hi) as A. rewrite H1 in A. destruct A as (p1 & d1 & i1 & n1 & q1 & C1 & I1 & _ & _ & _ & _ & M1 & _ & E1).
  assert (Hi2 : d_insolation (side_of c (with_params_aggregated s d)) = Present ins) by (destruct c; exact Hi).
  pose proof (aggregated_filter_spec E c energy ins (with_params_aggregated s d) Hi2) as B. rewrite H2 in B. destruct B as (p2 & d2 & i2 & n2 & q2 & C2 & I2 & _ & _ & _ & _ & M2 & _ & E2).
  assert (n1 = m1) by (rewrite E1 in F1; unfold with_side, side_of in F1; destruct c; cbn in F1; congruence).
  assert (n2 = m2) by (rewrite E2 in F2; unfold with_side, side_of in F2; destruct c; cbn in F2; congruence).
  subst n1 n2. apply M2 in I. destruct I as [_ (Ie & Ip & Ih)]. apply M1. split; [apply I1; now left|].
  split; [exact Ie|]. split.
  - intros k m J. unfold aggregated_are in C1, C2. destruct (parts_In _ _ _ _ C1 _ _ J) as (Ko & U & G). destruct G as (L & p & Gp & R).
    assert (G2 : dget k (contents d) = Some (Kwargs p)).
    { destruct (Sub k _ Gp) as [G2|[_ G2]]; [exact G2|discriminate]. }
    assert (U2 : dget k (aggregated_params_of (with_params_aggregated s d)) <> None).
    { change (aggregated_params_of (with_params_aggregated s d)) with (contents d). congruence. }
    destruct (parts_for _ _ _ _ C2 k Ko U2) as (m' & J' & (_ & p' & Gp' & R')). change (aggregated_params_of (with_params_aggregated s d)) with (contents d) in Gp'.
    assert (p' = p) by congruence. subst p'. pose proof (call_aggregated_functional _ _ _ _ _ _ _ R R') as Em. injection Em as <-. exact (Ip k m J').
  - intros v J. apply Ih. unfold rows_by_hand, by_hand in *. change (aggregated_params_of (with_params_aggregated s d)) with (contents d).
    destruct (dget "ad_hoc_filter" (aggregated_params_of s)) as [[|p|a]|] eqn:Ga; try (destruct J; fail).
    destruct (Sub _ _ Ga) as [G2|[_ G2]]; [|discriminate]. rewrite G2. exact J.
Qed.

(** ** Default parameters, sensor data *)
Lemma where_holds : forall (f : fl -> bool) s t, sorted_index s -> holds (where_ f s) t <-> row_value s t (fun v => f v = true).
Proof.
  intros f s t S. rewrite <- at_holds. unfold at_, mask_at, row_value, where_. induction s as [|[u v] s IH].
  - cbn. split; [discriminate|]. intros (v & [] & _).
  - inversion S as [|x l Sl F]; subst. cbn. destruct (Z.eqb_spec u t) as [->|N]; cbn.
    + split; [intros H; exists v; auto|]. intros (w & [H|H] & K); [congruence|].
      exfalso. rewrite Forall_forall in F. apply (in_map fst) in H. specialize (F _ H). cbn in F. lia.
    + rewrite (IH Sl). split; intros (w & H & K); exists w; (split; [|exact K]); [now right|destruct H as [H|H]; [congruence|exact H]].
Qed.
Theorem filter_default : forall (E : env) energy (s : st) s' poa cell power none clip,
  e_normalized E none = (fun x => Ok (normalized_filter (Some (ff 1 100)) None x)) ->
  e_poa E none = (fun x => Ok (poa_filter (fz 200) (fz 1200) x)) ->
  e_tcell E none = (fun x => Ok (tcell_filter (fz (-50)) (fz 110) x)) ->
  e_clip E none power = Ok clip ->
  contents (c_params (s_completed s)) = [("normalized_filter", Kwargs none); ("poa_filter", Kwargs none); ("tcell_filter", Kwargs none); ("clip_filter", Kwargs none); ("clearsky_filter", Kwargs none); ("ad_hoc_filter", NoValue)]%string ->
  i_poa (s_inputs s) = Some poa -> c_cell (s_completed s) = Some cell -> i_power (s_inputs s) = Present power ->
  sorted_index energy -> sorted_index poa -> sorted_index cell ->
  filter_ E Sensor energy s = (s', Ok tt) ->
  exists m, d_filter (s_sensor s') = Present m /\ forall t, In (t, true) m <->
    row_value energy t (fun v => fgt v (ff 1 100) = true /\ flt v PInf = true) /\
    row_value poa t (fun v => fgt v (fz 200) = true /\ flt v (fz 1200) = true) /\
    row_value cell t (fun v => fgt v (fz (-50)) = true /\ flt v (fz 110) = true) /\ holds clip t.
Proof.
  intros E energy s s' poa cell power none clip En Ep Et Ec D Ip Ice Ipw Se Sp Sc H.
  pose proof (filter_spec E Sensor energy s) as A. rewrite H in A. destruct A as (p1 & d1 & i1 & n1 & q1 & C1 & I1 & _ & _ & _ & _ & M1 & _ & E1).
  exists n1. split; [rewrite E1; reflexivity|]. intros t. destruct M1 as [_ M1]. rewrite M1. destruct C1 as [_ C1]. unfold params_of in *. rewrite D in *.
  assert (Eb : rows_by_hand [("normalized_filter", Kwargs none); ("poa_filter", Kwargs none); ("tcell_filter", Kwargs none); ("clip_filter", Kwargs none); ("clearsky_filter", Kwargs none); ("ad_hoc_filter", NoValue)]%string = []) by reflexivity.
  rewrite Eb. unfold kept.
  assert (N : holds (normalized_filter (Some (ff 1 100)) None energy) t <-> row_value energy t (fun v => fgt v (ff 1 100) = true /\ flt v PInf = true)).
  { unfold normalized_filter. rewrite (where_holds _ _ _ Se). unfold row_value, between. split; intros (v & J & K); exists v; (split; [exact J|]); now apply andb_true_iff. }
  assert (Pf : holds (poa_filter (fz 200) (fz 1200) poa) t <-> row_value poa t (fun v => fgt v (fz 200) = true /\ flt v (fz 1200) = true)).
  { unfold poa_filter. rewrite (where_holds _ _ _ Sp). unfold row_value, between. split; intros (v & J & K); exists v; (split; [exact J|]); now apply andb_true_iff. }
  assert (Tf : holds (tcell_filter (fz (-50)) (fz 110) cell) t <-> row_value cell t (fun v => fgt v (fz (-50)) = true /\ flt v (fz 110) = true)).
  { unfold tcell_filter. rewrite (where_holds _ _ _ Sc). unfold row_value, between. split; intros (v & J & K); exists v; (split; [exact J|]); now apply andb_true_iff. }
  rewrite <- N, <- Pf, <- Tf.
  assert (Calls : forall k m, In (k, m) p1 <-> In (k, m) [("normalized_filter", normalized_filter (Some (ff 1 100)) None energy); ("poa_filter", poa_filter (fz 200) (fz 1200) poa); ("tcell_filter", tcell_filter (fz (-50)) (fz 110) cell); ("clip_filter", clip)]%string).
  { assert (Give : forall k m, In (k, m) p1 -> In (k, m) [("normalized_filter", normalized_filter (Some (ff 1 100)) None energy); ("poa_filter", poa_filter (fz 200) (fz 1200) poa); ("tcell_filter", tcell_filter (fz (-50)) (fz 110) cell); ("clip_filter", clip)]%string).
    { intros k m J. destruct (parts_In _ _ _ _ C1 _ _ J) as (Ko & U & (_ & p & Gp & R)).
      assert (Ep' : p = none).
      { cbn in Gp. repeat (match type of Gp with (if ?b then _ else _) = _ => destruct b end; [congruence|]). discriminate. }
      subst p. cbn in Ko. destruct Ko as [<-|[<-|[<-|[<-|[<-|[<-|[<-|[]]]]]]]]; unfold used in U; cbn in U; try congruence.
      - pose proof (call_functional _ _ _ _ _ _ _ _ R (call_normalized E Sensor energy s none)) as X. rewrite En in X. injection X as ->. now left.
      - pose proof (call_functional _ _ _ _ _ _ _ _ R (call_poa E Sensor energy s none poa eq_refl Ip)) as X. rewrite Ep in X. injection X as ->. right. now left.
      - pose proof (call_functional _ _ _ _ _ _ _ _ R (call_cell E Sensor energy s none cell eq_refl Ice)) as X. rewrite Et in X. injection X as ->. right. right. now left.
      - pose proof (call_functional _ _ _ _ _ _ _ _ R (call_clip E Sensor energy s none power Ipw)) as X. rewrite Ec in X. injection X as ->. right. right. right. now left. }
    intros k m. split; [apply Give|]. intros J.
    assert (Ko : In k filter_order /\ used Sensor (contents (c_params (s_completed s))) k).
    { rewrite D. cbn in J. unfold used. destruct J as [J|[J|[J|[J|[]]]]]; injection J as <- <-; (split; [cbn; tauto|cbn; discriminate]). }
    rewrite D in Ko. destruct Ko as [Ko U]. destruct (parts_for _ _ _ _ C1 k Ko U) as (m' & J' & _).
    assert (m' = m); [|subst; exact J']. specialize (Give k m' J'). cbn in Give, J.
    destruct J as [J|[J|[J|[J|[]]]]]; injection J as <- <-; (destruct Give as [G|[G|[G|[G|[]]]]]; try discriminate G; congruence). }
  split.
  - intros (_ & _ & K & _). repeat split.
    + apply (K "normalized_filter"%string). apply Calls. cbn. auto.
    + apply (K "poa_filter"%string). apply Calls. cbn. auto.
    + apply (K "tcell_filter"%string). apply Calls. cbn. auto.
    + apply (K "clip_filter"%string). apply Calls. cbn. auto.
  - intros (K1 & K2 & K3 & K4). assert (It : In t (times energy)).
    { apply N in K1. destruct K1 as (v & J & _). now apply (in_map fst) in J. }
    split; [apply I1; now left|]. split; [exact It|]. split; [|intros v []]. intros k m J. apply Calls in J. cbn in J.
    destruct J as [J|[J|[J|[J|[]]]]]; injection J as <- <-; assumption.
Qed.
End Sets.
