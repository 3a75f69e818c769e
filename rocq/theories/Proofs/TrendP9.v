(** The clear-sky irradiance of an analysis. *)

From Coq Require Import QArith Qcanon List ZArith Bool Arith String Sorted Lia.
From Verif.Base Require Import QcExtra Fl TimeSeries Calendar Rolling.
From Verif.Model Require Import Interpolation Energy Normalization FilterDict TrendAnalysis.
From Verif.Spec Require Import ClearskyPoa.
From Verif.Proofs Require Import EnergyP2 TrendP7.
Import ListNotations.
Open Scope list_scope.

Fixpoint bounds (before : option Z) (idx : list Z) : list (option Z * Z) :=
  match idx with [] => [] | t :: idx' => (before, t) :: bounds (Some t) idx' end.
Definition rows_of (clear : series) (p : option Z * Z) : series :=
  filter (fun r => (fst r <=? snd p)%Z && match fst p with Some b => (b <? fst r)%Z | None => true end) clear.
Definition group (clear : series) (p : option Z * Z) : option fl := match rows_of clear p with [] => None | _ => Some (fmean (vals (rows_of clear p))) end.
Lemma means_bounds : forall clear idx before, interval_means before idx clear = map (group clear) (bounds before idx).
Proof. intros clear idx. induction idx as [|t idx IH]; intros before; [reflexivity|]. cbn [interval_means bounds map]. rewrite IH. reflexivity. Qed.
Lemma bounds_snd : forall idx before, map snd (bounds before idx) = idx.
Proof. induction idx as [|t idx IH]; intros before; [reflexivity|]. cbn. now rewrite IH. Qed.
Lemma bounds_follow : forall idx before b t, In (Some b, t) (bounds before idx) <-> follows idx b t \/ before = Some b /\ hd_error idx = Some t.
Proof.
  induction idx as [|u idx IH]; intros before b t.
  - cbn. split; [intros []|]. intros [([|x l] & l' & H)|[_ H]]; discriminate.
  - cbn [bounds In hd_error]. rewrite IH. split.
    + intros [H|[(l & l' & ->)|[H1 H2]]].
      * injection H as -> ->. right. auto.
      * left. exists (u :: l), l'. reflexivity.
      * left. destruct idx as [|v idx]; [discriminate|]. cbn in H2. injection H1 as <-. injection H2 as ->. exists [], idx. reflexivity.
    + intros [([|x l] & l' & H)|[-> H]].
      * cbn in H. injection H as -> ->. right. right. auto.
      * cbn in H. injection H as -> ->. right. left. exists l, l'. reflexivity.
      * injection H as ->. now left.
Qed.
Lemma bounds_first : forall idx t, In (None, t) (bounds None idx) <-> hd_error idx = Some t.
Proof.
  intros [|u idx] t; [cbn; split; [intros []|discriminate]|]. cbn [bounds In hd_error]. split.
  - intros [H|H]; [injection H as ->; reflexivity|]. exfalso. revert u H. induction idx as [|v idx IH]; intros u H; [destruct H|]. destruct H as [H|H]; [discriminate|]. exact (IH v H).
  - intros H. injection H as ->. now left.
Qed.

(** Means without empty groups. *)
Definition present_means (l : list (option fl)) : list fl := flat_map (fun m => match m with Some v => [v] | None => [] end) l.
Lemma present_length : forall l, (List.length (present_means l) <= List.length l)%nat /\ (List.length (present_means l) = List.length l <-> (forall m, In m l -> m <> None)).
Proof.
  induction l as [|m l [IH1 IH2]]; [split; [apply le_n|]; split; [intros _ m []|reflexivity]|]. destruct m as [v|]; cbn [present_means flat_map app List.length]; fold (present_means l).
  - split; [lia|]. split.
    + intros H m [<-|I]; [discriminate|]. apply IH2; [lia|exact I].
    + intros H. f_equal. apply IH2. intros m I. apply H. now right.
  - split; [lia|]. split; [lia|]. intros H. destruct (H None (or_introl eq_refl) eq_refl).
Qed.
Lemma present_all : forall l, (forall m, In m l -> m <> None) -> l = map Some (present_means l).
Proof.
  induction l as [|[v|] l IH]; intros H; [reflexivity| |destruct (H None (or_introl eq_refl) eq_refl)].
  cbn. f_equal. apply IH. intros m I. apply H. now right.
Qed.
Lemma rows_some : forall clear p, rows_of clear p <> [] <-> exists u v, In (u, v) clear /\ (u <= snd p)%Z /\ match fst p with Some b => (b < u)%Z | None => True end.
Proof.
  intros clear p. split.
  - destruct (rows_of clear p) as [|[u v] l] eqn:R; [congruence|]. intros _. exists u, v.
    assert (I : In (u, v) (rows_of clear p)) by (rewrite R; now left). unfold rows_of in I. apply filter_In in I. destruct I as [I H]. cbn [fst] in H.
    apply andb_true_iff in H. destruct H as [H1 H2]. split; [exact I|]. split; [lia|]. destruct (fst p); [lia|exact Logic.I].
  - intros (u & v & I & H1 & H2) R. assert (J : In (u, v) (rows_of clear p)); [|rewrite R in J; destruct J].
    unfold rows_of. apply filter_In. split; [exact I|]. cbn [fst]. apply andb_true_iff. split; [lia|]. destruct (fst p); [lia|reflexivity].
Qed.
Lemma covered_groups : forall idx clear, covered idx clear <-> (forall m, In m (map (group clear) (bounds None idx)) -> m <> None).
Proof.
  intros idx clear. split.
  - intros [C1 C2] m I. apply in_map_iff in I. destruct I as ([[b|] t] & <- & I); unfold group.
    + assert (R : rows_of clear (Some b, t) <> []).
      { apply rows_some. apply bounds_follow in I. destruct I as [I|[I _]]; [|discriminate]. destruct (C2 b t I) as (u & v & J & K1 & K2). exists u, v. auto. }
      destruct (rows_of clear (Some b, t)); [congruence|discriminate].
    + assert (R : rows_of clear (None, t) <> []).
      { apply rows_some. apply bounds_first in I. destruct (C1 t I) as (u & v & J & K). exists u, v. cbn. auto. }
      destruct (rows_of clear (None, t)); [congruence|discriminate].
  - intros H. assert (G : forall p, In p (bounds None idx) -> rows_of clear p <> []).
    { intros p I R. apply (H (group clear p)); [apply in_map; exact I|]. unfold group. rewrite R. reflexivity. }
    split.
    + intros t I. apply bounds_first in I. apply G, rows_some in I. destruct I as (u & v & I & K & _). exists u, v. auto.
    + intros b t I. assert (J : In (Some b, t) (bounds None idx)) by (apply bounds_follow; now left). apply G, rows_some in J.
      destruct J as (u & v & J & K1 & K2). exists u, v. auto.
Qed.
Lemma mean_values : forall clear b t, noinf (vals clear) -> mean_in clear b t (fmean (vals (rows_of clear (Some b, t)))).
Proof.
  intros clear b t N. unfold mean_in, values_in, rows_of. cbn [fst snd].
  assert (X : filter (fun r : Z * fl => (fst r <=? t)%Z && (b <? fst r)%Z) clear = filter (fun r => (b <? fst r)%Z && (fst r <=? t)%Z) clear)
    by (apply filter_ext; intros r; apply andb_comm). rewrite X. clear X.
  set (rows := filter _ clear). assert (Nr : noinf (vals rows)).
  { intros x I. apply N. unfold vals in *. apply in_map_iff in I. destruct I as (r & <- & I). apply filter_In in I. apply in_map, I. }
  split; [|now apply fmean_noinf].
  intros H. unfold fmean, fsum, fcount. rewrite (dropna_noinf _ Nr), H. reflexivity.
Qed.
Lemma in_combine_map : forall {A B} (f : A -> option B) (l : list A) (ms : list B) x v, map f l = map Some ms -> In (x, v) (combine l ms) -> In x l /\ f x = Some v.
Proof.
  induction l as [|a l IH]; intros [|m ms] x v H I; try discriminate; [destruct I|]. cbn in H. injection H as H1 H2. destruct I as [I|I].
  - injection I as -> ->. split; [now left|exact H1].
  - destruct (IH ms x v H2 I). split; [now right|assumption].
Qed.
Lemma combine_snd : forall {A} (l : list (A * Z)) (ms : list fl) t v, In (t, v) (combine (map snd l) ms) -> exists p, snd p = t /\ In (p, v) (combine l ms).
Proof.
  induction l as [|a l IH]; intros [|m ms] t v I; [destruct I|destruct I|destruct I|]. destruct I as [I|I].
  - injection I as <- <-. exists a. split; [reflexivity|now left].
  - destruct (IH ms t v I) as (p & E & J). exists p. split; [exact E|now right].
Qed.
Lemma times_combine : forall (idx : list Z) (l : list fl), List.length l = List.length idx -> times (combine idx l) = idx.
Proof. unfold times. induction idx as [|t idx IH]; intros [|v l] H; try discriminate; [reflexivity|]. cbn. f_equal. apply IH. now injection H. Qed.
Lemma sorted_parts : forall (l m : list Z), StronglySorted Z.lt (l ++ m) -> StronglySorted Z.lt m /\ forall x y, In x l -> In y m -> (x < y)%Z.
Proof.
  induction l as [|a l IH]; intros m H; [split; [exact H|intros x y []]|]. cbn in H. apply StronglySorted_inv in H. destruct H as [H F]. destruct (IH m H) as [S L].
  split; [exact S|]. intros x y [<-|I] J; [|now apply L]. rewrite Forall_forall in F. apply F, in_app_iff. now right.
Qed.
Lemma follows_gap : forall idx b t x, StronglySorted Z.lt idx -> follows idx b t -> (b < t)%Z /\ (In x idx -> (x <= b \/ t <= x)%Z).
Proof.
  intros idx b t x S (l & m & ->). apply sorted_parts in S. destruct S as [S L]. apply StronglySorted_inv in S. destruct S as [S F]. rewrite Forall_forall in F.
  split; [apply F; now left|]. rewrite in_app_iff. cbn [In]. intros [I|[<-|[<-|I]]]; [left|left; lia|right; lia|right].
  - specialize (L x b I (or_introl eq_refl)). lia.
  - apply StronglySorted_inv in S. destruct S as [_ S]. rewrite Forall_forall in S. specialize (S x I). lia.
Qed.
Lemma follows_in : forall idx b t, follows idx b t -> In b idx /\ In t idx.
Proof. intros idx b t (l & m & ->). rewrite !in_app_iff. cbn. auto. Qed.
Lemma sorted_unique : forall idx b b' t, StronglySorted Z.lt idx -> follows idx b t -> follows idx b' t -> b = b'.
Proof.
  intros idx b b' t S F F'. destruct (follows_gap idx b t b' S F) as [L G], (follows_gap idx b' t b S F') as [L' G'].
  specialize (G (proj1 (follows_in _ _ _ F'))). specialize (G' (proj1 (follows_in _ _ _ F))). lia.
Qed.
Lemma first_follows : forall idx b t, StronglySorted Z.lt idx -> hd_error idx = Some t -> ~ follows idx b t.
Proof.
  intros idx b t S H F. destruct (follows_gap idx b t b S F) as [L _]. apply follows_in in F. destruct F as [I _]. destruct idx as [|u idx]; [discriminate|]. injection H as ->.
  apply StronglySorted_inv in S. destruct S as [_ S]. rewrite Forall_forall in S. destruct I as [->|I]; [lia|]. specialize (S b I). lia.
Qed.

Theorem averages : forall idx raw, StronglySorted Z.lt idx -> noinf (vals raw) ->
  (covered idx raw -> exists clear, aggregate_minutes idx raw = Ok clear /\ averaged idx raw clear) /\
  (~ covered idx raw -> aggregate_minutes idx raw = Raise ValueError).
Proof.
  intros idx raw S N. unfold aggregate_minutes. rewrite means_bounds. cbv zeta. fold (present_means (map (group raw) (bounds None idx))).
  destruct (present_length (map (group raw) (bounds None idx))) as [_ L]. rewrite map_length in L.
  assert (Lb : List.length (bounds None idx) = List.length idx) by (rewrite <- (bounds_snd idx None) at 2; now rewrite map_length). rewrite Lb in L. rewrite <- covered_groups in L.
  split; intros C.
  - assert (C' := C). apply L in C'. rewrite C', Nat.eqb_refl. eexists. split; [reflexivity|].
    assert (G : forall m, In m (map (group raw) (bounds None idx)) -> m <> None) by (now apply covered_groups).
    apply present_all in G. set (ms := present_means _) in *. split.
    + apply times_combine. rewrite <- C'. destruct ms; reflexivity.
    + intros t v I. destruct idx as [|t0 idx]; [destruct I|]. destruct ms as [|m ms]; [discriminate|]. cbn [combine] in I. cbn [bounds map] in G. injection G as _ G.
      destruct I as [I|I].
      * injection I as <- <-. split; [reflexivity|]. intros b F. destruct (first_follows _ b t0 S eq_refl F).
      * rewrite <- (bounds_snd idx (Some t0)) in I. apply combine_snd in I. destruct I as ([ob u] & Eu & I). cbn in Eu. subst u.
        destruct (in_combine_map _ _ _ _ _ G I) as [J Gv]. split.
        { intros H. injection H as <-. exfalso. apply (in_map snd) in J. rewrite bounds_snd in J. cbn in J. apply StronglySorted_inv in S. destruct S as [_ S].
          rewrite Forall_forall in S. specialize (S t0 J). lia. }
        intros b F. assert (ob = Some b) as ->.
        { destruct ob as [b'|].
          - f_equal. apply (sorted_unique (t0 :: idx) b' b t S); [|exact F].
            assert (J' : In (Some b', t) (bounds None (t0 :: idx))) by (right; exact J). apply bounds_follow in J'. destruct J' as [J'|[J' _]]; [exact J'|discriminate].
          - exfalso. clear -J. revert t0 J. induction idx as [|x idx IH]; intros t0 J; [destruct J|]. destruct J as [J|J]; [discriminate|]. exact (IH x J). }
        unfold group in Gv. destruct (rows_of raw (Some b, t)) as [|r rs] eqn:R; [discriminate|]. rewrite <- R in Gv.
        assert (v = fmean (vals (rows_of raw (Some b, t)))) as -> by (injection Gv as <-; reflexivity). now apply mean_values.
  - destruct (Nat.eqb_spec (List.length (present_means (map (group raw) (bounds None idx)))) (List.length idx)) as [X|X]; [|reflexivity]. destruct C. now apply L.
Qed.

(** The minutes. *)
Theorem minutes_spec : forall idx first last, StronglySorted Z.lt idx -> hd_error idx = Some first -> (exists l, idx = l ++ [last]) ->
  StronglySorted Z.lt (minutes idx) /\ forall m, In m (minutes idx) <-> whole_minute first last m.
Proof.
  intros idx first last S Hf (l & Hl). destruct idx as [|t0 idx]; [discriminate|]. injection Hf as ->. cbn [minutes]. rewrite Hl, last_last.
  assert (Le : (first <= last)%Z).
  { assert (I : In last (first :: idx)) by (rewrite Hl, in_app_iff; cbn; auto). destruct I as [I|I]; [lia|]. apply StronglySorted_inv in S. destruct S as [_ S]. rewrite Forall_forall in S. specialize (S last I). lia. }
  unfold date_range. split; [apply grid_sorted; reflexivity|]. intros m. rewrite in_map_iff. unfold minute. split.
  - intros (k & <- & I). apply in_seq in I. exists (Z.of_nat k). split; [lia|]. split; [reflexivity|].
    pose proof (Z.mul_div_le (last - first) 60000000000 ltac:(lia)). nia.
  - intros (k & K1 & -> & K2). exists (Z.to_nat k). split; [rewrite Z2Nat.id by lia; reflexivity|]. apply in_seq. split; [lia|].
    assert ((k <= (last - first) / 60000000000)%Z) by (apply Z.div_le_lower_bound; lia). lia.
Qed.

(** Simulation at those minutes is enough if the index has steps of at least a minute. *)
Theorem minutes_cover : forall idx raw, StronglySorted Z.lt idx -> times raw = minutes idx ->
  (covered idx raw <-> forall first b t, hd_error idx = Some first -> follows idx b t -> exists k, (0 <= k /\ b < first + 60000000000 * k <= t)%Z) /\
  ((forall b t, follows idx b t -> (60000000000 <= t - b)%Z) -> covered idx raw).
Proof.
  intros idx raw S T. destruct idx as [|t0 idx'] eqn:Ei.
  - assert (C : covered [] raw) by (split; [discriminate|intros b t ([|x l] & l' & H); discriminate]). split; [split; [discriminate|intros _; exact C]|intros _; exact C].
  - rewrite <- Ei in *. assert (Ne : idx <> []) by (rewrite Ei; discriminate). destruct (exists_last Ne) as (l & last & Hl).
    assert (Hf : hd_error idx = Some t0) by (rewrite Ei; reflexivity). destruct (minutes_spec idx t0 last S Hf (ex_intro _ l Hl)) as [_ M].
    assert (R : forall u, (exists v, In (u, v) raw) <-> whole_minute t0 last u).
    { intros u. rewrite <- M, <- T. unfold times. rewrite in_map_iff. split; [intros (v & I); exists (u, v); auto|intros ([u' v] & E & I); cbn in E; subst u'; exists v; exact I]. }
    assert (Up : forall t, In t idx -> (t0 <= t <= last)%Z).
    { intros t I. split.
      - rewrite Ei in I, S. destruct I as [<-|I]; [lia|]. apply StronglySorted_inv in S. destruct S as [_ S]. rewrite Forall_forall in S. specialize (S t I). lia.
      - rewrite Hl in I, S. apply in_app_iff in I. destruct I as [I|[<-|[]]]; [|lia]. clear -S I. induction l as [|x l IH]; [destruct I|]. cbn in S. apply StronglySorted_inv in S. destruct S as [S F].
        destruct I as [->|I]; [|apply IH; assumption]. rewrite Forall_forall in F. specialize (F last). rewrite in_app_iff in F. cbn in F. intuition lia. }
    assert (Cov : covered idx raw <-> forall b t, follows idx b t -> exists k, (0 <= k /\ b < t0 + 60000000000 * k <= t)%Z).
    { split.
      - intros [_ C] b t F. destruct (C b t F) as (u & v & I & K1 & K2). destruct (proj1 (R u) (ex_intro _ v I)) as (k & K3 & -> & _). exists k. lia.
      - intros C. split.
        + intros t H. rewrite Hf in H. injection H as <-. destruct (proj2 (R t0)) as (v & I); [exists 0%Z; specialize (Up t0); rewrite Ei in Up; cbn in Up; lia|]. exists t0, v. split; [exact I|lia].
        + intros b t F. destruct (C b t F) as (k & K1 & K2). assert (I : In t idx) by (destruct F as (x & y & ->); rewrite in_app_iff; cbn; auto). specialize (Up t I).
          destruct (proj2 (R (t0 + 60000000000 * k)%Z)) as (v & J); [exists k; lia|]. eexists. exists v. split; [exact J|lia]. }
    split.
    + rewrite Cov. split; [intros C first b t H; rewrite Hf in H; injection H as <-; apply C|intros C b t; now apply C].
    + intros Step. apply Cov. intros b t F. specialize (Step b t F). assert (I : In b idx) by (destruct F as (x & y & ->); rewrite in_app_iff; cbn; auto). specialize (Up b I).
      exists ((t - t0) / 60000000000)%Z. pose proof (Z.mul_div_le (t - t0) 60000000000 ltac:(lia)). pose proof (Z.mul_succ_div_gt (t - t0) 60000000000 ltac:(lia)).
      split; [apply Z.div_pos; lia|]. lia.
Qed.

Section Clear.
Context {P W T O YK SK YR SR : Type}.
Local Notation env := (environment P W T O YK SK YR SR).
Local Notation inp := (inputs W O).
Theorem clearsky_value : forall (E : env) (i : inp) poa loc o ms, i_poa i = Some poa -> times poa <> [] -> i_location i = Present loc -> i_orientation i = Some o ->
  sorted_index poa -> StronglySorted Z.lt ms ->
  (forall first last m, hd_error (times poa) = Some first -> (exists l, times poa = l ++ [last]) -> (In m ms <-> whole_minute first last m)) ->
  match e_clear_poa E loc o ms with
  | Raise e => clearsky_poa E i = Raise e
  | Ok raw => noinf (vals raw) ->
    (covered (times poa) raw -> exists clear, averaged (times poa) raw clear /\ clearsky_poa E i = irradiance_rescale (e_optimise E) poa clear 100 Iterative (ff 1 1000000)) /\
    (~ covered (times poa) raw -> clearsky_poa E i = Raise ValueError)
  end.
Proof.
  intros E i poa loc o ms Hp Ne Hl Ho S Sm M. unfold sorted_index in S.
  destruct (exists_last Ne) as (l & last & Hlast). assert (Hf : exists first, hd_error (times poa) = Some first) by (destruct (times poa); [congruence|eexists; reflexivity]).
  destruct Hf as (first & Hf). destruct (minutes_spec (times poa) first last S Hf (ex_intro _ l Hlast)) as [S' M'].
  assert (minutes (times poa) = ms) as X by (apply sorted_same; [exact S'|exact Sm|]; intros t; rewrite M'; symmetry; apply M; eauto).
  unfold clearsky_poa. rewrite Hp, Hl, Ho. cbn [need bind use]. destruct (times poa) as [|t0 ts] eqn:Et; [congruence|]. cbn [bind]. rewrite X. destruct (e_clear_poa E loc o ms) as [raw|e]; cbn [bind]; [intros N|reflexivity].
  destruct (averages (t0 :: ts) raw S N) as [A1 A2]. split.
  - intros C. destruct (A1 C) as (clear & -> & A). exists clear. split; [exact A|]. cbn [bind].
    (* Different limits must fail here and not be compared by computation. *)
    match goal with |- ?a = ?b => constr_eq a b end. reflexivity.
  - intros C. rewrite (A2 C). reflexivity.
Qed.
Theorem clearsky_errors : forall (E : env) (i : inp),
  (i_poa i = None -> clearsky_poa E i = Raise AttributeError) /\
  (forall poa, i_poa i = Some poa ->
    (poa = [] -> clearsky_poa E i = Raise ValueError) /\
    (i_location i = Unset -> clearsky_poa E i = Raise ValueError) /\
    (i_orientation i = None -> clearsky_poa E i = Raise ValueError) /\
    (poa <> [] -> i_location i = Absent -> i_orientation i <> None -> clearsky_poa E i = Raise AttributeError)).
Proof.
  intros E i. unfold clearsky_poa. split; [intros ->; reflexivity|]. intros poa ->. cbn [need bind].
  split; [intros ->; reflexivity|]. destruct poa as [|[t v] poa]; [repeat split; try reflexivity; congruence|]. cbn [times map fst bind].
  split; [intros ->; reflexivity|]. split; [intros ->; destruct (i_location i); reflexivity|].
  intros _ -> H. cbn [bind]. destruct (i_orientation i); [reflexivity|congruence].
Qed.
Lemma rescaled_by : forall optimise irrad sim n thr out, irradiance_rescale optimise irrad sim n Iterative thr = Ok out -> exists f, out = on_values (fmul f) sim.
Proof.
  intros optimise irrad sim n thr out. cbn [irradiance_rescale]. destruct (first_guess irrad sim) as [g|]; cbn [bind]; [|discriminate].
  destruct (rescale_loop _ _ _ _ _ _) as [f|]; cbn [bind]; [|discriminate]. intros H. injection H as <-. exists f. reflexivity.
Qed.
Theorem clearsky_index : forall (E : env) (i : inp) poa out, i_poa i = Some poa -> clearsky_poa E i = Ok out ->
  times out = times poa /\ exists t l, out = (t, NaN) :: l.
Proof.
  intros E i poa out Hp H. unfold clearsky_poa in H. rewrite Hp in H. cbn [need bind] in H.
  destruct (times poa) as [|t0 ts] eqn:Et; [discriminate|]. cbn [bind] in H. destruct (match i_location i with Unset => _ | _ => _ end); cbn [bind] in H; [|discriminate].
  destruct (i_orientation i); cbn [need bind] in H; [|discriminate]. destruct (use (i_location i)); cbn [bind] in H; [|discriminate].
  destruct (e_clear_poa _ _ _ _) as [raw|]; cbn [bind] in H; [|discriminate]. unfold aggregate_minutes in H. cbv zeta in H. set (ms := flat_map _ _) in H.
  destruct (Nat.eqb_spec (List.length ms) (List.length (t0 :: ts))) as [L|]; cbn [bind] in H; [|discriminate].
  apply rescaled_by in H. destruct H as (f & ->). destruct ms as [|m ms]; [discriminate|]. split.
  - unfold times, on_values. rewrite map_map. cbn [fst]. apply (times_combine (t0 :: ts) (NaN :: ms)). exact L.
  - cbn. destruct f; eauto.
Qed.
End Clear.
