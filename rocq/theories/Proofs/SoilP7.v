(** Levels of the invalid intervals. *)

From Coq Require Import QArith Qcanon List ZArith Bool Arith Lia Sorted String.
From Verif.Base Require Import QcExtra ISort Quantile Fl TimeSeries Calendar Rolling Segments.
From Verif.Spec Require Import Stats Filters Soiling.
From Verif.Model Require Import Soiling.
From Verif.Proofs Require Import StatsP FiltersP2 SoilP SoilP2 SoilP3 SoilP4 SoilP5 SoilP6.
Import ListNotations.
Open Scope list_scope.
Open Scope Qc_scope.

(** ** Groups *)

Section Groups.
Variables (A : Type) (xs : list A) (g : A -> Z) (p q : A -> Qc) (u : nat -> Qc).
Hypothesis same : forall x y, In x xs -> In y xs -> g x = g y -> p x = p y /\ q x = q y.
Let rows : list (Z * (fl * fl)) := map (fun x => (g x, (Fin (p x), Fin (q x)))) xs.
Let lev (i : nat) (x : A) : Qc := p x + (q x - p x) * u i.

Lemma filter_map_swap : forall X Y (f : Y -> bool) (h : X -> Y) l, filter f (map h l) = map h (filter (fun x => f (h x)) l).
Proof. induction l as [| x l IH]; [reflexivity |]. cbn. destruct (f (h x)); cbn; rewrite IH; reflexivity. Qed.

Lemma group_levels_any : forall o k0, (forall h, In h o -> exists x, In x xs /\ g x = h) ->
  group_levels u k0 o rows = Ok (map Fin (flat_map (fun ih => map (lev (fst ih)) (filter (fun x => (g x =? snd ih)%Z) xs)) (combine (seq k0 (List.length o)) o))).
Proof.
  induction o as [| h o IH]; intros k0 H; [reflexivity |]. cbn [group_levels List.length seq combine flat_map fst snd]. unfold rows at 1. rewrite filter_map_swap. cbn [fst].
  destruct (H h (or_introl eq_refl)) as (x0 & Hx0 & Eg). destruct (filter (fun x => (g x =? h)%Z) xs) as [| x1 others] eqn:E.
  - assert (In x0 (filter (fun x => (g x =? h)%Z) xs)) as K by (apply filter_In; split; [exact Hx0 | apply Z.eqb_eq; exact Eg]). rewrite E in K. destruct K.
  - cbn [map]. cbn [uniform bind]. rewrite (IH (S k0)) by (intros h' Hh'; apply H; right; exact Hh'). cbn [bind].
    assert (forall y, In y (x1 :: others) -> lev k0 y = p x1 + (q x1 - p x1) * u k0) as K.
    { intros y Hy. assert (In y xs /\ g y = h) as [Hy1 Hy2] by (rewrite <- E in Hy; apply filter_In in Hy; destruct Hy as [Hy1 Hy2]; apply Z.eqb_eq in Hy2; auto).
      assert (In x1 xs /\ g x1 = h) as [Hx1 Hx2] by (assert (In x1 (x1 :: others)) as Hx by (left; reflexivity); rewrite <- E in Hx; apply filter_In in Hx; destruct Hx as [Hx1 Hx2]; apply Z.eqb_eq in Hx2; auto).
      destruct (same y x1 Hy1 Hx1 ltac:(congruence)) as [E1 E2]. unfold lev. rewrite E1, E2. reflexivity. }
    f_equal. rewrite map_app. cbn [app map]. rewrite (K x1 (or_introl eq_refl)). f_equal. f_equal. rewrite !map_map. apply map_ext_in. intros y Hy. rewrite (K y (or_intror Hy)). reflexivity.
Qed.

Lemma flat_map_ext_in : forall X Y (f h : X -> list Y) l, (forall x, In x l -> f x = h x) -> flat_map f l = flat_map h l.
Proof. induction l as [| x l IH]; intros H; [reflexivity |]. cbn. rewrite (H x (or_introl eq_refl)), IH; [reflexivity | intros y Hy; apply H; right; exact Hy]. Qed.

Lemma split_least : forall h ys, StronglySorted (fun x y => (g x <= g y)%Z) ys -> (forall y, In y ys -> (h <= g y)%Z) ->
  ys = filter (fun x => (g x =? h)%Z) ys ++ filter (fun x => negb (g x =? h)%Z) ys.
Proof.
  intros h. induction ys as [| y ys IH]; intros S H; [reflexivity |]. inversion S as [| a b S1 S2]; subst. cbn [filter]. destruct (Z.eqb_spec (g y) h) as [E | E]; cbn [negb app].
  - f_equal. apply IH; [exact S1 |]. intros z Hz. apply H. right. exact Hz.
  - rewrite Forall_forall in S2. rewrite (filter_none _ _ ys), (filter_all _ _ ys); [reflexivity | |].
    + intros z Hz. specialize (S2 z Hz). specialize (H y (or_introl eq_refl)). apply negb_true_iff. apply Z.eqb_neq. lia.
    + intros z Hz. specialize (S2 z Hz). specialize (H y (or_introl eq_refl)). apply Z.eqb_neq. lia.
Qed.
Lemma sorted_filter : forall (R : A -> A -> Prop) (f : A -> bool) ys, StronglySorted R ys -> StronglySorted R (filter f ys).
Proof.
  intros R f ys S. induction S as [| y ys S IH F]; [constructor |]. cbn. destruct (f y); [| exact IH]. constructor; [exact IH |]. rewrite Forall_forall in *. intros z Hz. apply filter_In in Hz. apply F. apply Hz.
Qed.
Lemma regroup : forall o ys, StronglySorted Z.lt o -> StronglySorted (fun x y => (g x <= g y)%Z) ys -> (forall y, In y ys -> In (g y) o) ->
  flat_map (fun h => filter (fun x => (g x =? h)%Z) ys) o = ys.
Proof.
  induction o as [| h o IH]; intros ys So Sy H.
  - destruct ys as [| y ys]; [reflexivity | destruct (H y (or_introl eq_refl))].
  - inversion So as [| a b So1 So2]; subst. rewrite Forall_forall in So2. cbn [flat_map].
    transitivity (filter (fun x => (g x =? h)%Z) ys ++ filter (fun x => negb (g x =? h)%Z) ys);
      [f_equal | symmetry; apply (split_least h ys Sy); intros y Hy; destruct (H y Hy) as [<- | K]; [lia | specialize (So2 _ K); lia]].
    rewrite <- (IH (filter (fun x => negb (g x =? h)%Z) ys)) at 1; [| exact So1 | apply sorted_filter; exact Sy |].
    + apply flat_map_ext_in. intros h' Hh'. specialize (So2 h' Hh'). clear -So2. induction ys as [| y ys IH]; [reflexivity |]. cbn [filter].
      destruct (Z.eqb_spec (g y) h) as [E | E]; cbn [negb filter]; destruct (Z.eqb_spec (g y) h') as [E' | E']; rewrite ?IH; try reflexivity; lia.
    + intros y Hy. apply filter_In in Hy. destruct Hy as [Hy1 Hy2]. destruct (H y Hy1) as [K | K]; [| exact K]. rewrite <- K, Z.eqb_refl in Hy2. discriminate.
Qed.

Lemma group_levels_sorted : forall o idx, StronglySorted Z.lt o -> (forall h, In h o -> exists x, In x xs /\ g x = h) ->
  StronglySorted (fun x y => (g x <= g y)%Z) xs -> (forall x, In x xs -> nth_error o (idx x) = Some (g x)) ->
  group_levels u 0 o rows = Ok (map (fun x => Fin (lev (idx x) x)) xs).
Proof.
  intros o idx So Ho Sx HI. rewrite (group_levels_any o 0 Ho). f_equal. rewrite <- (map_map (fun x => lev (idx x) x) Fin). f_equal.
  transitivity (map (fun x => lev (idx x) x) (flat_map (fun h => filter (fun x => (g x =? h)%Z) xs) o)).
  - assert (forall (l : list (nat * Z)), (forall ih, In ih l -> nth_error o (fst ih) = Some (snd ih)) ->
      flat_map (fun ih => map (lev (fst ih)) (filter (fun x => (g x =? snd ih)%Z) xs)) l = map (fun x => lev (idx x) x) (flat_map (fun h => filter (fun x => (g x =? h)%Z) xs) (map snd l))) as K.
    { induction l as [| [i h] l IH]; intros H; [reflexivity |]. cbn [flat_map map fst snd]. rewrite map_app, IH by (intros ih Hih; apply H; right; exact Hih). f_equal.
      apply map_ext_in. intros x Hx. apply filter_In in Hx. destruct Hx as [Hx1 Hx2]. apply Z.eqb_eq in Hx2. f_equal.
      assert (nth_error o i = Some h) as E1 by (apply (H (i, h)); left; reflexivity). pose proof (HI x Hx1) as E2. rewrite Hx2 in E2. apply NoDup_sorted in So.
      apply (proj1 (NoDup_nth_error o)); [exact So | apply nth_error_Some; congruence | congruence]. }
    rewrite K.
    + f_equal. f_equal. clear. generalize 0%nat. induction o as [| h o IH]; intros s; [reflexivity |]. cbn. rewrite IH. reflexivity.
    + intros [i h] Hih. cbn [fst snd]. apply In_nth_error in Hih. destruct Hih as [j Hj]. rewrite nth_error_combine, nth_error_seq in Hj. destruct (Nat.ltb_spec j (List.length o)) as [L | L]; [| discriminate].
      destruct (nth_error o j) as [h' |] eqn:E; [| discriminate]. injection Hj as <- <-. exact E.
  - rewrite regroup; [reflexivity | exact So | exact Sx |]. intros y Hy. apply (nth_error_In _ (idx y)). apply HI. exact Hy.
Qed.

Lemma group_levels_range : forall o, NoDup o -> (forall h, In h o <-> exists x, In x xs /\ g x = h) -> exists fills,
  group_levels u 0 o rows = Ok (map Fin fills) /\ List.length fills = List.length xs /\ forall y, In y fills -> exists x i, In x xs /\ y = lev i x.
Proof.
  intros o ND Ho. eexists. split; [apply group_levels_any; intros h Hh; apply Ho; exact Hh |]. split.
  - assert (forall (l : list (nat * Z)), List.length (flat_map (fun ih => map (lev (fst ih)) (filter (fun x => (g x =? snd ih)%Z) xs)) l) = List.length (flat_map (fun h => filter (fun x => (g x =? h)%Z) xs) (map snd l))) as K.
    { induction l as [| [i h] l IH]; [reflexivity |]. cbn [flat_map map fst snd]. rewrite !app_length, map_length, IH. reflexivity. }
    rewrite K. assert (map snd (combine (seq 0 (List.length o)) o) = o) as ->.
    { clear. generalize 0%nat. induction o as [| h o IH]; intros s; [reflexivity |]. cbn. rewrite IH. reflexivity. }
    assert (forall ys, (forall y, In y ys -> In (g y) o) -> List.length (flat_map (fun h => filter (fun x => (g x =? h)%Z) ys) o) = List.length ys) as L.
    { clear K Ho same rows lev. induction o as [| h o IH]; intros ys H; [destruct ys as [| y ys]; [reflexivity | destruct (H y (or_introl eq_refl))] |]. inversion ND as [| a b N1 N2]; subst.
      cbn [flat_map]. rewrite app_length. rewrite (flat_map_ext_in _ _ _ (fun h' => filter (fun x => (g x =? h')%Z) (filter (fun x => negb (g x =? h)%Z) ys))).
      - rewrite (IH N2).
        + clear. induction ys as [| y ys IH]; [reflexivity |]. cbn [filter]. destruct (g y =? h)%Z; cbn [negb List.length]; lia.
        + intros y Hy. apply filter_In in Hy. destruct Hy as [Hy1 Hy2]. destruct (H y Hy1) as [K | K]; [| exact K]. rewrite <- K, Z.eqb_refl in Hy2. discriminate.
      - intros h' Hh'. assert (h' <> h) as D by (intros ->; contradiction). clear -D. induction ys as [| y ys IH]; [reflexivity |]. cbn [filter].
        destruct (Z.eqb_spec (g y) h) as [E | E]; cbn [negb filter]; destruct (Z.eqb_spec (g y) h') as [E' | E']; rewrite ?IH; try reflexivity; congruence. }
    apply L. intros y Hy. apply Ho. eauto.
  - intros y Hy. apply in_flat_map in Hy. destruct Hy as ([i h] & _ & Hy). apply in_map_iff in Hy. destruct Hy as (x & <- & Hx). apply filter_In in Hx. exists x, i. split; [apply Hx | reflexivity].
Qed.
End Groups.

(** ** Positions *)

Fixpoint bad_from (o : nat) (b : list bool) : list nat :=
  match b with [] => [] | true :: b' => bad_from (S o) b' | false :: b' => o :: bad_from (S o) b' end.

Lemma bad_In : forall b o k, In k (bad_from o b) <-> (o <= k)%nat /\ nth_error b (k - o) = Some false.
Proof.
  induction b as [| x b IH]; intros o k; cbn [bad_from].
  - split; [intros [] | intros [_ H]; destruct (k - o)%nat; discriminate].
  - assert (In k (bad_from (S o) b) <-> (o < k)%nat /\ nth_error (x :: b) (k - o) = Some false) as K.
    { rewrite IH. split; intros [H1 H2]; (split; [lia |]).
      - replace (k - o)%nat with (S (k - S o)) by lia. exact H2.
      - replace (k - o)%nat with (S (k - S o)) in H2 by lia. exact H2. }
    destruct x.
    + rewrite K. split; intros [H1 H2]; (split; [| exact H2]); [lia |]. destruct (Nat.eq_dec k o) as [-> | N]; [| lia]. rewrite Nat.sub_diag in H2. discriminate.
    + cbn [In]. rewrite K. split.
      * intros [<- | [H1 H2]]; [split; [lia |]; rewrite Nat.sub_diag; reflexivity | split; [lia | exact H2]].
      * intros [H1 H2]. destruct (Nat.eq_dec k o) as [-> | N]; [left; reflexivity | right; split; [lia | exact H2]].
Qed.
Lemma bad_sorted : forall b o, StronglySorted lt (bad_from o b).
Proof.
  induction b as [| x b IH]; intros o; [constructor |]. cbn [bad_from]. destruct x; [apply IH |]. constructor; [apply IH |]. apply Forall_forall. intros k Hk. apply bad_In in Hk. lia.
Qed.
Lemma bad_length : forall b o, List.length (bad_from o b) = List.length (filter negb b).
Proof. induction b as [| x b IH]; intros o; [reflexivity |]. destruct x; cbn; rewrite IH; reflexivity. Qed.

Lemma place_spec : forall (F : nat -> Qc) (lv : list (option (Qc * Qc))) o k,
  nth_error (place_levels (fin_opt lv) (map (fun x => Fin (F x)) (bad_from o (map (fun x => match x with Some _ => true | None => false end) lv)))) k =
  match nth_error lv k with Some (Some (s, _)) => Some (Fin s) | Some None => Some (Fin (F (o + k)%nat)) | None => None end.
Proof.
  intros F. induction lv as [| x lv IH]; intros o k; [destruct k; reflexivity |]. destruct x as [[s e] |]; cbn [map fin_opt option_map fin_pair fst snd bad_from place_levels]; fold (fin_opt lv).
  - destruct k as [| k]; [reflexivity |]. cbn [nth_error]. rewrite IH. replace (S o + k)%nat with (o + S k)%nat by lia. reflexivity.
  - destruct k as [| k]; [cbn; rewrite Nat.add_0_r; reflexivity |]. cbn [nth_error]. rewrite IH. replace (S o + k)%nat with (o + S k)%nat by lia. reflexivity.
Qed.
Lemma place_any : forall (lv : list (option (Qc * Qc))) fills, List.length fills = List.length (filter negb (map (fun x => match x with Some _ => true | None => false end) lv)) ->
  exists starts, place_levels (fin_opt lv) (map Fin fills) = map Fin starts /\ List.length starts = List.length lv /\
    forall k, (k < List.length lv)%nat -> (exists s e, nth_error lv k = Some (Some (s, e)) /\ nth k starts 0 = s) \/ (nth_error lv k = Some None /\ In (nth k starts 0) fills).
Proof.
  induction lv as [| x lv IH]; intros fills H.
  - exists []. repeat split. intros k Hk. cbn in Hk. lia.
  - destruct x as [[s e] |]; cbn [map filter negb] in H; cbn [fin_opt map option_map fin_pair fst snd place_levels]; fold (fin_opt lv).
    + destruct (IH fills H) as (st & E & L & K). exists (s :: st). rewrite E. split; [reflexivity |]. split; [cbn; lia |]. intros k Hk. destruct k as [| k]; [left; exists s, e; split; reflexivity |]. apply (K k). cbn in Hk. lia.
    + destruct fills as [| f fills]; [discriminate |]. destruct (IH fills ltac:(cbn in H; lia)) as (st & E & L & K). exists (f :: st). cbn [map]. rewrite E. split; [reflexivity |]. split; [cbn; lia |].
      intros k Hk. destruct k as [| k]; [right; split; [reflexivity | left; reflexivity] |]. cbn in Hk. destruct (K k ltac:(lia)) as [C | [C1 C2]]; [left; exact C | right; split; [exact C1 | right; exact C2]].
Qed.
