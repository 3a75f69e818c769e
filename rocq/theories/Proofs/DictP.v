(** Dictionaries of filter parameters. *)

From Coq Require Import List ZArith Bool Arith String Lia.
From Verif.Base Require Import Fl.
From Verif.Spec Require Import Dict.
From Verif.Model Require Import FilterDict.
Import ListNotations.
Open Scope list_scope.

Section Values.
Context {V : Type}.
Implicit Types (d items : dict V) (k : string) (v : V).

Lemma dset_keys : forall k v d, keys (dset k v d) = if in_dec string_dec k (keys d) then keys d else keys d ++ [k].
Proof.
  intros k v. unfold keys. induction d as [|[k' v'] d IH]; [reflexivity|]. cbn [dset fst]. destruct (String.eqb_spec k' k) as [->|N].
  - cbn [map fst]. destruct (in_dec string_dec k (k :: map fst d)) as [_|C]; [reflexivity|]. contradiction C. left. reflexivity.
  - cbn [map fst]. rewrite IH. destruct (in_dec string_dec k (map fst d)) as [I|I]; destruct (in_dec string_dec k (k' :: map fst d)) as [J|J]; try reflexivity.
    + contradiction J. right. exact I.
    + destruct J as [J|J]; contradiction.
Qed.
Lemma dset_dict : forall k v d, is_dict d -> is_dict (dset k v d).
Proof.
  intros k v d D. unfold is_dict in *. change (map fst (dset k v d)) with (keys (dset k v d)). rewrite dset_keys. destruct (in_dec string_dec k (keys d)) as [I|I]; [exact D|].
  apply NoDup_rev in D. rewrite <- (rev_involutive (keys d ++ [k])). apply NoDup_rev. rewrite rev_app_distr. cbn. constructor; [rewrite <- in_rev; exact I|exact D].
Qed.
Lemma dset_In : forall k v d, is_dict d -> forall k' v', In (k', v') (dset k v d) <-> (k' = k /\ v' = v) \/ (k' <> k /\ In (k', v') d).
Proof.
  intros k v d D k' v'. induction d as [|[a b] d IH]; cbn [dset fst].
  - cbn. split; [intros [E|[]]; injection E as <- <-; left; auto|]. intros [[-> ->]|[_ []]]. left. reflexivity.
  - inversion D as [|x l NI D']; subst. destruct (String.eqb_spec a k) as [->|N].
    + cbn [In]. split.
      * intros [E|I]; [injection E as <- <-; left; auto|]. right. split; [intros ->; apply NI; apply (in_map fst) in I; exact I|right; exact I].
      * intros [[-> ->]|[NE [E|I]]]; [left; reflexivity|injection E as -> ->; contradiction|right; exact I].
    + cbn [In]. rewrite (IH D'). split.
      * intros [E|[H|[H I]]]; [injection E as <- <-; right; split; [exact N|left; reflexivity]|left; exact H|right; split; [exact H|right; exact I]].
      * intros [H|[H [E|I]]]; [right; left; exact H|left; exact E|right; right; split; assumption].
Qed.

Lemma binds_app : forall items k v k' v', binds (items ++ [(k, v)]) k' v' <-> (k' = k /\ v' = v) \/ (k' <> k /\ binds items k' v').
Proof.
  intros items k v k' v'. split.
  - intros (before & later & E & N). destruct later as [|p later].
    + apply app_inj_tail in E. destruct E as [_ E]. injection E as -> ->. left. auto.
    + destruct (@exists_last _ (p :: later) ltac:(discriminate)) as (l' & q & L). rewrite L in E, N. rewrite app_comm_cons, app_assoc in E. apply app_inj_tail in E. destruct E as [E <-]. right.
      rewrite map_app, in_app_iff in N. split; [intros ->; apply N; right; left; reflexivity|]. exists before, l'. split; [exact E|tauto].
  - intros [[-> ->]|[NE (before & later & -> & N)]].
    + exists items, []. split; [reflexivity|intros []].
    + exists before, (later ++ [(k, v)]). split; [rewrite <- app_assoc; reflexivity|]. rewrite map_app, in_app_iff. intros [I|[E|[]]]; [exact (N I)|]. apply NE. symmetry. exact E.
Qed.
Lemma binds_dict : forall d k v, is_dict d -> (binds d k v <-> In (k, v) d).
Proof.
  intros d k v D. split; [intros (b & l & -> & _); apply in_or_app; right; left; reflexivity|]. intros I. apply in_split in I. destruct I as (b & l & ->). exists b, l. split; [reflexivity|].
  unfold is_dict in D. rewrite map_app in D. apply NoDup_remove_2 in D. intros C. apply D. apply in_or_app. right. exact C.
Qed.

Definition news (d items : dict V) : list string := nodup string_dec (filter (fun k => if in_dec string_dec k (keys d) then false else true) (keys items)).
Lemma dset_all_app : forall items p d, dset_all (items ++ [p]) d = dset (fst p) (snd p) (dset_all items d).
Proof. intros. unfold dset_all. rewrite fold_left_app. reflexivity. Qed.
(** Keys in the order of their first appearance. *)
Definition in_order (l new : list string) : Prop :=
  NoDup new /\ forall a b, (exists x y z, new = x ++ a :: y ++ b :: z) <-> (In a new /\ In b new /\ exists x y, l = x ++ y /\ In a x /\ ~ In b x).
Lemma in_order_snoc : forall l k new (P : string -> Prop), (forall x, In x new <-> In x l /\ P x) -> in_order l new ->
  (In k new \/ ~ P k -> in_order (l ++ [k]) new) /\ (~ In k new -> P k -> in_order (l ++ [k]) (new ++ [k])).
Proof.
  intros l k new P HN [ND O]. split.
  - intros H. split; [exact ND|]. intros a b. rewrite O. split; intros (I1 & I2 & x & y & E & X1 & X2); (split; [exact I1|]; split; [exact I2|]).
    + exists x, (y ++ [k]). rewrite E, app_assoc. auto.
    + destruct y as [|q y].
      * rewrite app_nil_r in E. subst x. exfalso. apply X2. apply in_or_app. left. apply HN in I2. apply I2.
      * destruct (@exists_last _ (q :: y) ltac:(discriminate)) as (y' & w & Y). rewrite Y, app_assoc in E. apply app_inj_tail in E. destruct E as [E _]. exists x, y'. auto.
  - intros NI PK. split; [apply NoDup_rev in ND; rewrite <- (rev_involutive (new ++ [k])); apply NoDup_rev; rewrite rev_app_distr; cbn; constructor; [rewrite <- in_rev; exact NI|exact ND]|].
    assert (NL : ~ In k l) by (intros C; apply NI; apply HN; auto). intros a b. split.
    + intros (x & y & z & E). destruct z as [|q z].
      * rewrite app_comm_cons, app_assoc in E. apply app_inj_tail in E. destruct E as [E <-]. assert (IA : In a new) by (rewrite E; apply in_or_app; right; left; reflexivity).
        split; [apply in_or_app; left; exact IA|]. split; [apply in_or_app; right; left; reflexivity|]. exists l, [k]. split; [reflexivity|]. split; [apply HN; exact IA|exact NL].
      * destruct (@exists_last _ (q :: z) ltac:(discriminate)) as (z' & w & Z). rewrite Z in E. replace (x ++ a :: y ++ b :: z' ++ [w]) with ((x ++ a :: y ++ b :: z') ++ [w]) in E by (rewrite <- app_assoc; cbn; rewrite <- app_assoc; reflexivity).
        apply app_inj_tail in E. destruct E as [E _]. destruct (proj1 (O a b) (ex_intro _ x (ex_intro _ y (ex_intro _ z' E)))) as (I1 & I2 & s & t & E' & S1 & S2).
        split; [apply in_or_app; left; exact I1|]. split; [apply in_or_app; left; exact I2|]. exists s, (t ++ [k]). rewrite E', app_assoc. auto.
    + intros (I1 & I2 & s & t & E & S1 & S2). apply in_app_or in I1. apply in_app_or in I2. destruct t as [|q t].
      * rewrite app_nil_r in E. subst s. exfalso. apply S2. destruct I2 as [I2|[<-|[]]]; apply in_or_app; [left; apply HN in I2; apply I2|right; left; reflexivity].
      * destruct (@exists_last _ (q :: t) ltac:(discriminate)) as (t' & w & T). rewrite T, app_assoc in E. apply app_inj_tail in E. destruct E as [E <-].
        destruct I1 as [I1|[<-|[]]]; [|exfalso; apply NL; rewrite E; apply in_or_app; left; exact S1]. destruct I2 as [I2|[<-|[]]].
        -- destruct (proj2 (O a b) (conj I1 (conj I2 (ex_intro _ s (ex_intro _ t' (conj E (conj S1 S2))))))) as (x & y & z & ->). exists x, y, (z ++ [k]). rewrite <- app_assoc. cbn. rewrite <- app_assoc. reflexivity.
        -- apply in_split in I1. destruct I1 as (x & y & ->). exists x, y, []. rewrite <- app_assoc. reflexivity.
Qed.

Theorem dset_all_spec : forall items d, is_dict d -> put_all d items (dset_all items d).
Proof.
  intros items. induction items as [|[k v] items IH] using rev_ind; intros d D.
  - split; [exact D|]. split; [intros k v; rewrite app_nil_r; symmetry; apply binds_dict; exact D|]. exists []. split; [symmetry; apply app_nil_r|]. split; [cbn; tauto|].
    intros a b. split; [intros (x & y & z & C); destruct x; discriminate C|intros ([] & _)].
  - destruct (IH d D) as (D1 & B1 & new & K1 & N1 & O1). rewrite dset_all_app. cbn [fst snd]. set (e := dset_all items d) in *. split; [apply dset_dict; exact D1|]. split.
    + intros k' v'. rewrite (dset_In k v e D1), app_assoc, binds_app, B1. reflexivity.
    + change (map fst (dset k v e)) with (keys (dset k v e)). rewrite dset_keys. unfold keys. rewrite K1.
      assert (NN : NoDup new). { unfold is_dict in D1. rewrite K1 in D1. clear - D1. induction (map fst d) as [|x l IH]; [exact D1|]. cbn in D1. inversion D1; subst. auto. }
      destruct (in_order_snoc (map fst items) k new (fun x => ~ In x (map fst d)) N1 (conj NN O1)) as [S1 S2]. rewrite map_app. cbn [map fst].
      destruct (in_dec string_dec k (map fst d ++ new)) as [I|I].
      * exists new. split; [reflexivity|]. assert (H : In k new \/ ~ ~ In k (map fst d)) by (apply in_app_or in I; tauto). split; [|apply S1; exact H].
        intros x. rewrite N1, in_app_iff. cbn [In]. split; [tauto|]. intros [[X|[<-|[]]] Y]; [tauto|]. apply in_app_or in I. destruct I as [I|I]; [contradiction|]. apply N1 in I. tauto.
      * exists (new ++ [k]). split; [rewrite app_assoc; reflexivity|]. assert (H1 : ~ In k new) by (intros C; apply I; apply in_or_app; tauto). assert (H2 : ~ In k (map fst d)) by (intros C; apply I; apply in_or_app; tauto). split; [|apply S2; assumption].
        intros x. rewrite in_app_iff, N1, in_app_iff. cbn [In]. split; [intros [[X Y]|[<-|[]]]; tauto|tauto].
Qed.

Lemma is_valid_spec : forall valid k, is_valid valid k = true <-> In k valid.
Proof.
  intros valid k. unfold is_valid. rewrite existsb_exists. split; [intros (x & I & E); apply String.eqb_eq in E; subst x; exact I|]. intros I. exists k. split; [exact I|apply String.eqb_refl].
Qed.
Lemma all_valid_spec : forall valid d, all_valid valid d = true <-> only valid d.
Proof. intros valid d. unfold all_valid. rewrite forallb_forall. split; intros H k I; [apply is_valid_spec, H, I|apply is_valid_spec, H, I]. Qed.
Lemma put_keys : forall d items d', put_all d items d' -> forall k, In k (map fst d') <-> In k (map fst d) \/ In k (map fst items).
Proof.
  intros d items d' (_ & _ & new & K & N & _) k. rewrite K, in_app_iff, N. destruct (in_dec string_dec k (map fst d)); tauto.
Qed.
Lemma put_only : forall valid items d', put_all [] items d' -> (only valid d' <-> only valid items).
Proof. intros valid items d' P. unfold only. pose proof (put_keys _ _ _ P) as K. split; intros H k I; apply H; [apply (proj2 (K k)); right; exact I|]. destruct (proj1 (K k) I) as [[]|J]; exact J. Qed.
Lemma all_valid_items : forall valid items, all_valid valid (dset_all items []) = true <-> only valid items.
Proof. intros valid items. rewrite all_valid_spec. apply put_only. apply dset_all_spec. constructor. Qed.

(** ** Construction *)
Theorem construct_spec : forall valid (a : argument V) kwargs,
  (only valid (first_reading a ++ kwargs) -> exists d, construct valid a kwargs = Ok (Validated valid d) /\ put_all [] (first_reading a ++ kwargs) d) /\
  (~ only valid (first_reading a ++ kwargs) -> construct valid a kwargs = Raise KeyError).
Proof.
  intros valid a kwargs. unfold construct. set (items := first_reading a ++ kwargs). pose proof (all_valid_items valid items) as A. split; intros H.
  - rewrite (proj2 A H). eexists. split; [reflexivity|]. apply dset_all_spec. constructor.
  - destruct (all_valid valid (dset_all items [])) eqn:E; [|reflexivity]. contradiction H. apply A. reflexivity.
Qed.

(** ** Operations *)
Definition sound (d : validated V) : Prop := is_dict (contents d) /\ only (valid_keys d) (contents d).
Theorem set_item_spec : forall k v (d : validated V), is_dict (contents d) ->
  (In k (valid_keys d) -> exists e, set_item k v d = Ok (Validated (valid_keys d) e) /\ put_all (contents d) [(k, v)] e) /\
  (~ In k (valid_keys d) -> set_item k v d = Raise KeyError).
Proof.
  intros k v d D. unfold set_item. pose proof (is_valid_spec (valid_keys d) k) as A. split; intros H.
  - rewrite (proj2 A H). eexists. split; [reflexivity|]. apply (dset_all_spec [(k, v)] (contents d) D).
  - destruct (is_valid (valid_keys d) k); [contradiction H; apply A; reflexivity|reflexivity].
Qed.
Theorem update_spec : forall (a : argument V) kwargs (d : validated V), is_dict (contents d) ->
  (only (valid_keys d) (first_reading a ++ kwargs) -> exists e, update a kwargs d = Ok (Validated (valid_keys d) e) /\ put_all (contents d) (second_reading a ++ kwargs) e) /\
  (~ only (valid_keys d) (first_reading a ++ kwargs) -> update a kwargs d = Raise KeyError).
Proof.
  intros a kwargs d D. unfold update. pose proof (all_valid_items (valid_keys d) (first_reading a ++ kwargs)) as A. split; intros H.
  - rewrite (proj2 A H). eexists. split; [reflexivity|]. apply dset_all_spec. exact D.
  - destruct (all_valid (valid_keys d) (dset_all (first_reading a ++ kwargs) [])) eqn:E; [|reflexivity]. contradiction H. apply A. reflexivity.
Qed.
Lemma dget_spec : forall k d, match dget k d with Some v => exists b l, d = b ++ (k, v) :: l /\ ddel k d = b ++ l | None => ~ In k (map fst d) end.
Proof.
  intros k. induction d as [|[k' v'] d IH]; cbn [dget ddel fst snd map]; [intros []|]. destruct (String.eqb_spec k' k) as [->|N]; [exists [], d; split; reflexivity|].
  destruct (dget k d) as [v|]; [|intros [C|C]; contradiction]. destruct IH as (b & l & -> & E). exists ((k', v') :: b), l. split; [reflexivity|]. rewrite E. reflexivity.
Qed.
Theorem delete_spec : forall k (d : validated V),
  (In k (map fst (contents d)) -> exists e, delete k d = Ok (Validated (valid_keys d) e) /\ without k (contents d) e) /\
  (~ In k (map fst (contents d)) -> delete k d = Raise KeyError).
Proof.
  intros k d. unfold delete, dhas. pose proof (dget_spec k (contents d)) as G. destruct (dget k (contents d)) as [v|].
  - destruct G as (b & l & E & E'). split.
    + intros _. eexists. split; [reflexivity|]. exists b, v, l. split; assumption.
    + intros C. contradiction C. rewrite E, map_app. apply in_or_app. right. left. reflexivity.
  - split; [contradiction|reflexivity].
Qed.
Theorem pop_item_spec : forall (d : validated V),
  (contents d = [] -> pop_item d = Raise KeyError) /\ (forall e p, contents d = e ++ [p] -> pop_item d = Ok (Validated (valid_keys d) e)).
Proof.
  intros d. unfold pop_item. split; [intros ->; reflexivity|]. intros e p E. rewrite E. assert (R : removelast (e ++ [p]) = e) by (rewrite removelast_app by discriminate; cbn; apply app_nil_r). rewrite R. destruct e; reflexivity.
Qed.
Lemma dset_all_dict : forall d e, is_dict (e ++ d) -> dset_all d e = e ++ d.
Proof.
  induction d as [|[k v] d IH]; intros e D; [symmetry; apply app_nil_r|]. unfold dset_all. cbn [fold_left fst snd]. fold (dset_all d (dset k v e)).
  assert (E : dset k v e = e ++ [(k, v)]).
  { clear IH. assert (NI : ~ In k (map fst e)) by (unfold is_dict in D; rewrite map_app in D; apply NoDup_remove_2 in D; intros C; apply D; apply in_or_app; left; exact C). clear D. induction e as [|[a b] e IH]; [reflexivity|]. cbn [dset fst]. destruct (String.eqb_spec a k) as [->|N]; [contradiction NI; left; reflexivity|]. cbn. f_equal. apply IH. intros C. apply NI. right. exact C. }
  rewrite E, IH by (rewrite <- app_assoc; exact D). rewrite <- app_assoc. reflexivity.
Qed.
Theorem unpickled_spec : forall (d : validated V), is_dict (contents d) ->
  (only (valid_keys d) (contents d) -> unpickled d = Ok d) /\ (~ only (valid_keys d) (contents d) -> unpickled d = Raise KeyError).
Proof.
  intros d D. unfold unpickled, construct. cbn [first_reading]. rewrite app_nil_r, dset_all_dict by exact D. cbn [app]. pose proof (all_valid_spec (valid_keys d) (contents d)) as A. split; intros H.
  - rewrite (proj2 A H). destruct d; reflexivity.
  - destruct (all_valid (valid_keys d) (contents d)); [contradiction H; apply A; reflexivity|reflexivity].
Qed.

(** ** Histories *)
Definition checked (o : operation V) : Prop := match o with SetDefault _ _ | InPlaceUnion _ => False | _ => True end.
Lemma without_sub : forall k d e, without k d e -> is_dict d -> is_dict e /\ (forall x, In x (map fst e) <-> In x (map fst d) /\ x <> k).
Proof.
  intros k d e (b & v & l & -> & ->) D. unfold is_dict in *. rewrite !map_app in *. cbn [map fst] in *. split; [eapply NoDup_remove_1; exact D|]. apply NoDup_remove_2 in D. intros x. rewrite !in_app_iff in *. cbn [In]. split.
  - intros H. split; [tauto|]. intros ->. contradiction.
  - intros [[H|[H|H]] N]; [tauto|congruence|tauto].
Qed.
Theorem operate_sound : forall (o : operation V) (d d' : validated V), sound d -> operate o d = Ok d' -> valid_keys d' = valid_keys d /\ is_dict (contents d') /\ (checked o -> sound d').
Proof.
  intros o d d' [D O] E. destruct o as [k v|a kwargs|k| | | |k v|a]; cbn [operate checked] in *.
  - destruct (in_dec string_dec k (valid_keys d)) as [I|I].
    + destruct (proj1 (set_item_spec k v d D) I) as (e & E' & P). rewrite E' in E. injection E as <-. split; [reflexivity|]. split; [apply P|]. intros _. split; [apply P|]. intros x X. cbn [contents valid_keys] in *. apply (put_keys _ _ _ P) in X. destruct X as [X|[<-|[]]]; [apply O; exact X|exact I].
    + rewrite (proj2 (set_item_spec k v d D) I) in E. discriminate E.
  - destruct (all_valid (valid_keys d) (first_reading a ++ kwargs)) eqn:A.
    + apply all_valid_spec in A. destruct (proj1 (update_spec a kwargs d D) A) as (e & E' & P). rewrite E' in E. injection E as <-. split; [reflexivity|]. split; [apply P|]. intros _. split; [apply P|]. intros x X. cbn [contents valid_keys] in *. apply (put_keys _ _ _ P) in X.
      destruct X as [X|X]; [apply O; exact X|]. apply A. rewrite map_app in *. apply in_app_or in X. apply in_or_app. destruct X as [X|X]; [left|right; exact X]. destruct a; [destruct X|exact X|destruct X].
    + rewrite (proj2 (update_spec a kwargs d D)) in E; [discriminate E|]. intros C. apply all_valid_spec in C. congruence.
  - destruct (in_dec string_dec k (map fst (contents d))) as [I|I].
    + destruct (proj1 (delete_spec k d) I) as (e & E' & P). rewrite E' in E. injection E as <-. destruct (without_sub _ _ _ P D) as [W1 W2]. split; [reflexivity|]. split; [exact W1|]. intros _. split; [exact W1|]. intros x X. apply O. apply W2 in X. apply X.
    + rewrite (proj2 (delete_spec k d) I) in E. discriminate E.
  - destruct (contents d) as [|p l] eqn:EC; [rewrite (proj1 (pop_item_spec d) EC) in E; discriminate E|]. destruct (@exists_last _ (p :: l) ltac:(discriminate)) as (e & q & L). rewrite L in *.
    rewrite (proj2 (pop_item_spec d) e q EC) in E. injection E as <-. cbn [contents valid_keys].
    assert (DE : is_dict e) by (unfold is_dict in *; rewrite map_app in D; cbn in D; pose proof (NoDup_remove_1 _ _ _ D) as D'; rewrite app_nil_r in D'; exact D').
    split; [reflexivity|]. split; [exact DE|]. intros _. split; [exact DE|]. intros x X. apply O. rewrite map_app. apply in_or_app. left. exact X.
  - injection E as <-. split; [reflexivity|]. split; [constructor|]. intros _. split; [constructor|intros x []].
  - rewrite (proj1 (unpickled_spec d D) O) in E. injection E as <-. split; [reflexivity|]. split; [exact D|]. intros _. split; assumption.
  - unfold set_default in E. destruct (dhas k (contents d)); injection E as <-; (split; [reflexivity|]); (split; [|intros []]); [exact D|]. cbn. apply dset_dict. exact D.
  - injection E as <-. split; [reflexivity|]. split; [|intros []]. cbn. apply dset_all_spec. exact D.
Qed.
Theorem history_sound : forall (os : list (operation V)) (d : validated V), sound d -> Forall checked os -> sound (history os d) /\ valid_keys (history os d) = valid_keys d.
Proof.
  induction os as [|o os IH]; intros d S F; [split; [exact S|reflexivity]|]. inversion F as [|x l C F']; subst. unfold history. cbn [fold_left]. fold (history os (after o d)). unfold after. destruct (operate o d) as [d'|e] eqn:E.
  - destruct (operate_sound o d d' S E) as (K & _ & S'). destruct (IH d' (S' C) F') as [H1 H2]. split; [exact H1|congruence].
  - apply IH; assumption.
Qed.
Theorem constructed_sound : forall valid (a : argument V) kwargs (d : validated V), construct valid a kwargs = Ok d -> sound d /\ valid_keys d = valid.
Proof.
  intros valid a kwargs d E. destruct (all_valid valid (first_reading a ++ kwargs)) eqn:A.
  - apply all_valid_spec in A. destruct (proj1 (construct_spec valid a kwargs) A) as (e & E' & P). rewrite E' in E. injection E as <-. split; [|reflexivity]. split; [apply P|]. cbn. apply (put_only valid _ _ P). exact A.
  - rewrite (proj2 (construct_spec valid a kwargs)) in E; [discriminate E|]. intros C. apply all_valid_spec in C. congruence.
Qed.
Theorem failed_keeps : forall (o : operation V) (d : validated V) e, operate o d = Raise e -> after o d = d /\ e = KeyError.
Proof.
  intros o d e E. unfold after. rewrite E. split; [reflexivity|]. destruct o as [k v|a kwargs|k| | | |k v|a]; cbn [operate] in E.
  - unfold set_item in E. destruct (is_valid _ _); [discriminate E|]. injection E as <-. reflexivity.
  - unfold update in E. destruct (all_valid _ _); [discriminate E|]. injection E as <-. reflexivity.
  - unfold delete in E. destruct (dhas _ _); [discriminate E|]. injection E as <-. reflexivity.
  - unfold pop_item in E. destruct (contents d); [|discriminate E]. injection E as <-. reflexivity.
  - discriminate E.
  - unfold unpickled, construct in E. destruct (all_valid _ _); [discriminate E|]. injection E as <-. reflexivity.
  - discriminate E.
  - discriminate E.
Qed.

(** ** The attributes *)
Theorem assign_spec : forall valid (new : option (dict V)) old,
  match new with
  | None => assign valid new = Raise ValueError /\ assigned valid new old = old
  | Some items => is_dict items -> (only valid items -> assigned valid new old = Validated valid items) /\ (~ only valid items -> assign valid new = Raise KeyError /\ assigned valid new old = old)
  end.
Proof.
  intros valid [items|] old; [|split; reflexivity]. intros D. unfold assigned, assign.
  assert (E : construct valid (Pairs items) [] = unpickled (Validated valid items)) by reflexivity. rewrite E. destruct (unpickled_spec (Validated valid items) D) as [U1 U2]. split; intros H.
  - rewrite (U1 H). reflexivity.
  - rewrite (U2 H). split; reflexivity.
Qed.
Theorem initial_params_spec : forall (empty none : V) (power_expected temperature_cell : bool), exists d,
  initial_params empty none power_expected temperature_cell = Ok (Validated valid_filter_params d) /\ sound (Validated valid_filter_params d) /\
  map fst d = (["normalized_filter"; "poa_filter"]%string ++ (if power_expected && negb temperature_cell then [] else ["tcell_filter"%string]) ++ ["clip_filter"; "clearsky_filter"; "ad_hoc_filter"]%string) /\
  (forall k v, In (k, v) d -> v = if string_dec k "ad_hoc_filter" then none else empty).
Proof.
  intros empty none pe tc.
  assert (G : exists d, initial_params empty none pe tc = Ok (Validated valid_filter_params d) /\
     map fst d = (["normalized_filter"; "poa_filter"]%string ++ (if pe && negb tc then [] else ["tcell_filter"%string]) ++ ["clip_filter"; "clearsky_filter"; "ad_hoc_filter"]%string) /\
     (forall k v, In (k, v) d -> v = if string_dec k "ad_hoc_filter" then none else empty)).
  { destruct pe, tc; (eexists; split; [reflexivity|]; split; [reflexivity|]; intros k v I; cbn in I; repeat (destruct I as [I|I]; [injection I as <- <-; reflexivity|]); contradiction). }
  destruct G as (d & E & K & B). exists d. split; [exact E|]. split; [|split; assumption].
  unfold initial_params in E. destruct (construct _ _ _) as [d0|] eqn:EC; [|discriminate E]. cbn [bind] in E. apply constructed_sound in EC. destruct EC as [S K0]. destruct (pe && negb tc)%bool.
  - destruct (operate_sound (Delete "tcell_filter"%string) d0 _ S E) as (_ & _ & S'). apply S'. exact I.
  - injection E as <-. exact S.
Qed.
Theorem initial_params_aggregated_spec : forall (empty none : V),
  initial_params_aggregated empty none = Ok (Validated valid_filter_params_aggregated [("two_way_window_filter", empty); ("ad_hoc_filter", none)]%string).
Proof. reflexivity. Qed.

(** Which parameters can be set. *)
Theorem accepted_keys : forall (empty none v : V) (power_expected temperature_cell : bool) (d : validated V) k,
  initial_params empty none power_expected temperature_cell = Ok d ->
  (exists e, set_item k v d = Ok e) <->
  In k ["normalized_filter"; "poa_filter"; "tcell_filter"; "clip_filter"; "hour_angle_filter"; "clearsky_filter"; "sensor_clearsky_filter"; "ad_hoc_filter"]%string.
Proof.
  intros empty none v pe tc d k E. destruct (initial_params_spec empty none pe tc) as (d' & E' & [D _] & _). rewrite E' in E. injection E as <-.
  destruct (set_item_spec k v _ D) as [S1 S2]. cbn [valid_keys] in S1, S2. change (In k _) with (In k valid_filter_params). split.
  - intros (e & H). destruct (in_dec string_dec k valid_filter_params) as [I|N]; [exact I|]. rewrite (S2 N) in H. discriminate H.
  - intros I. destruct (S1 I) as (e & H & _). eexists. exact H.
Qed.
Theorem accepted_keys_aggregated : forall (empty none v : V) (d : validated V) k, initial_params_aggregated empty none = Ok d ->
  (exists e, set_item k v d = Ok e) <->
  In k ["two_way_window_filter"; "insolation_filter"; "hampel_filter"; "directional_tukey_filter"; "ad_hoc_filter"]%string.
Proof.
  intros empty none v d k E. pose proof E as E'. unfold initial_params_aggregated in E'. apply constructed_sound in E'. destruct E' as [[D _] K].
  destruct (set_item_spec k v d D) as [S1 S2]. rewrite K in S1, S2. change (In k _) with (In k valid_filter_params_aggregated). split.
  - intros (e & H). destruct (in_dec string_dec k valid_filter_params_aggregated) as [I|N]; [exact I|]. rewrite (S2 N) in H. discriminate H.
  - intros I. destruct (S1 I) as (e & H & _). eexists. exact H.
Qed.

(** ** Whole lives *)
Theorem life : forall valid (a : argument V) kwargs (d : validated V) (os : list (operation V)), construct valid a kwargs = Ok d ->
  Forall (fun o => match o with SetDefault _ _ | InPlaceUnion _ => False | _ => True end) os ->
  is_dict (contents (history os d)) /\ only valid (contents (history os d)) /\ valid_keys (history os d) = valid /\ unpickled (history os d) = Ok (history os d).
Proof.
  intros valid a kwargs d os E F. apply constructed_sound in E. destruct E as [S K]. destruct (history_sound os d S F) as [[H1 H2] H3]. rewrite K in H3. rewrite H3 in H2.
  split; [exact H1|]. split; [exact H2|]. split; [exact H3|]. apply (unpickled_spec _ H1). rewrite H3. exact H2.
Qed.
Theorem bypassed : forall k v (d : validated V), is_dict (contents d) -> ~ In k (valid_keys d) -> ~ In k (map fst (contents d)) ->
  (exists e, set_default k v d = Ok e /\ in_place_union (Pairs [(k, v)]) d = Ok e /\ put_all (contents d) [(k, v)] (contents e) /\ ~ only (valid_keys e) (contents e) /\ unpickled e = Raise KeyError).
Proof.
  intros k v d D N1 N2. exists (Validated (valid_keys d) (dset k v (contents d))). unfold set_default, dhas. pose proof (dget_spec k (contents d)) as G. destruct (dget k (contents d)) as [w|].
  - destruct G as (b & l & E & _). contradiction N2. rewrite E, map_app. apply in_or_app. right. left. reflexivity.
  - split; [reflexivity|]. split; [reflexivity|]. pose proof (dset_all_spec [(k, v)] (contents d) D) as P. cbn in P. split; [exact P|].
    assert (O : ~ only (valid_keys d) (dset k v (contents d))). { intros O. apply N1. apply O. apply (put_keys _ _ _ P). right. left. reflexivity. }
    split; [exact O|]. apply unpickled_spec; [apply P|exact O].
Qed.
End Values.

Theorem always_valid_refuted : ~ forall (V : Type) valid (a : argument V) kwargs d os, construct valid a kwargs = Ok d -> only valid (contents (history os d)).
Proof.
  intros H. specialize (H nat ["a"%string] Nothing [] (Validated ["a"%string] []) [SetDefault "b"%string 1] eq_refl "b"%string (or_introl eq_refl)). destruct H as [C|[]]. discriminate C.
Qed.
Theorem update_iterator_refuted : ~ forall (V : Type) (l kwargs : list (string * V)) d e, update (Once l) kwargs d = Ok e -> put_all (contents d) (l ++ kwargs) (contents e).
Proof.
  intros H. destruct (H nat [("a"%string, 1)] [] (Validated ["a"%string] []) (Validated ["a"%string] []) eq_refl) as (_ & B & _).
  specialize (proj2 (B "a"%string 1)). cbn. intros C. apply C. exists [], []. split; [reflexivity|intros []].
Qed.
