(** Combination of filters. *)

From Coq Require Import List ZArith Bool Arith String Sorted Lia.
From Verif.Base Require Import Fl TimeSeries Rolling.
From Verif.Model Require Import FilterDict TrendAnalysis.
From Verif.Spec Require Import FilterSets.
Import ListNotations.
Open Scope list_scope.

(** ** Masks *)
Definition at_ (m : mask) (t : Z) : bool := match mask_at m t with Some b => b | None => false end.
Lemma mask_at_none : forall m t, mask_at m t = None <-> ~ In t (map fst m).
Proof.
  intros m t. unfold mask_at. induction m as [|[u b] m IH]; cbn; [tauto|].
  destruct (Z.eqb_spec u t) as [->|N]; [split; [discriminate|intros H; exfalso; apply H; now left]|].
  rewrite IH. tauto.
Qed.
Lemma mask_at_In : forall m t b, mask_at m t = Some b -> In (t, b) m.
Proof.
  intros m t b. unfold mask_at. induction m as [|[u c] m IH]; cbn; [discriminate|].
  destruct (Z.eqb_spec u t) as [->|N]; [intros E; injection E as ->; now left|intros E; right; exact (IH E)].
Qed.
Lemma at_holds : forall m t, at_ m t = true <-> holds m t.
Proof.
  intros m t. unfold at_, mask_at, holds. induction m as [|[u b] m IH]; cbn.
  - split; [discriminate|]. intros (x & y & E & _). destruct x; discriminate.
  - destruct (Z.eqb_spec u t) as [->|N]; cbn.
    + split.
      * intros ->. exists [], m. split; [reflexivity|tauto].
      * intros (x & y & E & H). destruct x as [|p x]; cbn in E; injection E as E1 E2; [congruence|].
        subst p. exfalso. apply H. now left.
    + rewrite IH. split.
      * intros (x & y & E & H). exists ((u, b) :: x), y. split; [cbn; now rewrite E|]. cbn. intros [->|I]; tauto.
      * intros (x & y & E & H). destruct x as [|p x]; cbn in E; injection E as E1 E2; [congruence|].
        exists x, y. split; [exact E2|]. intros I. apply H. now right.
Qed.
Lemma mask_at_map : forall idx (f : Z -> bool) t, mask_at (map (fun t => (t, f t)) idx) t = if in_dec Z.eq_dec t idx then Some (f t) else None.
Proof.
  intros idx f t. destruct (in_dec Z.eq_dec t idx) as [I|N].
  - unfold mask_at. induction idx as [|u idx IH]; [destruct I|]. cbn. destruct (Z.eqb_spec u t) as [->|Hne]; [reflexivity|].
    apply IH. destruct I; [congruence|assumption].
  - apply mask_at_none. rewrite map_map. cbn. now rewrite map_id.
Qed.
Lemma map_mask_of : forall idx (f : Z -> bool) (keep : Z -> Prop), (forall t, In t idx -> (f t = true <-> keep t)) -> mask_of idx keep (map (fun t => (t, f t)) idx).
Proof.
  intros idx f keep H. split; [rewrite map_map; cbn; apply map_id|]. intros t. rewrite in_map_iff. split.
  - intros (u & E & I). injection E as -> E. split; [exact I|]. now apply H.
  - intros [I K]. exists t. split; [|exact I]. f_equal. now apply H.
Qed.

(** ** Columns *)
Definition with_default (rows : list Z) (parts : list (string * mask)) : list (string * mask) := ("default"%string, map (fun t => (t, true)) rows) :: parts.
Lemma frame_common : forall rows parts, common_index rows parts (frame_index (with_default rows parts)).
Proof.
  intros rows parts. split; [apply zset_sorted|]. intros t. unfold frame_index. rewrite zset_In. unfold with_default. cbn.
  rewrite map_map. cbn. rewrite map_id, in_app_iff, in_flat_map. split.
  - intros [I|([k m] & I & J)]; [now left|]. right. exists k, m. auto.
  - intros [I|(k & m & I & J)]; [now left|]. right. exists (k, m). auto.
Qed.
Lemma frame_parts : forall idx (parts : list (string * mask)), Forall2 (fun (p q : string * mask) => fst q = fst p /\ mask_of idx (holds (snd p)) (snd q)) parts (map (fun c => (fst c, on_index idx (snd c))) parts).
Proof.
  intros idx parts. induction parts as [|p parts IH]; cbn; constructor; [|exact IH]. cbn. split; [reflexivity|].
  unfold on_index. apply map_mask_of. intros t _. apply (at_holds (snd p) t).
Qed.

(** ** The filter given by hand *)
Definition excluded (a : list (Z * option bool)) (t : Z) : bool := existsb (fun r => (fst r =? t)%Z && negb (match snd r with Some true => true | _ => false end)) a.
Lemma excluded_spec : forall a t, negb (excluded a t) = true <-> forall v, In (t, v) a -> v = Some true.
Proof.
  intros a t. unfold excluded. rewrite negb_true_iff. rewrite <- not_true_iff_false, existsb_exists. split.
  - intros H v I. destruct v as [[|]|]; [reflexivity| |]; exfalso; apply H; eexists; (split; [exact I|]); cbn; rewrite Z.eqb_refl; reflexivity.
  - intros H ([u v] & I & E). cbn in E. apply andb_true_iff in E. destruct E as [E1 E2]. apply Z.eqb_eq in E1. subst u.
    rewrite (H v I) in E2. discriminate.
Qed.
Lemma without_missing_times : forall a, map fst (without_missing a) = map fst a.
Proof. intros a. unfold without_missing. rewrite map_map. reflexivity. Qed.
Lemma excluded_none : forall a t, ~ In t (map fst a) -> excluded a t = false.
Proof.
  intros a t H. unfold excluded. rewrite <- not_true_iff_false, existsb_exists. intros ([u v] & I & E). apply andb_true_iff in E. destruct E as [E _].
  apply Z.eqb_eq in E. cbn in E. subst u. apply H. now apply (in_map fst) in I.
Qed.
Lemma has_duplicates_spec : forall l, has_duplicates l = false <-> NoDup l.
Proof.
  induction l as [|t l IH]; cbn; [split; [constructor|reflexivity]|]. rewrite orb_false_iff, IH. split.
  - intros [A B]. constructor; [|exact B]. intros I. assert (existsb (Z.eqb t) l = true) by (apply existsb_exists; exists t; split; [exact I|apply Z.eqb_refl]). congruence.
  - intros N. inversion N as [|x k Nt Nl]; subst. split; [|exact Nl]. apply not_true_is_false. intros A. apply existsb_exists in A. destruct A as (u & I & Eu). apply Z.eqb_eq in Eu. subst u. tauto.
Qed.
Lemma found_cleaned : forall a t, NoDup (map fst a) -> match find (fun r => (fst r =? t)%Z) (without_missing a) with Some (_, Some v) => v | _ => true end = negb (excluded a t).
Proof.
  intros a t. induction a as [|[u v] a IH]; intros N; [reflexivity|]. cbn in N. inversion N as [|x l Hx Hl]; subst. cbn.
  destruct (Z.eqb_spec u t) as [->|Hne].
  - cbn. fold (excluded a t). rewrite (excluded_none a t Hx), orb_false_r. destruct v as [[|]|]; reflexivity.
  - cbn. apply (IH Hl).
Qed.
Lemma direct_cleaned : forall a, NoDup (map fst a) -> map (fun r => (fst r, match snd r with Some v => v | None => true end)) (without_missing a) = map (fun t => (t, negb (excluded a t))) (map fst a).
Proof.
  intros a. induction a as [|[u v] a IH]; intros N; [reflexivity|]. cbn in N. inversion N as [|x l Hx Hl]; subst. cbn.
  f_equal.
  - f_equal. rewrite Z.eqb_refl. fold (excluded a u). rewrite (excluded_none a u Hx), orb_false_r. destruct v as [[|]|]; reflexivity.
  - etransitivity; [exact (IH Hl)|]. apply map_ext_in. intros t I. f_equal. f_equal. destruct (Z.eqb_spec u t) as [->|Hne]; [tauto|reflexivity].
Qed.
Lemma strict_nodup : forall l, StronglySorted Z.lt l -> NoDup l.
Proof.
  intros l H. induction H as [|a l S IH F]; constructor; [|exact IH]. intros I. rewrite Forall_forall in F. specialize (F a I). lia.
Qed.
Lemma column_spec : forall idx a, StronglySorted Z.lt idx ->
  ad_hoc_column idx a = if has_duplicates (map fst a) then Raise ValueError else Ok (map (fun t => (t, negb (excluded a t))) idx).
Proof.
  intros idx a S. unfold ad_hoc_column. rewrite without_missing_times. unfold same_index. destruct (list_eq_dec Z.eq_dec idx (map fst a)) as [E|N].
  - assert (D : NoDup (map fst a)) by (rewrite <- E; now apply strict_nodup). rewrite (proj2 (has_duplicates_spec _) D), E. f_equal. now apply direct_cleaned.
  - destruct (has_duplicates (map fst a)) eqn:D; [reflexivity|]. apply has_duplicates_spec in D. f_equal. apply map_ext. intros t. f_equal. now apply found_cleaned.
Qed.

Section Sets.
Context {P W T O YK SK YR SR : Type}.
Local Notation env := (environment P W T O YK SK YR SR).
Local Notation st := (state P W T O YR SR).

Lemma dget_dset : forall {V} (k k' : string) (v : V) d, dget k' (dset k v d) = if String.eqb k k' then Some v else dget k' d.
Proof.
  intros V k k' v d. induction d as [|[q w] d IH]; cbn; [destruct (String.eqb_spec k k'); reflexivity|].
  destruct (String.eqb_spec q k) as [->|N]; cbn.
  - destruct (String.eqb_spec k k'); reflexivity.
  - destruct (String.eqb_spec q k') as [->|N']; [|exact IH]. destruct (String.eqb_spec k k'); [congruence|reflexivity].
Qed.
Lemma dset_same_keys : forall {V} (k : string) (v : V) d, dget k d <> None -> map fst (dset k v d) = map fst d.
Proof.
  intros V k v d. induction d as [|[q w] d IH]; cbn; [tauto|]. destruct (String.eqb_spec q k) as [->|N]; cbn; [reflexivity|].
  intros H. f_equal. exact (IH H).
Qed.
Definition cleaned (d : validated (setting P)) : validated (setting P) :=
  match dget "ad_hoc_filter" (contents d) with
  | Some (AdHoc a) => Validated (valid_keys d) (dset "ad_hoc_filter" (AdHoc (without_missing a)) (contents d))
  | _ => d
  end.
Lemma cleaned_spec : forall d, missing_excluded (contents d) (contents (cleaned d)) /\ valid_keys (cleaned d) = valid_keys d.
Proof.
  intros d. unfold cleaned, missing_excluded. destruct (dget "ad_hoc_filter" (contents d)) as [[|p|a]|] eqn:G; auto. cbn [contents valid_keys].
  split; [|reflexivity]. split; [apply dset_same_keys; congruence|]. split.
  - intros k Hk. rewrite dget_dset. destruct (String.eqb_spec "ad_hoc_filter" k); [congruence|reflexivity].
  - exists (without_missing a). split; [rewrite dget_dset; reflexivity|]. clear G. induction a as [|[u v] a IH]; cbn; constructor; [|exact IH].
    cbn. split; [reflexivity|]. destruct v; reflexivity.
Qed.
Lemma ad_hoc_params : forall idx d, fst (ad_hoc idx d) = cleaned d.
Proof. intros idx d. unfold ad_hoc, cleaned. destruct (dget "ad_hoc_filter" (contents d)) as [[|p|a]|]; reflexivity. Qed.
Definition hand_column (d : dict (setting P)) (idx : list Z) : list (string * mask) :=
  match by_hand d with None => [] | Some a => [("ad_hoc_filter"%string, map (fun t => (t, negb (excluded a t))) idx)] end.
Lemma ad_hoc_result : forall idx d, StronglySorted Z.lt idx ->
  match snd (ad_hoc idx d) with
  | Ok extra => hand_ok (contents d) /\ (forall e, ~ hand_fails (contents d) idx e) /\ extra = hand_column (contents d) idx
  | Raise e => hand_fails (contents d) idx e
  end.
Proof.
  intros idx d S. unfold ad_hoc, hand_ok, hand_fails, hand_column, by_hand.
  destruct (dget "ad_hoc_filter" (contents d)) as [[|p|a]|] eqn:G; cbn [snd]; try (repeat split; try congruence; tauto).
  rewrite (column_spec idx a S). destruct (has_duplicates (map fst a)) eqn:D; cbn [bind].
  - assert (N : ~ NoDup (map fst a)) by (intros H; apply has_duplicates_spec in H; congruence).
    split; [|auto]. intros E. apply N. rewrite E. now apply strict_nodup.
  - split; [congruence|]. split; [|reflexivity]. intros e (_ & H & _). apply H. now apply has_duplicates_spec.
Qed.

(** ** All filters together *)
Lemma all_of_spec : forall rows parts d, let idx := frame_index (with_default rows parts) in
  mask_of idx (kept rows parts (rows_by_hand d)) (all_of idx (frame (with_default rows parts) ++ hand_column d idx)).
Proof.
  intros rows parts d idx. unfold all_of. apply map_mask_of. intros t I. rewrite forallb_app, andb_true_iff. unfold frame.
  fold idx. unfold with_default at 1. cbn [map forallb fst snd]. rewrite andb_true_iff.
  assert (M : forall m, match mask_at (on_index idx m) t with Some b => b | None => true end = at_ m t).
  { intros m. unfold on_index. rewrite (mask_at_map idx (fun t => match mask_at m t with Some b => b | None => false end) t). destruct (in_dec Z.eq_dec t idx); [reflexivity|tauto]. }
  rewrite M. unfold kept. assert (D : at_ (map (fun t => (t, true)) rows) t = true <-> In t rows).
  { unfold at_. rewrite (mask_at_map rows (fun _ => true) t). destruct (in_dec Z.eq_dec t rows); split; easy. }
  rewrite D. assert (A : forallb (fun c => match mask_at (snd c) t with Some b => b | None => true end) (map (fun c => (fst c, on_index idx (snd c))) parts) = true <-> forall k m, In (k, m) parts -> holds m t).
  { rewrite forallb_forall. split.
    - intros H k m J. specialize (H _ (in_map (fun c => (fst c, on_index idx (snd c))) _ _ J)). cbn [fst snd] in H. rewrite M in H. now apply at_holds.
    - intros H q J. apply in_map_iff in J. destruct J as ([k m] & <- & J). cbn [fst snd]. rewrite M. apply at_holds. exact (H k m J). }
  rewrite A. assert (B : forallb (fun c => match mask_at (snd c) t with Some b => b | None => true end) (hand_column d idx) = true <-> forall v, In (t, v) (rows_by_hand d) -> v = Some true).
  { unfold hand_column, rows_by_hand. destruct (by_hand d) as [a|]; cbn [forallb snd]; [|split; [intros _ v []|reflexivity]].
    rewrite (mask_at_map idx (fun t => negb (excluded a t)) t). destruct (in_dec Z.eq_dec t idx); [|tauto]. rewrite andb_true_r. apply excluded_spec. }
  rewrite B. tauto.
Qed.
Lemma stored_spec : forall rows parts d, let idx := frame_index (with_default rows parts) in
  stored_parts idx parts (by_hand d) (tl (frame (with_default rows parts)) ++ hand_column d idx).
Proof.
  intros rows parts d idx. unfold stored_parts. exists (map (fun c => (fst c, on_index idx (snd c))) parts). split; [|apply frame_parts].
  unfold frame. fold idx. cbn [with_default map tl]. f_equal.
Qed.

(** ** Components *)
Section Parts.
Variables (use_ : string -> Prop) (give : string -> mask -> Prop) (fail : string -> exn -> Prop).
Definition step_ok (k : string) (r : result (list (string * mask))) : Prop :=
  (~ use_ k /\ r = Ok []) \/ (use_ k /\ match r with Ok l => exists m, give k m /\ l = [(k, m)] | Raise e => fail k e end).
Lemma all_parts_spec : forall order l, Forall2 step_ok order l ->
  match all_parts l with Ok parts => parts_of use_ give order parts | Raise e => parts_fail use_ give fail order e end.
Proof.
  intros order l H. induction H as [|k r order l S F IH]; cbn; [constructor|].
  destruct S as [[N ->]|[U S]]; cbn [bind].
  - destruct (all_parts l) as [parts|e]; cbn; [now apply part_unused|].
    destruct IH as (b & k' & a & -> & (q & Q) & R). exists (k :: b), k', a. split; [reflexivity|]. split; [|exact R]. exists q. now apply part_unused.
  - destruct r as [x|e]; cbn [bind].
    + destruct S as (m & G & ->). destruct (all_parts l) as [parts|e]; cbn; [now apply part_used|].
      destruct IH as (b & k' & a & -> & (q & Q) & R). exists (k :: b), k', a. split; [reflexivity|]. split; [|exact R]. exists ((k, m) :: q). now apply part_used.
    + exists [], k, order. split; [reflexivity|]. split; [exists []; constructor|]. auto.
Qed.
End Parts.

Lemma kwargs_cases : forall v : setting P, (exists p, v = Kwargs p /\ kwargs v = Ok p) \/ ((forall p, v <> Kwargs p) /\ kwargs v = Raise TypeError).
Proof. intros [|p|a]; [right|left; eauto|right]; (split; [congruence|reflexivity]). Qed.

(** One filter: either it lacks something, or it is applied to [x]. *)
Lemma part_step : forall {A} (use_ : string -> Prop) (lack : string -> exn -> Prop) (run : string -> P -> result mask -> Prop) (params : dict (setting P)) k (input : result A) f,
  (use_ k <-> dget k params <> None) ->
  match input with Ok x => (forall e, ~ lack k e) /\ (forall p, run k p (f p x)) | Raise e => lack k e end ->
  step_ok use_ (gives lack run params) (fails lack run params) k (part params k input f).
Proof.
  intros A use_ lack run params k input f U H. unfold step_ok, part. destruct (dget k params) as [v|] eqn:G; [|left; split; [rewrite U; tauto|reflexivity]].
  right. split; [apply U; discriminate|]. destruct input as [x|e]; cbn [bind]; [|left; exact H]. destruct H as [L R].
  destruct (kwargs_cases v) as [(p & -> & ->)|[N ->]]; cbn [bind].
  - specialize (R p). destruct (f p x) as [m|e] eqn:F; cbn [bind].
    + exists m. split; [|reflexivity]. split; [exact L|]. exists p. auto.
    + right. split; [exact L|]. right. right. exists p. auto.
  - right. split; [exact L|]. right. left. exists v. auto.
Qed.
Lemma clearsky_step : forall (E : env) c energy (s : st) k, In k ["clearsky_filter"; "sensor_clearsky_filter"]%string ->
  match call_clearsky_filter E s (params_of s) k with
  | Ok l => exists m, gives (lacks c s) (call E c energy s) (params_of s) k m /\ l = [(k, m)]
  | Raise e => fails (lacks c s) (call E c energy s) (params_of s) k e
  end.
Proof.
  intros E c energy s k K. unfold call_clearsky_filter.
  destruct (i_poa (s_inputs s)) as [poa|] eqn:Ip; cbn [need bind]; [|left; now apply lacks_measured].
  destruct (c_clear_poa (s_completed s)) as [| |clear] eqn:Ic; cbn [read need bind];
    [left; apply lacks_any_modelled; congruence|left; apply lacks_modelled; congruence|].
  assert (L : forall e, ~ lacks c s k e).
  { intros e L. destruct L; try congruence; cbn in K; destruct K as [K|[K|[]]]; discriminate K. }
  destruct (dget k (params_of s)) as [v|] eqn:G; cbn [need bind]; [|right; split; [exact L|left; auto]].
  destruct (kwargs_cases v) as [(p & -> & ->)|[N ->]]; cbn [bind].
  - assert (R : call E c energy s k p (e_clearsky E p poa clear)) by now apply call_clearsky.
    destruct (e_clearsky E p poa clear) as [m|e]; cbn [bind].
    + exists m. split; [|reflexivity]. split; [exact L|]. eauto.
    + right. split; [exact L|]. right. right. eauto.
  - right. split; [exact L|]. right. left. exists v. auto.
Qed.

Theorem components_spec : forall (E : env) c energy (s : st),
  match components E c energy s with
  | Ok parts => components_are E c energy s parts
  | Raise e => components_fail E c energy s e
  end.
Proof.
  intros E c energy s. unfold components. cbv zeta.
  set (pt := match c with Sensor => Ok (i_poa (s_inputs s), c_cell (s_completed s)) | Clearsky => _ end).
  assert (Hpt : match pt with Ok x => readable c s /\
      (match fst x with None => lacks c s "poa_filter" ValueError | Some v => (forall e, ~ lacks c s "poa_filter" e) /\ (forall p, call E c energy s "poa_filter" p (e_poa E p v)) end) /\
      (match snd x with None => lacks c s "tcell_filter" ValueError | Some v => (forall e, ~ lacks c s "tcell_filter" e) /\ (forall p, call E c energy s "tcell_filter" p (e_tcell E p v)) end)
      | Raise e => ~ readable c s /\ e = AttributeError end).
  { subst pt. unfold readable. destruct c.
    - split; [discriminate|]. cbn [fst snd]. split.
      + destruct (i_poa (s_inputs s)) as [v|] eqn:G; [|now constructor]. split; [|intros p; now apply call_poa].
        intros e L. inversion L; subst; try congruence; cbn in *; intuition discriminate.
      + destruct (c_cell (s_completed s)) as [v|] eqn:G; [|now constructor]. split; [|intros p; now apply call_cell].
        intros e L. inversion L; subst; try congruence; cbn in *; intuition discriminate.
    - destruct (c_clear_poa (s_completed s)) as [| |v] eqn:G; cbn [read bind]; [split; [intros H; now destruct (H eq_refl)|reflexivity]| |].
      all: destruct (c_clear_cell (s_completed s)) as [| |w] eqn:G'; cbn [read bind]; [split; [intros H; now destruct (H eq_refl)|reflexivity]| |].
      all: split; [intros _; split; congruence|]; cbn [fst snd]; split; try (now constructor).
      all: split; [|intros p; first [now apply call_clear_poa|now apply call_clear_cell]].
      all: intros e L; inversion L; subst; try congruence; cbn in *; intuition discriminate. }
  destruct pt as [[poa cell]|e]; cbn [bind fst snd]; [|left; exact Hpt].
  cbn [fst snd] in Hpt. destruct Hpt as (Rd & Hpoa & Hcell).
  assert (U : forall k, String.eqb k "clearsky_filter" = false -> used c (params_of s) k <-> dget k (params_of s) <> None).
  { intros k K. unfold used. rewrite K. reflexivity. }
  match goal with |- match all_parts ?l with _ => _ end =>
    pose proof (all_parts_spec (used c (params_of s)) (gives (lacks c s) (call E c energy s) (params_of s)) (fails (lacks c s) (call E c energy s) (params_of s)) filter_order l) as A;
    assert (F : Forall2 (step_ok (used c (params_of s)) (gives (lacks c s) (call E c energy s) (params_of s)) (fails (lacks c s) (call E c energy s) (params_of s))) filter_order l)
  end.
  { constructor; [|constructor; [|constructor; [|constructor; [|constructor; [|constructor; [|constructor; [|constructor]]]]]]].
    - apply part_step; [now apply U|]. split; [intros e L; inversion L; subst; cbn in *; intuition discriminate|]. intros p. apply call_normalized.
    - apply part_step; [now apply U|]. destruct poa as [v|]; exact Hpoa.
    - apply part_step; [now apply U|]. destruct cell as [v|]; exact Hcell.
    - apply part_step; [now apply U|]. destruct (i_power (s_inputs s)) as [| |v] eqn:G; cbn [read need bind]; try (now constructor).
      split; [|intros p; now apply call_clip]. intros e L. inversion L; subst; try congruence; cbn in *; intuition discriminate.
    - apply part_step; [now apply U|]. destruct (i_location (s_inputs s)) as [| |v] eqn:G; try (now constructor).
      split; [|intros p; now apply call_hour_angle]. intros e L. inversion L; subst; try congruence; cbn in *; intuition discriminate.
    - unfold step_ok, used. cbn [String.eqb]. destruct c; [left; split; [discriminate|reflexivity]|]. right. split; [reflexivity|].
      apply clearsky_step. now left.
    - unfold step_ok. rewrite (U "sensor_clearsky_filter"%string eq_refl). fold (params_of s). destruct (dget "sensor_clearsky_filter" (params_of s)) eqn:G.
      + right. split; [congruence|]. apply clearsky_step. right. now left.
      + left. split; [tauto|reflexivity]. }
  specialize (A F). destruct (all_parts _) as [parts|e]; [split; assumption|right; split; assumption].
Qed.

Theorem components_aggregated_spec : forall (E : env) c aggregated insolation (s : st), d_insolation (side_of c s) = Present insolation ->
  match components_aggregated E c aggregated s with
  | Ok parts => aggregated_are E aggregated insolation s parts
  | Raise e => aggregated_fail E aggregated insolation s e
  end.
Proof.
  intros E c aggregated insolation s I. unfold components_aggregated. rewrite I. cbn [read bind need]. cbv zeta.
  apply all_parts_spec.
  constructor; [|constructor; [|constructor; [|constructor; [|constructor]]]]; (apply part_step; [reflexivity|]); (split; [intros e []|]); intros p; constructor.
Qed.

(** ** The methods *)
Lemma default_where : forall s : series, where_ (fun _ => true) s = map (fun t => (t, true)) (times s).
Proof. intros s. unfold where_, times. now rewrite map_map. Qed.

Theorem filter_spec : forall (E : env) c energy (s : st),
  match filter_ E c energy s with
  | (s', Raise e) =>
    (components_fail E c energy s e /\ s' = s) \/
    (exists parts d idx, components_are E c energy s parts /\ common_index (times energy) parts idx /\ hand_fails (params_of s) idx e /\
       missing_excluded (params_of s) (contents d) /\ valid_keys d = valid_keys (c_params (s_completed s)) /\ s' = with_params s d)
  | (s', Ok _) =>
    exists parts d idx m stored, components_are E c energy s parts /\ common_index (times energy) parts idx /\ hand_ok (params_of s) /\ (forall e, ~ hand_fails (params_of s) idx e) /\
      missing_excluded (params_of s) (contents d) /\ valid_keys d = valid_keys (c_params (s_completed s)) /\
      mask_of idx (kept (times energy) parts (rows_by_hand (params_of s))) m /\ stored_parts idx parts (by_hand (params_of s)) stored /\
      s' = with_side c (with_params s d) (set_filter m stored)
  end.
Proof.
  intros E c energy s. unfold filter_, next, ask, complete, store. pose proof (components_spec E c energy s) as C.
  destruct (components E c energy s) as [parts|e]; [|left; auto].
  cbv beta zeta iota. rewrite default_where. change (@cons (string * mask) ("default"%string, map (fun t => (t, true)) (times energy)) parts) with (with_default (times energy) parts). set (idx := frame_index (with_default (times energy) parts)).
  assert (CI : common_index (times energy) parts idx) by apply frame_common.
  pose proof (ad_hoc_result idx (c_params (s_completed s)) (proj1 CI)) as R. pose proof (ad_hoc_params idx (c_params (s_completed s))) as Pd.
  destruct (cleaned_spec (c_params (s_completed s))) as [M V].
  destruct (ad_hoc idx (c_params (s_completed s))) as [d [extra|e]]; cbn [fst snd] in R, Pd; subst d; cbn [fst snd].
  - destruct R as (H1 & H2 & ->). exists parts, (cleaned (c_params (s_completed s))), idx. do 2 eexists.
    split; [exact C|]. split; [exact CI|]. split; [exact H1|]. split; [exact H2|]. split; [exact M|]. split; [exact V|].
    split; [apply (all_of_spec (times energy) parts (params_of s))|]. split; [apply (stored_spec (times energy) parts (params_of s))|].
    unfold with_side. destruct c; reflexivity.
  - right. exists parts, (cleaned (c_params (s_completed s))), idx. auto 10.
Qed.

Theorem aggregated_filter_spec : forall (E : env) c aggregated insolation (s : st), d_insolation (side_of c s) = Present insolation ->
  match aggregated_filter E c aggregated s with
  | (s', Raise e) =>
    (aggregated_fail E aggregated insolation s e /\ s' = s) \/
    (exists parts d idx, aggregated_are E aggregated insolation s parts /\ common_index (times aggregated) parts idx /\ hand_fails (aggregated_params_of s) idx e /\
       missing_excluded (aggregated_params_of s) (contents d) /\ valid_keys d = valid_keys (c_params_aggregated (s_completed s)) /\ s' = with_params_aggregated s d)
  | (s', Ok _) =>
    exists parts d idx m stored, aggregated_are E aggregated insolation s parts /\ common_index (times aggregated) parts idx /\ hand_ok (aggregated_params_of s) /\ (forall e, ~ hand_fails (aggregated_params_of s) idx e) /\
      missing_excluded (aggregated_params_of s) (contents d) /\ valid_keys d = valid_keys (c_params_aggregated (s_completed s)) /\
      mask_of idx (kept (times aggregated) parts (rows_by_hand (aggregated_params_of s))) m /\ stored_parts idx parts (by_hand (aggregated_params_of s)) stored /\
      s' = with_side c (with_params_aggregated s d) (set_filter_aggregated m stored)
  end.
Proof.
  intros E c aggregated insolation s I. unfold aggregated_filter, next, ask, complete, store. pose proof (components_aggregated_spec E c aggregated insolation s I) as C.
  destruct (components_aggregated E c aggregated s) as [parts|e]; [|left; auto].
  cbv beta zeta iota. rewrite default_where. change (@cons (string * mask) ("default"%string, map (fun t => (t, true)) (times aggregated)) parts) with (with_default (times aggregated) parts). set (idx := frame_index (with_default (times aggregated) parts)).
  assert (CI : common_index (times aggregated) parts idx) by apply frame_common.
  pose proof (ad_hoc_result idx (c_params_aggregated (s_completed s)) (proj1 CI)) as R. pose proof (ad_hoc_params idx (c_params_aggregated (s_completed s))) as Pd.
  destruct (cleaned_spec (c_params_aggregated (s_completed s))) as [M V].
  destruct (ad_hoc idx (c_params_aggregated (s_completed s))) as [d [extra|e]]; cbn [fst snd] in R, Pd; subst d; cbn [fst snd].
  - destruct R as (H1 & H2 & ->). exists parts, (cleaned (c_params_aggregated (s_completed s))), idx. do 2 eexists.
    split; [exact C|]. split; [exact CI|]. split; [exact H1|]. split; [exact H2|]. split; [exact M|]. split; [exact V|].
    split; [apply (all_of_spec (times aggregated) parts (aggregated_params_of s))|]. split; [apply (stored_spec (times aggregated) parts (aggregated_params_of s))|].
    unfold with_side. destruct c; reflexivity.
  - right. exists parts, (cleaned (c_params_aggregated (s_completed s))), idx. auto 10.
Qed.
End Sets.
