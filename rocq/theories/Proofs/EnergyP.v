(** Energy from power. *)

From Coq Require Import QArith Qcanon List ZArith Bool Permutation Sorted Lia Arith.
From Verif.Base Require Import QcExtra ISort Quantile Fl TimeSeries Segments.
From Verif.Spec Require Import Stats Interp Energy.
From Verif.Model Require Import Interpolation Energy.
From Verif.Proofs Require Import StatsP FlP YoYP YoYP2 InterpP.
Import ListNotations.
Open Scope Qc_scope.

(** ** Rows with values *)

Definition as_rows (P : list (Z * Qc)) : series := map (fun p => (fst p, Fin (snd p))) P.

Lemma available_points : forall s, noinf (vals s) -> available s = as_rows (points s).
Proof.
  induction s as [| [t v] s IH]; intros H; [reflexivity |].
  assert (noinf (vals s)) as H' by (intros x Hx; apply H; right; exact Hx).
  destruct (H v (or_introl eq_refl)). destruct v as [| | q |]; try congruence; [exact (IH H') | exact (f_equal (cons (t, Fin q)) (IH H'))].
Qed.

Lemma points_In : forall s t q, In (t, q) (points s) <-> In (t, Fin q) s.
Proof.
  induction s as [| [u v] s IH]; intros t q; [reflexivity |].
  destruct v as [| | w |]; cbn [points In]; rewrite IH; intuition congruence.
Qed.

Lemma points_sorted : forall s, sorted_index s -> StronglySorted Z.lt (map fst (points s)).
Proof.
  induction s as [| [u v] s IH]; intros HS; [constructor |]. apply sorted_cons_inv in HS. destruct HS as [HS F].
  destruct v as [| | w |]; cbn [points]; auto. cbn [map fst]. constructor; [apply IH, HS |].
  apply Forall_forall. intros t Ht. apply in_map_iff in Ht. destruct Ht as ([t' q] & <- & Ht).
  apply points_In in Ht. exact (F _ _ Ht).
Qed.

Lemma as_rows_times : forall P, times (as_rows P) = map fst P.
Proof. intros P. unfold times, as_rows. rewrite map_map. reflexivity. Qed.

Lemma psorted_inv : forall (x : Z * Qc) P, StronglySorted Z.lt (map fst (x :: P)) ->
  StronglySorted Z.lt (map fst P) /\ forall p, In p P -> (fst x < fst p)%Z.
Proof.
  intros x P H. cbn [map] in H. apply StronglySorted_inv in H. destruct H as [H F]. split; [exact H |].
  intros p Hp. rewrite Forall_forall in F. apply F, in_map, Hp.
Qed.

(** ** The step a time lies in *)

Definition pair_at (P : list (Z * Qc)) (t : Z) : option ((Z * Qc) * (Z * Qc)) :=
  find (fun pr => (fst (fst pr) <? t)%Z && (t <=? fst (snd pr))%Z) (consec P).

Lemma pair_at_Some : forall P t pr, pair_at P t = Some pr ->
  In pr (consec P) /\ (fst (fst pr) < t <= fst (snd pr))%Z.
Proof.
  intros P t pr H. apply find_some in H. destruct H as [H1 H2]. split; [exact H1 | lia].
Qed.

Lemma consec_fst : forall A (l : list A) a b, In (a, b) (consec l) -> In a l /\ In b l.
Proof.
  intros A l a b H. apply consec_In in H. destruct H as (l1 & l2 & ->).
  split; apply in_or_app; right; [left | right; left]; reflexivity.
Qed.

Lemma sorted_consec : forall P (a b : Z * Qc), StronglySorted Z.lt (map fst P) -> In (a, b) (consec P) ->
  (fst a < fst b)%Z /\ forall p, In p P -> (fst p <= fst a \/ fst b <= fst p)%Z.
Proof.
  intros P a b HS H. apply consec_In in H. destruct H as (l1 & l2 & ->). rewrite map_app in HS. cbn [map] in HS.
  induction l1 as [| x l1 IH]; cbn [app map] in *.
  - apply StronglySorted_inv in HS. destruct HS as [HS F]. pose proof (Forall_inv F) as Hab. split; [exact Hab |].
    intros p [<- | [<- | Hp]]; [lia | lia |]. apply StronglySorted_inv in HS. destruct HS as [_ F'].
    rewrite Forall_forall in F'. right. assert (fst b < fst p)%Z by (apply F', in_map, Hp). lia.
  - apply StronglySorted_inv in HS. destruct HS as [HS F]. destruct (IH HS) as [A B]. split; [exact A |].
    intros p [<- | Hp]; [| apply B, Hp]. rewrite Forall_forall in F.
    assert (fst x < fst a)%Z by (apply F, in_or_app; right; left; reflexivity). lia.
Qed.

Lemma pair_at_unique : forall P t a b, StronglySorted Z.lt (map fst P) -> In (a, b) (consec P) ->
  (fst a < t <= fst b)%Z -> pair_at P t = Some (a, b).
Proof.
  induction P as [| x P IH]; intros t a b HS H Ht; [destruct H |]. destruct P as [| y P]; [destruct H |].
  rewrite consec_cons in H. unfold pair_at. rewrite consec_cons. cbn [find fst snd].
  destruct H as [H | H].
  - injection H as -> ->. assert ((fst a <? t) && (t <=? fst b) = true)%Z as -> by lia. reflexivity.
  - assert (fst y <= fst a)%Z.
    { destruct (consec_fst _ _ _ _ H) as [[<- | Ha] _]; [lia |]. apply psorted_inv in HS.
      destruct HS as [HS _]. apply psorted_inv in HS. destruct HS as [_ F].
      specialize (F _ Ha). lia. }
    assert ((fst x <? t) && (t <=? fst y) = false)%Z as -> by lia.
    apply IH; auto. apply psorted_inv in HS. apply HS.
Qed.

(** Between the first and the last row every time lies in a step. *)
Lemma pair_at_ex : forall P t p0 pn, StronglySorted Z.lt (map fst P) -> In p0 P -> In pn P ->
  (fst p0 < t <= fst pn)%Z -> exists pr, pair_at P t = Some pr.
Proof.
  induction P as [| x P IH]; intros t p0 pn HS H0 Hn Ht; [destruct H0 |].
  destruct P as [| y P].
  - destruct H0 as [<- | []], Hn as [<- | []]. lia.
  - unfold pair_at. rewrite consec_cons. cbn [find fst snd].
    destruct ((fst x <? t) && (t <=? fst y))%Z eqn:E; [eauto |].
    pose proof (psorted_inv _ _ HS) as [HS' F].
    assert (fst x < fst y)%Z as Hxy by (apply F; left; reflexivity).
    assert (fst x <= fst p0)%Z.
    { destruct H0 as [<- | H0]; [lia |]. specialize (F _ H0). lia. }
    apply (IH t y pn); [exact HS' | left; reflexivity | | lia].
    destruct Hn as [<- | Hn]; [lia | exact Hn].
Qed.

Lemma pair_at_None : forall P t, StronglySorted Z.lt (map fst P) -> pair_at P t = None ->
  (forall p, In p P -> (t <= fst p)%Z) \/ (forall p, In p P -> (fst p < t)%Z).
Proof.
  intros P t HS H. destruct P as [| x P]; [left; intros p [] |].
  destruct (Z_lt_le_dec (fst x) t) as [L | L].
  - right. intros p Hp. destruct (Z_lt_le_dec (fst p) t) as [K | K]; [exact K | exfalso].
    destruct (pair_at_ex (x :: P) t x p HS (or_introl eq_refl) Hp ltac:(lia)) as [pr E]. congruence.
  - left. intros p [<- | Hp]; [exact L |]. apply psorted_inv in HS. destruct HS as [_ F].
    specialize (F _ Hp). lia.
Qed.

Lemma pair_at_same : forall P t t' a b, StronglySorted Z.lt (map fst P) -> pair_at P t = Some (a, b) ->
  (fst a < t' <= fst b)%Z -> pair_at P t' = Some (a, b).
Proof.
  intros P t t' a b HS H Ht. apply pair_at_unique; auto. apply pair_at_Some in H. apply H.
Qed.

(** ** Steps and back filling *)

Lemma gap_bfill_from : forall P a t, StronglySorted Z.lt (map fst (a :: P)) -> (fst a < t)%Z ->
  lookup_bfill (combine (map fst P) (steps_from (fst a) (map fst P))) t =
  match pair_at (a :: P) t with Some pr => fz (fst (snd pr) - fst (fst pr)) | None => NaN end.
Proof.
  induction P as [| b P IH]; intros a t HS Ht; [reflexivity |].
  cbn [map steps_from combine]. unfold pair_at. rewrite consec_cons. cbn [find fst snd].
  pose proof (psorted_inv _ _ HS) as [HS' F].
  unfold lookup_bfill. cbn [find fst]. destruct (t <=? fst b)%Z eqn:E.
  - assert (fst a <? t = true)%Z as -> by lia. reflexivity.
  - rewrite andb_false_r. apply Z.leb_gt in E. apply (IH b t HS' E).
Qed.

Lemma gap_bfill : forall P t, StronglySorted Z.lt (map fst P) ->
  lookup_bfill (combine (map fst P) (time_diffs (map fst P))) t =
  match pair_at P t with Some pr => fz (fst (snd pr) - fst (fst pr)) | None => NaN end.
Proof.
  intros [| a P] t HS; [reflexivity |]. cbn [map time_diffs combine].
  destruct (Z_lt_le_dec (fst a) t) as [L | L].
  - rewrite <- gap_bfill_from by assumption. unfold lookup_bfill. cbn [find fst].
    assert (t <=? fst a = false)%Z as -> by lia. reflexivity.
  - unfold lookup_bfill. cbn [find fst]. assert (t <=? fst a = true)%Z as -> by lia. cbn [snd].
    destruct (pair_at (a :: P) t) as [[p q] |] eqn:E; [| reflexivity]. exfalso.
    apply pair_at_Some in E. destruct E as [E1 E2]. cbn [fst snd] in *.
    destruct (consec_fst _ _ _ _ E1) as [[<- | Hp] _]; [lia |].
    apply psorted_inv in HS. destruct HS as [_ F]. specialize (F _ Hp). lia.
Qed.

Lemma value_bfill : forall P t, StronglySorted Z.lt (map fst P) ->
  lookup_bfill (as_rows P) t =
  match pair_at P t with
  | Some pr => Fin (snd (snd pr))
  | None => match P with p :: _ => if (t <=? fst p)%Z then Fin (snd p) else NaN | [] => NaN end
  end.
Proof.
  induction P as [| a P IH]; intros t HS; [reflexivity |]. destruct P as [| b P].
  - unfold lookup_bfill, pair_at. cbn. destruct (t <=? fst a)%Z; reflexivity.
  - pose proof (psorted_inv _ _ HS) as [HS' F].
    specialize (IH t HS'). unfold pair_at in *. rewrite consec_cons. cbn [find fst snd].
    unfold lookup_bfill in *. cbn [as_rows map find fst] in *.
    destruct (t <=? fst a)%Z eqn:E1.
    + cbn [snd]. assert (fst a <? t = false)%Z as -> by lia. cbn [andb].
      fold (pair_at (b :: P) t). destruct (pair_at (b :: P) t) as [[p q] |] eqn:E; [| reflexivity]. exfalso.
      apply pair_at_Some in E. destruct E as [K1 K2]. cbn [fst snd] in *.
      destruct (consec_fst _ _ _ _ K1) as [Hp _].
      specialize (F _ Hp). lia.
    + assert (fst a <? t = true)%Z as -> by lia. cbn [andb]. destruct (t <=? fst b)%Z eqn:E2; [reflexivity |].
      exact IH.
Qed.

(** ** Masked values, right labelled *)

Section Aggregate.
  Variable s : series.
  Variable width : Z.
  Variable limit : Qc.
  Variable t0 : Z.
  Variable v0 : fl.
  Variable rest : series.
  Hypothesis Hs : s = (t0, v0) :: rest.
  Hypothesis HS : sorted_index s.
  Hypothesis HI : noinf (vals s).
  Hypothesis HW : (0 < width)%Z.

  Lemma first_le : forall t v, In (t, v) s -> (t0 <= t)%Z.
  Proof.
    intros t v H. rewrite Hs in H. destruct H as [H | H]; [injection H; lia |].
    rewrite Hs in HS. apply sorted_cons_inv in HS. destruct HS as [_ F]. specialize (F _ _ H). cbn in F. lia.
  Qed.

  Lemma last_row : In (fst (List.last s (t0, NaN))) (times s) /\
    forall t, In t (times s) -> (t <= fst (List.last s (t0, NaN)))%Z.
  Proof.
    pose proof HS as H1. unfold sorted_index, times in *. rewrite Hs in H1. rewrite Hs.
    destruct (exists_last (l := (t0, v0) :: rest) ltac:(discriminate)) as (k & x & E).
    rewrite E in *. rewrite last_last. clear E Hs HS HI. rewrite map_app in *.
    split; [apply in_or_app; right; left; reflexivity |]. intros t Ht.
    apply in_app_or in Ht. destruct Ht as [Ht | [<- | []]]; [| lia].
    induction k as [| y k IH]; [destruct Ht |]. cbn [map app] in H1. apply StronglySorted_inv in H1. destruct H1 as [H1 F].
    destruct Ht as [<- | Ht]; [| auto]. rewrite Forall_forall in F.
    assert (fst y < fst x)%Z by (apply F, in_or_app; right; left; reflexivity). lia.
  Qed.

  Lemma last_ge : (t0 <= fst (List.last s (t0, NaN)))%Z.
  Proof. apply (proj2 last_row). rewrite Hs. left. reflexivity. Qed.

  Let P := points s.
  Let last := fst (List.last s (t0, NaN)).
  Let labels := bin_labels t0 width last.
  Let union := zset (times s ++ labels).
  Let stop := List.last labels t0.

  Lemma P_sorted : StronglySorted Z.lt (map fst P).
  Proof. apply points_sorted, HS. Qed.

  Lemma union_sorted : StronglySorted Z.lt union.
  Proof. apply zset_sorted. Qed.

  Lemma labels_In : forall t, In t labels <-> exists k, (0 <= k <= cdiv (last - t0) width)%Z /\ t = (t0 + width * k)%Z.
  Proof.
    intros t. unfold labels, bin_labels. rewrite in_map_iff.
    assert (0 <= cdiv (last - t0) width)%Z as C.
    { unfold cdiv. pose proof last_ge as LG. fold last in LG.
      assert ((- (last - t0)) / width <= 0)%Z; [| lia]. apply Z.div_le_upper_bound; lia. }
    split.
    - intros (k & <- & Hk). apply in_seq in Hk. exists (Z.of_nat k). split; [lia | reflexivity].
    - intros (k & Hk & ->). exists (Z.to_nat k). rewrite Z2Nat.id by lia. split; [reflexivity |]. apply in_seq. lia.
  Qed.

  Lemma union_In : forall t, In t union <-> In t (times s) \/ In t labels.
  Proof. intros t. unfold union. rewrite zset_In, in_app_iff. reflexivity. Qed.

  Lemma union_ge : forall t, In t union -> (t0 <= t)%Z.
  Proof.
    intros t H. apply union_In in H. destruct H as [H | H].
    - apply in_map_iff in H. destruct H as ([t' v] & <- & H). eapply first_le; exact H.
    - apply labels_In in H. destruct H as (k & Hk & ->). nia.
  Qed.

  Lemma union_cons : exists l, union = t0 :: l.
  Proof.
    destruct union as [| u l] eqn:E.
    - exfalso. assert (In t0 union) as K by (apply union_In; left; rewrite Hs; left; reflexivity).
      rewrite E in K. destruct K.
    - exists l. f_equal. assert (In t0 union) as K by (apply union_In; left; rewrite Hs; left; reflexivity).
      assert (In u union) as L by (rewrite E; left; reflexivity). apply union_ge in L.
      pose proof union_sorted as SS. rewrite E in SS, K. apply StronglySorted_inv in SS. destruct SS as [_ F].
      rewrite Forall_forall in F. destruct K as [K | K]; [auto | specialize (F _ K); lia].
  Qed.

  Lemma points_union : forall p, In p P -> In (fst p) union.
  Proof.
    intros [t q] H. apply points_In in H. apply union_In. left. apply in_map_iff. exists (t, Fin q). auto.
  Qed.

  (** The mask. *)
  Lemma gap_mask_spec : forall t, (t0 < t)%Z -> P <> [] ->
    gap_mask (available s) union limit t =
    match pair_at P t with
    | Some pr => negb (close limit pr)
    | None => match P with p :: _ => (t <=? fst p)%Z | [] => false end
    end.
  Proof.
    intros t Ht HP. unfold gap_mask. destruct union_cons as [l El]. rewrite El, available_points by exact HI.
    fold P. unfold gap_sizes. rewrite as_rows_times, gap_bfill by exact P_sorted.
    destruct P as [| [a0 q0] P'] eqn:EP; [congruence |]. cbn [as_rows map fst snd].
    destruct (pair_at ((a0, q0) :: P') t) as [[p q] |] eqn:E.
    - pose proof (pair_at_Some _ _ _ E) as [K1 K2]. cbn [fst snd] in *.
      assert (a0 <= fst p)%Z.
      { destruct (consec_fst _ _ _ _ K1) as [[<- | Hp] _]; [cbn; lia |].
        pose proof P_sorted as SS. rewrite EP in SS. apply psorted_inv in SS. destruct SS as [_ F].
        specialize (F _ Hp). cbn in F. lia. }
      assert (t <=? a0 = false)%Z as -> by lia. rewrite andb_false_r, orb_false_r.
      unfold close. cbn [fst snd]. unfold fgt, flt. cbn.
      destruct (qlt limit (qz (fst q - fst p))) eqn:E1, (qle (qz (fst q - fst p)) limit) eqn:E2; qb; try reflexivity; exfalso; qlra.
    - cbn [fgt flt orb]. destruct (t <=? a0)%Z eqn:L; [| rewrite andb_false_r; reflexivity].
      rewrite andb_true_r. assert (a0 =? t0 = false)%Z as -> by lia. reflexivity.
  Qed.

  Definition right_value (t : Z) : fl :=
    match pair_at P t with
    | Some pr => if close limit pr then Fin (snd (snd pr)) else NaN
    | None => NaN
    end.

  Lemma right_masked : forall t, In t union -> (t0 < t)%Z -> P <> [] ->
    (if gap_mask (available s) union limit t then NaN else next_value (reindex (available s) union) t) = right_value t.
  Proof.
    intros t Hu Ht HP. rewrite gap_mask_spec by assumption. unfold next_value.
    rewrite available_reindex; [| apply available_sorted, HS | exact union_sorted |].
    2:{ intros u w H _. rewrite available_points in H by exact HI. fold P in H. apply in_map_iff in H.
        destruct H as (p & E & Hp). replace u with (fst p) by (injection E; auto). apply points_union, Hp. }
    rewrite available_idem, available_points by exact HI. fold P. rewrite value_bfill by exact P_sorted.
    unfold right_value. destruct (pair_at P t) as [pr |]; [destruct (close limit pr); reflexivity |].
    destruct P as [| p P']; [congruence |]. destruct (t <=? fst p)%Z; reflexivity.
  Qed.

  (** ** Steps of the merged index and bins *)

  Lemma step_energies_consec : forall pt (w : Z -> fl) l u,
    step_energies pt (u, w u) (map (fun t => (t, w t)) l) =
    map (fun uv => (snd uv, step_energy pt (fst uv, w (fst uv)) (snd uv, w (snd uv)))) (consec (u :: l)).
  Proof.
    intros pt w. induction l as [| t l IH]; intros u; [reflexivity |].
    cbn [map step_energies]. rewrite consec_cons. cbn [map fst snd]. f_equal. apply IH.
  Qed.

  Lemma bin_label_iff : forall k t, bin_label t0 width t = (t0 + width * k)%Z <->
    (t0 + width * (k - 1) < t <= t0 + width * k)%Z.
  Proof.
    intros k t. unfold bin_label, cdiv.
    pose proof (Z.div_mod (- (t - t0)) width ltac:(lia)). pose proof (Z.mod_pos_bound (- (t - t0)) width HW).
    set (d := (- (t - t0) / width)%Z) in *. set (m := (- (t - t0) mod width)%Z) in *. split.
    - intros E. assert (k = - d)%Z by nia. subst k. nia.
    - intros E. assert (- d = k)%Z; [| congruence]. nia.
  Qed.

  Lemma union_last : fst (List.last (map (fun t => (t, NaN)) union) (t0, NaN)) = (t0 + width * cdiv (last - t0) width)%Z.
  Proof.
    assert (forall (l : list Z) d, fst (List.last (map (fun t => (t, NaN)) l) (d, NaN)) = List.last l d) as E.
    { intros l d. rewrite (last_map _ _ (fun t => (t, NaN)) l d). reflexivity. }
    rewrite E. clear E.
    set (e := (t0 + width * cdiv (last - t0) width)%Z).
    assert (In e union) as He.
    { apply union_In. right. apply labels_In. exists (cdiv (last - t0) width). split; [| reflexivity].
      assert (In t0 labels) as K.
      { unfold labels, bin_labels. cbn [seq map]. left. lia. }
      apply labels_In in K. destruct K as (k & Hk & _). lia. }
    assert (forall t, In t union -> (t <= e)%Z) as Hle.
    { intros t Ht. apply union_In in Ht. destruct Ht as [Ht | Ht].
      - assert (t <= last)%Z by (apply (proj2 last_row), Ht).
        unfold e, cdiv. pose proof (Z.div_mod (- (last - t0)) width ltac:(lia)).
        pose proof (Z.mod_pos_bound (- (last - t0)) width HW). nia.
      - apply labels_In in Ht. destruct Ht as (k & Hk & ->). unfold e. nia. }
    pose proof union_sorted as SS. clearbody e. revert SS He Hle. clear.
    induction union as [| a l IH]; intros SS He Hle; [destruct He |].
    apply StronglySorted_inv in SS. destruct SS as [SS F]. rewrite Forall_forall in F. destruct l as [| b l].
    - destruct He as [<- | []]. reflexivity.
    - transitivity (List.last (b :: l) t0); [reflexivity |]. apply IH.
      + exact SS.
      + destruct He as [<- | He]; [| exact He]. exfalso.
        specialize (F b (or_introl eq_refl)). specialize (Hle b (or_intror (or_introl eq_refl))). lia.
      + intros t Ht. apply Hle. right. exact Ht.
  Qed.

  Lemma resample_bins : forall (h : Z * Z -> fl) l, union = t0 :: l ->
    resample_sum ((t0, NaN) :: map (fun uv => (snd uv, h uv)) (consec union)) width =
    (t0, fsum1 (vals (filter (fun r => (bin_label t0 width (fst r) =? t0)%Z)
       ((t0, NaN) :: map (fun uv => (snd uv, h uv)) (consec union))))) ::
    map (fun b => (b, fsum1 (map h (filter (fun uv => ((b - width <? snd uv) && (snd uv <=? b))%Z) (consec union)))))
        (tl labels).
  Proof.
    intros h l El. unfold resample_sum.
    set (S1 := (t0, NaN) :: map (fun uv => (snd uv, h uv)) (consec union)).
    assert (fst (List.last S1 (t0, NaN)) = (t0 + width * cdiv (last - t0) width)%Z) as EL.
    { rewrite <- union_last. rewrite El. unfold S1. rewrite El. clear.
      assert (forall k a x d, fst (List.last ((a, x) :: map (fun uv => (snd uv, h uv)) (consec (a :: k))) (d, NaN)) =
                              fst (List.last (map (fun t => (t, NaN)) (a :: k)) (d, NaN))) as K.
      { induction k as [| b k IH]; intros a x d; [reflexivity |]. rewrite consec_cons. cbn [map snd].
        transitivity (fst (List.last ((b, h (a, b)) :: map (fun uv => (snd uv, h uv)) (consec (b :: k))) (d, NaN))); [reflexivity |].
        rewrite IH. reflexivity. }
      apply K. }
    change S1 with ((t0, NaN) :: tl S1) at 1. cbv iota. fold S1.
    rewrite EL.
    assert (bin_labels t0 width (t0 + width * cdiv (last - t0) width) = labels) as ->.
    { unfold labels, bin_labels. replace (cdiv (t0 + width * cdiv (last - t0) width - t0) width) with (cdiv (last - t0) width); [reflexivity |].
      unfold cdiv at 2. replace (- (t0 + width * cdiv (last - t0) width - t0))%Z with ((- cdiv (last - t0) width) * width)%Z by lia.
      rewrite Z.div_mul by lia. lia. }
    assert (labels = t0 :: tl labels) as ->.
    { unfold labels, bin_labels. cbn [seq map tl]. f_equal. lia. }
    cbn [map tl]. f_equal. apply map_ext_in. intros b Hb. f_equal. f_equal.
    assert (exists k, (1 <= k)%Z /\ b = (t0 + width * k)%Z) as (k & Hk & ->).
    { unfold labels, bin_labels in Hb. cbn [seq map tl] in Hb. apply in_map_iff in Hb. destruct Hb as (j & <- & Hj).
      apply in_seq in Hj. exists (Z.of_nat j). split; [lia | reflexivity]. }
    unfold S1. cbn [filter fst].
    assert (bin_label t0 width t0 =? t0 + width * k = false)%Z as ->.
    { apply Z.eqb_neq. intros E. apply bin_label_iff in E. nia. }
    cbn [tl]. unfold vals. rewrite filter_map_comm. rewrite map_map. cbn [fst snd]. f_equal. apply filter_ext. intros [u v]. cbn [fst snd].
    destruct ((t0 + width * k - width <? v) && (v <=? t0 + width * k))%Z eqn:E.
    - apply Z.eqb_eq, bin_label_iff. lia.
    - apply Z.eqb_neq. intros K. apply bin_label_iff in K. lia.
  Qed.

  Lemma label_bounds : forall b, In b (tl labels) -> In b union /\ In (b - width)%Z union.
  Proof.
    intros b Hb. unfold labels, bin_labels in Hb. cbn [seq map tl] in Hb. apply in_map_iff in Hb.
    destruct Hb as (j & <- & Hj). apply in_seq in Hj.
    split; apply union_In; right; apply labels_In.
    - exists (Z.of_nat j). split; [lia | reflexivity].
    - exists (Z.of_nat j - 1)%Z. split; [lia | lia].
  Qed.

  (** The pieces made from steps. *)
  Lemma pieces_at : forall Q sel (mk : (Z * Qc) * (Z * Qc) -> piece) low G v u,
    StronglySorted Z.lt (map fst Q) ->
    (forall pr, mk pr = (low pr, fst (snd pr), G pr)) -> (forall pr, In pr (consec Q) -> (fst (fst pr) <= low pr)%Z) ->
    existsb (in_piece v) (map mk (filter sel (consec Q))) =
      match pair_at Q v with Some pr => sel pr && (low pr <? v)%Z | None => false end /\
    qsum (map (fun p => if in_piece v p then amount u v p else 0) (map mk (filter sel (consec Q)))) =
      match pair_at Q v with Some pr => if sel pr && (low pr <? v)%Z then G pr v - G pr u else 0 | None => 0 end.
  Proof.
    intros Q sel mk low G v u HQ Hmk Hlow. induction Q as [| x Q IH]; [split; reflexivity |].
    destruct Q as [| y Q]; [split; reflexivity |].
    pose proof (psorted_inv _ _ HQ) as [HQ' F].
    destruct (IH HQ') as [E1 E2]; [intros pr Hpr; apply Hlow; rewrite consec_cons; right; exact Hpr |]. clear IH.
    unfold pair_at. rewrite consec_cons. cbn [find fst snd filter]. fold (pair_at (y :: Q) v).
    assert (fst x <= low (x, y))%Z as Hlx by (apply (Hlow (x, y)); rewrite consec_cons; left; reflexivity).
    destruct ((fst x <? v) && (v <=? fst y))%Z eqn:E.
    - assert (pair_at (y :: Q) v = None) as EN.
      { destruct (pair_at (y :: Q) v) as [[p q] |] eqn:K; [| reflexivity]. exfalso.
        apply pair_at_Some in K. destruct K as [K1 K2]. cbn [fst snd] in *.
        assert (fst y <= fst p)%Z; [| lia].
        destruct (consec_fst _ _ _ _ K1) as [[<- | Hp] _]; [lia |].
        pose proof (psorted_inv _ _ HQ') as [_ F']. specialize (F' _ Hp). lia. }
      rewrite EN in E1, E2.
      destruct (sel (x, y)) eqn:Es; [| split; assumption].
      cbn [map existsb]. rewrite qsum_cons, E1, E2. rewrite Hmk. cbn [in_piece amount fst snd].
      assert (v <=? fst y = true)%Z as -> by lia. rewrite andb_true_r, orb_false_r. cbn [andb].
      split; [reflexivity |]. destruct (low (x, y) <? v)%Z; ring.
    - destruct (sel (x, y)) eqn:Es; [| split; assumption].
      cbn [map existsb]. rewrite qsum_cons, E1, E2. rewrite Hmk. cbn [in_piece amount fst snd].
      assert ((low (x, y) <? v) && (v <=? fst y) = false)%Z as -> by lia. cbn [orb]. split; [reflexivity | ring].
  Qed.

  (** ** Right labelled *)

  Definition rect_piece (pr : (Z * Qc) * (Z * Qc)) : piece :=
    (fst (fst pr), fst (snd pr), fun t => snd (snd pr) * hours t).

  Lemma hours_sub : forall a b, hours (a - b) = hours a - hours b.
  Proof. intros a b. unfold hours. rewrite qz_sub. unfold Qcdiv. ring. Qed.

  Lemma in_hours_spec : forall n, in_hours n = Fin (hours n).
  Proof.
    intros n. unfold in_hours, hours, fz. cbn [fdiv].
    assert (qeq (qz 1000000000) 0 = false) as -> by reflexivity. cbn [fdiv].
    assert (qeq (qz 3600) 0 = false) as -> by reflexivity. f_equal.
    replace 3600000000000%Z with (1000000000 * 3600)%Z by reflexivity. rewrite qz_mul. field.
    split; discriminate.
  Qed.

  Lemma rect_step : forall u v, In (u, v) (consec union) ->
    step_energy RightLabeled (u, right_value u) (v, right_value v) =
    if existsb (in_piece v) (map rect_piece (steps_used s limit))
    then Fin (qsum (map (fun p => if in_piece v p then amount u v p else 0) (map rect_piece (steps_used s limit))))
    else NaN.
  Proof.
    intros u v Huv. unfold steps_used. fold P.
    destruct (pieces_at P (close limit) rect_piece (fun pr => fst (fst pr)) (fun pr t => snd (snd pr) * hours t) v u) as [E1 E2].
    { exact P_sorted. } { reflexivity. } { intros; lia. }
    rewrite E1, E2. unfold step_energy. cbn [fst snd]. rewrite in_hours_spec. unfold right_value.
    destruct (pair_at P v) as [pr |] eqn:E; [| reflexivity].
    apply pair_at_Some in E. destruct E as [_ E]. assert (fst (fst pr) <? v = true)%Z as -> by lia.
    rewrite andb_true_r. destruct (close limit pr); [| reflexivity]. cbn [fmul]. f_equal. rewrite hours_sub. ring.
  Qed.

  Lemma aggregate_unfold : forall pt, available s <> [] -> pt <> OtherType ->
    aggregate s width limit pt =
    match map (fun r => (fst r, if gap_mask (available s) union limit (fst r) then NaN else snd r))
              (filled pt (available s) union) with
    | [] => Raise IndexError
    | r0 :: l => Ok (tl (resample_sum ((fst r0, NaN) :: step_energies pt r0 l) width))
    end.
  Proof.
    intros pt H Hp. unfold aggregate, union, labels, last. clear - H Hp Hs. revert H. rewrite Hs. intros H.
    destruct (available ((t0, v0) :: rest)) as [| r av]; [congruence |]. destruct pt; [reflexivity | reflexivity | congruence].
  Qed.

  Lemma aggregate_right : P <> [] ->
    aggregate s width limit RightLabeled =
    Ok (map (fun b => (b, if existsb (meets (b - width) b) (map rect_piece (steps_used s limit))
                          then Fin (qsum (map (clipped (b - width) b) (map rect_piece (steps_used s limit)))) else NaN))
            (tl labels)).
  Proof.
    intros HP. rewrite aggregate_unfold; [| rewrite available_points by exact HI; fold P; destruct P; [congruence | discriminate] | discriminate].
    assert (forall f : Z * fl -> Z * fl, map f (filled RightLabeled (available s) union) =
      map (fun t => f (t, next_value (reindex (available s) union) t)) union) as Efill.
    { intros f. unfold filled. rewrite bfill_spec by (apply reindex_sorted, union_sorted). rewrite map_map.
      unfold reindex at 2. rewrite map_map. reflexivity. }
    rewrite Efill. cbn [fst snd].
    destruct union_cons as [l El].
    set (w := fun t => if gap_mask (available s) union limit t then NaN else next_value (reindex (available s) union) t).
    change (map _ union) with (map (fun t => (t, w t)) union).
    replace (map (fun t => (t, w t)) union) with ((t0, w t0) :: map (fun t => (t, w t)) l) by (rewrite El; reflexivity).
    cbn [fst]. rewrite step_energies_consec, <- El. rewrite (resample_bins _ l El). cbn [tl]. f_equal.
    apply map_ext_in. intros b Hb. f_equal. destruct (label_bounds b Hb) as [Hb1 Hb2].
    apply pieces_fsum1; [exact union_sorted | exact Hb2 | exact Hb1 | lia | |].
    - intros a c G Hp. apply in_map_iff in Hp. destruct Hp as ([x y] & E & Hp). apply filter_In in Hp.
      destruct Hp as [Hp _]. destruct (consec_fst _ _ _ _ Hp) as [Hx Hy].
      replace a with (fst x) by (exact (f_equal (fun p => fst (fst p)) E)).
      replace c with (fst y) by (exact (f_equal (fun p => snd (fst p)) E)).
      split; apply points_union; assumption.
    - intros u v Huv. cbn [fst snd]. rewrite <- (rect_step u v Huv).
      destruct (consec_fst _ _ _ _ Huv) as [Hu Hv].
      assert (t0 < v)%Z as Hv0.
      { apply consec_In in Huv. destruct Huv as (l1 & l2 & E). pose proof union_sorted as SS. rewrite E in SS.
        assert (t0 <= u)%Z by (apply union_ge; exact Hu).
        assert (u < v)%Z; [| lia]. clear - SS. induction l1 as [| x l1 IH]; apply StronglySorted_inv in SS; destruct SS as [SS F]; [| auto].
        inversion F; assumption. }
      unfold step_energy. cbn [fst snd]. unfold w at 1. rewrite right_masked; [reflexivity | exact Hv | exact Hv0 | exact HP].
  Qed.
End Aggregate.
