(** pandas operations on time-indexed columns used by several rdtools modules (no
    rdtools code): reindexing, back filling, interpolation by index, resampling. *)

From Coq Require Import QArith Qcanon List ZArith Bool Permutation Sorted Lia Arith.
From Verif.Base Require Import QcExtra ISort Quantile Fl.
Import ListNotations.
Open Scope Qc_scope.

(** Strictly increasing index. *)
Definition sorted_index (s : series) : Prop := StronglySorted Z.lt (times s).

(** Value at a timestamp; NaN when there is none. *)
Definition lookup (s : series) (t : Z) : fl :=
  match find (fun r => (fst r =? t)%Z) s with Some r => snd r | None => NaN end.

(** [Series.reindex(idx)]. *)
Definition reindex (s : series) (idx : list Z) : series := map (fun t => (t, lookup s t)) idx.

(** [Series.reindex(idx, method='bfill')] at one timestamp: the value of the first row
    at or after it, even if that value is NaN. *)
Definition lookup_bfill (s : series) (t : Z) : fl :=
  match find (fun r => (t <=? fst r)%Z) s with Some r => snd r | None => NaN end.
Definition reindex_bfill (s : series) (idx : list Z) : series := map (fun t => (t, lookup_bfill s t)) idx.

(** [Series.bfill()]. *)
Fixpoint bfill (s : series) : series :=
  match s with
  | [] => []
  | (t, v) :: s' =>
    let r := bfill s' in
    (t, if isnan v then match r with (_, w) :: _ => w | [] => NaN end else v) :: r
  end.

(** [Index.union] / sorting without duplicates. *)
Definition zset (l : list Z) : list Z := isort Z.leb (nodup Z.eq_dec l).

(** [Series(timestamps).diff()]. *)
Fixpoint steps_from (p : Z) (l : list Z) : list fl :=
  match l with [] => [] | t :: l' => fz (t - p) :: steps_from t l' end.
Definition time_diffs (l : list Z) : list fl :=
  match l with [] => [] | t :: l' => NaN :: steps_from t l' end.

(** The rows that carry a value. *)
Definition available (s : series) : series := filter (fun r => notnan (snd r)) s.

(** Straight line through two points ([np.interp]). *)
Definition lin (t1 : Z) (v1 : fl) (t2 : Z) (v2 : fl) (t : Z) : fl :=
  fadd (fmul (fdiv (fsub v2 v1) (fz (t2 - t1))) (fz (t - t1))) v1.

(** [Series.interpolate(method='index')] (or 'time') at one timestamp without value,
    default [limit_direction='forward']: nothing before the first valid row, the last
    valid value after the last valid row. *)
Definition interp_at (valid : series) (t : Z) : fl :=
  match last_such (fun r => (fst r <? t)%Z) valid, find (fun r => (t <? fst r)%Z) valid with
  | Some (t1, v1), Some (t2, v2) => lin t1 v1 t2 v2 t
  | Some (_, v1), None => v1
  | None, _ => NaN
  end.
Definition interp_index (s : series) : series :=
  map (fun r => (fst r, if isnan (snd r) then interp_at (available s) (fst r) else snd r)) s.

(** [resample(W, closed='right', label='right', origin='start')] for a fixed width. *)
Definition cdiv (a b : Z) : Z := (- ((- a) / b))%Z.
Definition bin_label (origin width t : Z) : Z := (origin + width * cdiv (t - origin) width)%Z.
Definition bin_labels (origin width last : Z) : list Z :=
  map (fun k => (origin + width * Z.of_nat k)%Z) (seq 0 (S (Z.to_nat (cdiv (last - origin) width)))).

(** [.sum(min_count=1)]: NaN when every value is NaN. *)
Definition fsum1 (l : list fl) : fl := match dropna l with [] => NaN | _ => fsum l end.

Definition resample_sum (s : series) (width : Z) : series :=
  match s with
  | [] => []
  | (t0, _) :: _ =>
    map (fun b => (b, fsum1 (vals (filter (fun r => (bin_label t0 width (fst r) =? b)%Z) s))))
        (bin_labels t0 width (fst (List.last s (t0, NaN))))
  end.

(** ** Lemmas *)

Lemma zset_In : forall l t, In t (zset l) <-> In t l.
Proof. intros l t. unfold zset. rewrite isort_In. apply nodup_In. Qed.

Lemma sorted_le_nodup : forall l, StronglySorted (fun x y => Z.leb x y = true) l -> NoDup l -> StronglySorted Z.lt l.
Proof.
  induction l as [| a l IH]; intros S N; constructor; apply StronglySorted_inv in S; destruct S as [S F];
    inversion N as [| ? ? Na Nl]; subst; [apply IH; assumption |].
  apply Forall_forall. intros x Hx. rewrite Forall_forall in F. specialize (F x Hx). apply Z.leb_le in F.
  assert (a <> x) by congruence. lia.
Qed.

Lemma zset_sorted : forall l, StronglySorted Z.lt (zset l).
Proof.
  intros l. unfold zset. apply sorted_le_nodup.
  - apply (isort_sorted Z.leb).
    + intros x y. rewrite !Z.leb_le. lia.
    + intros x y z. rewrite !Z.leb_le. lia.
  - apply (Permutation_NoDup (isort_perm _ _)). apply NoDup_nodup.
Qed.

Lemma sorted_lt_unique : forall l1 l2, StronglySorted Z.lt l1 -> StronglySorted Z.lt l2 ->
  (forall t, In t l1 <-> In t l2) -> l1 = l2.
Proof.
  induction l1 as [| a l1 IH]; intros l2 H1 H2 HE.
  - destruct l2 as [| b l2]; [reflexivity | exfalso; apply (HE b); left; reflexivity].
  - destruct l2 as [| b l2]; [exfalso; apply (HE a); left; reflexivity |].
    apply StronglySorted_inv in H1. apply StronglySorted_inv in H2.
    destruct H1 as [H1 F1], H2 as [H2 F2]. rewrite Forall_forall in F1, F2.
    assert (a = b) as ->.
    { destruct (proj1 (HE a) (or_introl eq_refl)) as [E | I]; [auto |].
      destruct (proj2 (HE b) (or_introl eq_refl)) as [E | J]; [auto |].
      specialize (F1 _ J). specialize (F2 _ I). lia. }
    f_equal. apply IH; auto. intros i. split; intros Hi.
    + destruct (proj1 (HE i) (or_intror Hi)) as [E | I]; [| exact I]. specialize (F1 _ Hi). lia.
    + destruct (proj2 (HE i) (or_intror Hi)) as [E | I]; [| exact I]. specialize (F2 _ Hi). lia.
Qed.

Lemma sorted_cons_inv : forall r s, sorted_index (r :: s) ->
  sorted_index s /\ forall t v, In (t, v) s -> (fst r < t)%Z.
Proof.
  intros [t0 v0] s H. unfold sorted_index in *. cbn [times map fst] in *. apply StronglySorted_inv in H.
  destruct H as [H F]. split; [exact H |]. intros t v Hin. rewrite Forall_forall in F. apply F.
  unfold times. apply in_map_iff. exists (t, v). auto.
Qed.

Lemma sorted_index_NoDup : forall s, sorted_index s -> NoDup (times s).
Proof.
  unfold sorted_index. intros s H. induction H as [| a l H IH F]; constructor; auto.
  intros K. rewrite Forall_forall in F. specialize (F _ K). lia.
Qed.

Lemma sorted_fun : forall s t v w, sorted_index s -> In (t, v) s -> In (t, w) s -> v = w.
Proof.
  induction s as [| r s IH]; intros t v w H Hv Hw; [destruct Hv |].
  apply sorted_cons_inv in H. destruct H as [H F]. destruct Hv as [-> | Hv], Hw as [E | Hw].
  - congruence.
  - specialize (F _ _ Hw). cbn in F. lia.
  - subst r. specialize (F _ _ Hv). cbn in F. lia.
  - eapply IH; eassumption.
Qed.

Lemma sorted_filter : forall p s, sorted_index s -> sorted_index (filter p s).
Proof.
  intros p s. induction s as [| r s IH]; intros H; [exact H |].
  pose proof (sorted_cons_inv _ _ H) as [H' F]. cbn [filter]. destruct (p r); [| apply IH, H'].
  unfold sorted_index. cbn [times map]. constructor; [apply IH, H' |].
  apply Forall_forall. intros t Ht. apply in_map_iff in Ht. destruct Ht as ([t' v] & <- & Ht).
  apply filter_In in Ht. destruct Ht as [Ht _]. exact (F _ _ Ht).
Qed.

Lemma sorted_app_inv : forall s1 s2, sorted_index (s1 ++ s2) ->
  sorted_index s1 /\ sorted_index s2 /\ (forall t v u w, In (t, v) s1 -> In (u, w) s2 -> (t < u)%Z).
Proof.
  induction s1 as [| r s1 IH]; intros s2 H; cbn [app] in *.
  - split; [constructor |]. split; [exact H |]. intros t v u w [].
  - apply sorted_cons_inv in H. destruct H as [H F]. destruct (IH _ H) as (A & B & C).
    split; [| split; [exact B |]].
    + unfold sorted_index. cbn [times map]. constructor; [exact A |]. apply Forall_forall. intros t Ht.
      apply in_map_iff in Ht. destruct Ht as ([t' v] & <- & Ht). apply (F _ v). apply in_or_app. auto.
    + intros t v u w [-> | Ht] Hu; [apply (F _ w); apply in_or_app; auto | exact (C _ _ _ _ Ht Hu)].
Qed.

Lemma lookup_In : forall s t v, sorted_index s -> In (t, v) s -> lookup s t = v.
Proof.
  intros s t v HS H. unfold lookup. destruct (find _ s) as [[t' v'] |] eqn:E.
  - apply find_some in E. destruct E as [E1 E2]. cbn in E2. apply Z.eqb_eq in E2. subst t'.
    cbn. exact (sorted_fun s t v' v HS E1 H).
  - apply (find_none _ _ E) in H. cbn in H. apply Z.eqb_neq in H. congruence.
Qed.

Lemma lookup_none : forall s t, ~ In t (times s) -> lookup s t = NaN.
Proof.
  intros s t H. unfold lookup. destruct (find _ s) as [[t' v'] |] eqn:E; [| reflexivity].
  apply find_some in E. destruct E as [E1 E2]. cbn in E2. apply Z.eqb_eq in E2. subst t'.
  exfalso. apply H. apply in_map_iff. exists (t, v'). auto.
Qed.

Lemma lookup_cases : forall s t, (exists v, In (t, v) s /\ lookup s t = v) \/ (~ In t (times s) /\ lookup s t = NaN).
Proof.
  intros s t. destruct (in_dec Z.eq_dec t (times s)) as [H | H].
  - left. unfold lookup. destruct (find _ s) as [[t' v'] |] eqn:E.
    + apply find_some in E. destruct E as [E1 E2]. cbn in E2. apply Z.eqb_eq in E2. subst t'. eauto.
    + exfalso. apply in_map_iff in H. destruct H as ([t' v] & <- & H). apply (find_none _ _ E) in H.
      cbn in H. apply Z.eqb_neq in H. congruence.
  - right. split; [exact H | apply lookup_none, H].
Qed.

Lemma lookup_map : forall (f : Z -> fl) idx t, In t idx -> lookup (map (fun t => (t, f t)) idx) t = f t.
Proof.
  intros f idx t H. unfold lookup. destruct (find _ _) as [[t' v'] |] eqn:E.
  - apply find_some in E. destruct E as [E1 E2]. cbn in E2. apply Z.eqb_eq in E2. subst t'.
    apply in_map_iff in E1. destruct E1 as (u & E & _). injection E as -> <-. reflexivity.
  - exfalso. assert (In (t, f t) (map (fun t => (t, f t)) idx)) as K by (apply in_map_iff; eauto).
    apply (find_none _ _ E) in K. cbn in K. apply Z.eqb_neq in K. congruence.
Qed.

Lemma times_reindex : forall s idx, times (reindex s idx) = idx.
Proof. intros s idx. unfold times, reindex. rewrite map_map. apply map_id. Qed.

Lemma available_In : forall s t v, In (t, v) (available s) <-> In (t, v) s /\ v <> NaN.
Proof.
  intros s t v. unfold available. rewrite filter_In. cbn. unfold notnan. rewrite negb_true_iff, isnan_false. reflexivity.
Qed.

(** ** Back filling *)

(** [next_value s t]: the value of the first row at or after [t] that carries one. *)
Definition next_value (s : series) (t : Z) : fl := lookup_bfill (available s) t.

Lemma bfill_times : forall s, times (bfill s) = times s.
Proof. induction s as [| [t v] s IH]; [reflexivity |]. cbn [bfill times map fst]. f_equal. exact IH. Qed.

Lemma lookup_bfill_head : forall s t, (forall u v, In (u, v) s -> (t <= u)%Z) ->
  lookup_bfill s t = match s with [] => NaN | (_, v) :: _ => v end.
Proof.
  intros [| [u v] s] t H; [reflexivity |]. unfold lookup_bfill. cbn [find fst].
  assert (t <=? u = true)%Z as -> by (apply Z.leb_le, (H u v); left; reflexivity). reflexivity.
Qed.

Lemma bfill_spec : forall s, sorted_index s ->
  bfill s = map (fun r => (fst r, next_value s (fst r))) s.
Proof.
  induction s as [| [t v] s IH]; intros HS; [reflexivity |].
  pose proof (sorted_cons_inv _ _ HS) as [HS' F]. cbn [fst] in F.
  cbn [bfill map fst]. rewrite (IH HS').
  assert (next_value ((t, v) :: s) t = if isnan v then match bfill s with (_, w) :: _ => w | [] => NaN end else v) as E.
  { unfold next_value, available. cbn [filter snd]. unfold notnan at 1. destruct (isnan v) eqn:Ev; cbn [negb].
    - fold (available s). rewrite IH by exact HS'. 
      destruct s as [| [u w] s]; [reflexivity |]. cbn [map].
      rewrite lookup_bfill_head.
      2:{ intros u' v' Hin. apply available_In in Hin. destruct Hin as [Hin _]. specialize (F _ _ Hin). lia. }
      unfold next_value. rewrite lookup_bfill_head; [reflexivity |].
      intros u' v' Hin. apply available_In in Hin. destruct Hin as [[E | Hin] _]; [injection E; cbn; lia |].
      apply sorted_cons_inv in HS'. destruct HS' as [_ G]. specialize (G _ _ Hin). cbn in *. lia.
    - unfold lookup_bfill. cbn [find fst]. rewrite Z.leb_refl. reflexivity. }
  rewrite E. rewrite <- (IH HS'). f_equal. rewrite IH by exact HS'.
  apply map_ext_in. intros [u w] Hin. cbn [fst]. f_equal. unfold next_value, available. cbn [filter snd].
  destruct (notnan v); [| reflexivity]. unfold lookup_bfill. cbn [find fst].
  specialize (F _ _ Hin). assert (u <=? t = false)%Z as -> by lia. reflexivity.
Qed.

Lemma lookup_bfill_spec : forall s t v, sorted_index s -> v <> NaN ->
  (lookup_bfill s t = v <->
   exists u, In (u, v) s /\ (t <= u)%Z /\ forall u' v', In (u', v') s -> (t <= u')%Z -> (u <= u')%Z).
Proof.
  intros s t v HS Hv. unfold lookup_bfill. induction s as [| [u w] s IH].
  - cbn. split; [congruence | intros (u & [] & _)].
  - pose proof (sorted_cons_inv _ _ HS) as [HS' F]. cbn [find fst]. destruct (t <=? u)%Z eqn:E.
    + apply Z.leb_le in E. cbn [snd]. split.
      * intros ->. exists u. split; [left; reflexivity |]. split; [exact E |].
        intros u' v' [H | H] _; [injection H; lia | specialize (F _ _ H); cbn in F; lia].
      * intros (u0 & [H | H] & H1 & H2); [congruence |].
        specialize (H2 u w (or_introl eq_refl) E). specialize (F _ _ H). cbn in F. lia.
    + apply Z.leb_gt in E. rewrite (IH HS'). split.
      * intros (u0 & H & H1 & H2). exists u0. split; [right; exact H |]. split; [exact H1 |].
        intros u' v' [K | K] L; [injection K as <- <-; lia | eauto].
      * intros (u0 & [H | H] & H1 & H2); [injection H as <- <-; lia |].
        exists u0. split; [exact H |]. split; [exact H1 |]. intros u' v' K L. eapply H2; [right; exact K | exact L].
Qed.

Lemma lookup_bfill_none : forall s t, (forall u v, In (u, v) s -> (u < t)%Z) -> lookup_bfill s t = NaN.
Proof.
  intros s t H. unfold lookup_bfill. destruct (find _ s) as [[u v] |] eqn:E; [| reflexivity].
  apply find_some in E. destruct E as [E1 E2]. cbn in E2. apply Z.leb_le in E2. specialize (H _ _ E1). lia.
Qed.

(** The first row at or after [t], when there is one. *)
Lemma lookup_bfill_ex : forall s t, sorted_index s -> (exists u v, In (u, v) s /\ (t <= u)%Z) ->
  exists u v, In (u, v) s /\ (t <= u)%Z /\ lookup_bfill s t = v /\
    forall u' v', In (u', v') s -> (t <= u')%Z -> (u <= u')%Z.
Proof.
  intros s t HS (u0 & v0 & H0 & H1). unfold lookup_bfill. induction s as [| [u w] s IH]; [destruct H0 |].
  pose proof (sorted_cons_inv _ _ HS) as [HS' F]. cbn [find fst]. destruct (t <=? u)%Z eqn:E.
  - apply Z.leb_le in E. exists u, w. split; [left; reflexivity |]. split; [exact E |]. split; [reflexivity |].
    intros u' v' [H | H] _; [injection H; lia | specialize (F _ _ H); cbn in F; lia].
  - apply Z.leb_gt in E. destruct H0 as [H0 | H0]; [injection H0; lia |].
    destruct (IH HS' H0) as (u1 & v1 & K1 & K2 & K3 & K4). exists u1, v1. split; [right; exact K1 |].
    split; [exact K2 |]. split; [exact K3 |]. intros u' v' [H | H] L; [injection H as <- <-; lia | eauto].
Qed.
