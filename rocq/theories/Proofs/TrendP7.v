(** From normalized energy to the aggregated performance. *)

From Coq Require Import QArith Qcanon List ZArith Bool Arith String Sorted Lia.
From Verif.Base Require Import QcExtra Fl TimeSeries Calendar Rolling.
From Verif.Model Require Import Normalization FilterDict TrendAnalysis.
From Verif.Spec Require Import FilterSets TrendRuns Normalization Pipeline.
From Verif.Proofs Require Import NormP3 NormP4 TrendP1 TrendP2 TrendP3 TrendP4.
Import ListNotations.
Open Scope list_scope.

(** ** Sorted lists *)
Lemma sorted_same : forall a b : list Z, StronglySorted Z.lt a -> StronglySorted Z.lt b -> (forall t, In t a <-> In t b) -> a = b.
Proof.
  intros a b Sa Sb H. apply (index_alone b a Sb). split; [exact Sa|]. intros t. rewrite H. split; [now left|]. intros [I|(k & m & [] & _)]; exact I.
Qed.
Lemma sorted_nodup : forall l : list Z, StronglySorted Z.lt l -> NoDup l.
Proof.
  intros l S. induction S as [|t l S IH F]; constructor; [|exact IH]. intros I. rewrite Forall_forall in F. specialize (F t I). lia.
Qed.
Lemma sorted_steps : forall b w n, (0 < w)%Z -> StronglySorted Z.lt (map (fun k => b + w * Z.of_nat k)%Z (seq 0 n)).
Proof.
  intros b w n Hw. generalize 0%nat. induction n as [|n IH]; intros s; cbn; constructor; [apply IH|].
  apply Forall_forall. intros t I. apply in_map_iff in I. destruct I as (k & <- & I). apply in_seq in I. nia.
Qed.
Lemma sorted_filter : forall (f : Z * fl -> bool) s, sorted_index s -> sorted_index (filter f s).
Proof.
  intros f s S. unfold sorted_index in *. induction s as [|[t v] s IH]; [exact S|]. cbn in *. inversion S as [|x l Sl F]; subst.
  destruct (f (t, v)); [|exact (IH Sl)]. cbn. constructor; [exact (IH Sl)|]. rewrite Forall_forall in *. intros u I. apply F.
  apply in_map_iff in I. destruct I as (r & <- & I). apply filter_In in I. apply in_map. tauto.
Qed.
Lemma times_filter : forall (f : Z -> bool) (s : series), times (filter (fun r => f (fst r)) s) = filter f (times s).
Proof. intros f s. unfold times. induction s as [|[t v] s IH]; [reflexivity|]. cbn. destruct (f t); cbn; now rewrite IH. Qed.

(** ** Masks *)
Definition keep (m : mask) (t : Z) : bool := existsb (fun x => (fst x =? t)%Z && snd x) m.
Lemma keep_In : forall m t, keep m t = true <-> In (t, true) m.
Proof.
  intros m t. unfold keep. rewrite existsb_exists. split.
  - intros ([u b] & I & H). cbn in H. apply andb_true_iff in H. destruct H as [H ->]. apply Z.eqb_eq in H. now subst u.
  - intros I. exists (t, true). split; [exact I|]. cbn. now rewrite Z.eqb_refl.
Qed.
Definition good_mask (rows : list Z) (m : mask) : Prop :=
  NoDup (map fst m) /\ (forall t, In t rows -> In t (map fst m)) /\ (forall t, In (t, true) m -> In t rows).
Lemma at_keep : forall m t, NoDup (map fst m) -> at_ m t = keep m t.
Proof.
  intros m t N. apply eq_true_iff_eq. rewrite keep_In, at_holds. unfold holds. split.
  - intros (x & y & -> & _). apply in_or_app. right. now left.
  - intros I. apply in_split in I. destruct I as (x & y & ->). exists x, y. split; [reflexivity|]. intros J. rewrite map_app in N. cbn in N.
    apply NoDup_remove_2 in N. apply N. apply in_or_app. now left.
Qed.
Section Combined.
Context {P : Type}.
Lemma by_hand_cleaned : forall (d : validated (setting P)) t, (forall v, In (t, v) (rows_by_hand (contents (exclude_missing d))) -> v = Some true) <-> (forall v, In (t, v) (rows_by_hand (contents d)) -> v = Some true).
Proof.
  intros [k d] t. unfold rows_by_hand, by_hand, exclude_missing. cbn [contents]. destruct (dget "ad_hoc_filter" d) as [[|p|a]|] eqn:G; try (rewrite G; tauto).
  rewrite dget_dset, String.eqb_refl. split; intros H v I.
  - specialize (H (Some match v with Some b => b | None => false end)). rewrite in_map_iff in H. specialize (H (ex_intro _ (t, v) (conj eq_refl I))). destruct v; congruence.
  - apply in_map_iff in I. destruct I as ([u x] & E & I). cbn in E. injection E as -> <-. now rewrite (H x I).
Qed.
Lemma combined_mask : forall rows parts (d : validated (setting P)) f, combined rows parts (exclude_missing d) = Ok f ->
  exists idx, common_index rows parts idx /\ mask_of idx (kept rows parts (rows_by_hand (contents d))) (fst f).
Proof.
  intros rows parts d f H. exists (frame_index (with_default rows parts)). split; [apply frame_common|].
  change (bind (snd (ad_hoc (frame_index (with_default rows parts)) (exclude_missing d))) (fun extra => Ok (all_of (frame_index (with_default rows parts)) (frame (with_default rows parts) ++ extra), tl (frame (with_default rows parts)) ++ extra)) = Ok f) in H.
  pose proof (ad_hoc_result (frame_index (with_default rows parts)) (exclude_missing d) (proj1 (frame_common rows parts))) as A.
  destruct (snd (ad_hoc _ _)) as [extra|]; cbn [bind] in H; [|discriminate H]. destruct A as (_ & _ & ->).
  pose proof (all_of_spec rows parts (contents (exclude_missing d))) as M. cbv zeta in M.
  assert (Hf : fst f = all_of (frame_index (with_default rows parts)) (frame (with_default rows parts) ++ hand_column (contents (exclude_missing d)) (frame_index (with_default rows parts)))) by (injection H as <-; reflexivity).
  rewrite Hf. destruct M as [M1 M2]. split; [exact M1|]. intros t. rewrite M2. unfold kept. now rewrite by_hand_cleaned.
Qed.
Lemma mask_good : forall rows parts by_hand idx m, common_index rows parts idx -> mask_of idx (kept rows parts by_hand) m -> good_mask rows m.
Proof.
  intros rows parts by_hand idx m [S C] [M1 M2]. split; [rewrite M1; now apply sorted_nodup|]. split; [intros t I; rewrite M1; apply C; now left|].
  intros t I. apply M2 in I. apply I.
Qed.
End Combined.
Lemma select_good : forall rows m s, good_mask rows m -> times s = rows -> select s m = Ok (kept_rows m s).
Proof.
  intros rows m s (N & A & B) E. unfold select.
  assert (F : forallb (fun t => match mask_at m t with Some _ => true | None => false end) (times s) = true).
  { apply forallb_forall. intros t I. destruct (mask_at m t) eqn:G; [reflexivity|]. apply mask_at_none in G. exfalso. apply G, A. now rewrite <- E. }
  rewrite F. f_equal. unfold kept_rows. apply filter_ext. intros [t v]. cbn [fst]. exact (at_keep m t N).
Qed.
Lemma times_kept : forall m s, times (kept_rows m s) = filter (keep m) (times s).
Proof. intros m s. exact (times_filter (keep m) s). Qed.

(** ** Bins *)
Lemma last_of : forall (s : series) d l x, times s = l ++ [x] -> fst (List.last s d) = x.
Proof.
  intros s d l x H. destruct s as [|r s]; [destruct l; discriminate|]. rewrite last_fst, H. apply last_last.
Qed.
Lemma times_bins : forall s w first last, (exists l, times s = first :: l) -> (exists l, times s = l ++ [last]) -> times (resample_day_sum s w) = bin_starts first w last.
Proof.
  intros s w first last [l H1] [l' H2]. destruct s as [|[t v] s]; [discriminate|]. cbn in H1. injection H1 as -> _. unfold resample_day_sum.
  unfold times at 1. rewrite map_map. cbn [fst]. rewrite map_id. f_equal. exact (last_of _ _ _ _ H2).
Qed.
Lemma times_zip : forall f a b, times a = times b -> times (zip_aligned f a b) = times a.
Proof.
  intros f a b E. unfold zip_aligned. rewrite align_same by exact E. unfold times in *. rewrite !map_map. cbn.
  revert b E. induction a as [|[t v] a IH]; intros [|[u x] b] E; try discriminate; [reflexivity|]. cbn in *. injection E as -> E. f_equal. now apply IH.
Qed.
Lemma times_aggregation : forall e n w, times e = times n -> times (aggregation_insol e n w) = times (resample_day_sum n w).
Proof.
  intros e n w E. unfold aggregation_insol.
  assert (Ep : times (zip_aligned fmul n e) = times n) by (apply times_zip; now symmetry).
  assert (Er : times (resample_day_sum (zip_aligned fmul n e) w) = times (resample_day_sum n w)).
  { destruct n as [|[t0 v0] n].
    - destruct e; [reflexivity|discriminate].
    - assert (Hl : exists last, exists l, times ((t0, v0) :: n) = l ++ [last]).
      { destruct (exists_last (l := (t0, v0) :: n) ltac:(discriminate)) as (l & [t v] & ->). exists t, (times l). unfold times. now rewrite map_app. }
      destruct Hl as (last & Hl). rewrite (times_bins _ w t0 last); [|rewrite Ep; eexists; reflexivity|rewrite Ep; exact Hl].
      symmetry. apply times_bins; [eexists; reflexivity|exact Hl]. }
  rewrite times_zip; [exact Er|exact Er].
Qed.
Lemma bins_spec : forall w rows first last b, (0 < w)%Z -> hd_error rows = Some first -> (exists l, rows = l ++ [last]) -> (first <= last)%Z ->
  (In b (bin_starts first w last) <-> bin_of w rows b).
Proof.
  intros w rows first last b Hw Hf [l Hl] Hle. unfold bin_starts. cbv zeta. set (b0 := bin_start (start_day first) w first).
  assert (B0 : exists j0, b0 = (start_day first + w * j0)%Z) by (eexists; reflexivity). destruct B0 as [j0 B0].
  assert (Bf : (b0 <= first < b0 + w)%Z).
  { unfold b0, bin_start. pose proof (Z.div_mod (first - start_day first) w ltac:(lia)). pose proof (Z.mod_pos_bound (first - start_day first) w Hw). lia. }
  rewrite in_map_iff. split.
  - intros (k & <- & I). apply in_seq in I. exists first, last, (start_day first), (j0 + Z.of_nat k)%Z. split; [exact Hf|]. split; [exists l; exact Hl|]. split; [apply start_day_midnight|].
    split; [rewrite B0; ring|]. split; [nia|]. pose proof (Z.div_mod (last - b0) w ltac:(lia)). pose proof (Z.mod_pos_bound (last - b0) w Hw).
    assert (0 <= (last - b0) / w)%Z by (apply Z.div_pos; lia). assert (Z.of_nat k <= (last - b0) / w)%Z by lia. nia.
  - intros (f' & l' & m & j & Hf' & (x & Hl') & Hm & -> & A & B). rewrite Hf in Hf'. injection Hf' as <-. rewrite Hl in Hl'. apply app_inj_tail in Hl'. destruct Hl' as [_ <-].
    assert (m = start_day first) as -> by (apply (midnight_unique first); [exact Hm|apply start_day_midnight]).
    exists (Z.to_nat (j - j0)). assert (0 <= j - j0)%Z by nia. split; [rewrite Z2Nat.id by assumption; rewrite B0; ring|].
    apply in_seq. split; [lia|]. pose proof (Z.div_mod (last - b0) w ltac:(lia)). pose proof (Z.mod_pos_bound (last - b0) w Hw).
    assert (j - j0 <= (last - b0) / w)%Z; [|lia]. apply Z.div_le_lower_bound; [exact Hw|]. rewrite B0. nia.
Qed.

(** ** Regular rows *)
Lemma aligned_start : forall w d j, (0 < w)%Z -> dividing w -> bin_start (start_day (ns_day * d + w * j)) w (ns_day * d + w * j) = (ns_day * d + w * j)%Z.
Proof.
  intros w d j Hw [k [H|H]]; pose proof ns_day_pos as Pd.
  - unfold bin_start, start_day. set (x := ((ns_day * d + w * j) / ns_day)%Z).
    replace (ns_day * d + w * j - ns_day * x)%Z with ((k * (d - x) + j) * w)%Z by (rewrite H; ring). rewrite Z.div_mul by lia. rewrite H. ring.
  - replace (ns_day * d + w * j)%Z with (ns_day * (d + k * j))%Z by (rewrite H; ring). unfold bin_start, start_day.
    rewrite (Z.mul_comm ns_day (d + k * j)), Z.div_mul by lia. rewrite (Z.mul_comm ns_day), Z.sub_diag, Z.div_0_l by lia. ring.
Qed.
Lemma combine_reindex : forall s, sorted_index s -> combine (times s) (vals s) = reindex s (times s).
Proof.
  intros s S. assert (E : combine (times s) (vals s) = s) by (clear S; induction s as [|[t v] s IH]; [reflexivity|cbn; f_equal; exact IH]).
  rewrite E. unfold reindex, times. rewrite map_map. rewrite <- (map_id s) at 1. apply map_ext_in. intros [t v] I. cbn. f_equal. symmetry. now apply lookup_In.
Qed.
Section Regular.
Context {P W T O YK SK YR SR : Type}.
Local Notation env := (environment P W T O YK SK YR SR).
Lemma as_freq_spec : forall (E : env) s w m, (0 < w)%Z -> dividing w -> sorted_index s -> (exists d, m = ns_day * d)%Z -> (forall t, In t (times s) -> exists j, t = m + w * j)%Z ->
  s <> [] -> exists t0 k, In t0 (times s) /\ In (t0 + w * Z.of_nat k)%Z (times s) /\ (forall t, In t (times s) -> In t (map (fun j => t0 + w * Z.of_nat j)%Z (seq 0 (S k)))) /\
    as_freq E s w = reindex s (map (fun j => t0 + w * Z.of_nat j)%Z (seq 0 (S k))).
Proof.
  intros E s w m Hw Dv S [d ->] H N. destruct s as [|[t0 v0] s]; [congruence|]. unfold as_freq.
  destruct (exists_last N) as (l & [tl vl] & El).
  assert (Elast : fst (List.last ((t0, v0) :: s) (t0, NaN)) = tl) by (rewrite El, last_last; reflexivity). rewrite Elast.
  assert (I0 : In t0 (times ((t0, v0) :: s))) by (now left).
  assert (Il : In tl (times ((t0, v0) :: s))) by (rewrite El; unfold times; rewrite map_app; apply in_or_app; right; now left).
  destruct (H _ I0) as [j0 E0]. destruct (H _ Il) as [jl Ejl].
  assert (Hle : forall t, In t (times ((t0, v0) :: s)) -> (t0 <= t <= tl)%Z).
  { intros t I. split.
    - unfold sorted_index in S. cbn in S, I. inversion S as [|x y Sl F]; subst. destruct I as [->|I]; [lia|]. rewrite Forall_forall in F. specialize (F _ I). lia.
    - rewrite El in S, I. unfold sorted_index, times in *. rewrite map_app in *. cbn [map fst] in *. apply in_app_or in I. destruct I as [I|[I|[]]]; [|lia].
      clear - S I. induction (map fst l) as [|x y IH]; [destruct I|]. cbn in S. inversion S as [|p q Sl F]; subst. destruct I as [->|I]; [|exact (IH Sl I)].
      rewrite Forall_forall in F. specialize (F tl). rewrite in_app_iff in F. cbn in F. intuition lia. }
  set (k := Z.to_nat ((tl - t0) / w)).
  assert (Hs : bin_start (start_day t0) w t0 = t0) by (rewrite E0; now apply aligned_start).
  assert (Hd : (tl - t0 = (jl - j0) * w)%Z) by (rewrite E0, Ejl; ring).
  assert (Hj : (0 <= jl - j0)%Z) by (specialize (Hle _ Il); nia).
  assert (Hk : Z.of_nat k = (jl - j0)%Z) by (unfold k; rewrite Hd, Z.div_mul by lia; now apply Z2Nat.id).
  assert (Eb : bin_starts t0 w tl = map (fun j => t0 + w * Z.of_nat j)%Z (seq 0 (Datatypes.S k))) by (unfold bin_starts; cbv zeta; rewrite Hs; reflexivity).
  assert (Hin : forall t, In t (times ((t0, v0) :: s)) -> In t (map (fun j => t0 + w * Z.of_nat j)%Z (seq 0 (Datatypes.S k)))).
  { intros t I. destruct (H _ I) as [j Ej]. specialize (Hle _ I). assert (0 <= j - j0)%Z by nia. assert (j <= jl)%Z by nia.
    apply in_map_iff. exists (Z.to_nat (j - j0)). rewrite Z2Nat.id by assumption. split; [rewrite Ej, E0; ring|]. apply in_seq. lia. }
  exists t0, k. split; [exact I0|]. split; [replace (t0 + w * Z.of_nat k)%Z with tl by (rewrite Hk; lia); exact Il|]. split; [exact Hin|].
  rewrite Eb. set (labels := map _ _) in *. destruct (match e_infer E _ with Some x => _ | None => _ end && _)%bool eqn:G; [|reflexivity].
  apply andb_true_iff in G. destruct G as [_ G]. apply Nat.eqb_eq in G.
  assert (El' : times ((t0, v0) :: s) = labels).
  { apply sorted_same; [exact S|now apply sorted_steps|]. intros t. split; [apply Hin|]. revert t. apply NoDup_length_incl; [now apply sorted_nodup| |exact Hin].
    unfold times. rewrite map_length. lia. }
  rewrite <- El'. now apply combine_reindex.
Qed.
End Regular.
