(** Records at another time. *)

From Coq Require Import QArith Qcanon List ZArith Bool Arith Sorted Lia.
From Verif.Base Require Import QcExtra ISort Quantile Fl TimeSeries Calendar Rolling.
From Verif.Model Require Import Utilities Interpolation Energy Normalization Filters.
From Verif.Spec Require Import Delay.
Import ListNotations.
Open Scope Qc_scope.

Section Delay.
Variable d : Z.
Local Notation sh := (delayed d).
Local Notation al := (all_delayed d).
Local Notation td := (then_delayed d).

Lemma sh_times : forall s : series, times (sh s) = al (times s).
Proof. intros s. unfold times, delayed, all_delayed. now rewrite !map_map. Qed.
Lemma sh_vals : forall s : series, vals (sh s) = vals s.
Proof. intros s. unfold vals, delayed. now rewrite map_map. Qed.
Lemma sh_length : forall A (s : list (Z * A)), length (sh s) = length s.
Proof. intros. apply map_length. Qed.
Lemma sh_filter : forall A (f g : Z * A -> bool) s, (forall t v, f (t + d, v)%Z = g (t, v)) -> filter f (sh s) = sh (filter g s).
Proof.
  intros A f g s H. induction s as [|[t v] s IH]; [reflexivity|]. cbn [delayed map filter fst snd]. rewrite H. change (map _ s) with (sh s).
  destruct (g (t, v)); cbn; now rewrite IH.
Qed.
Lemma sh_available : forall s, available (sh s) = sh (available s).
Proof. intros s. unfold available. now apply sh_filter. Qed.
Lemma sh_find : forall A (f g : Z * A -> bool) s, (forall t v, f (t + d, v)%Z = g (t, v)) ->
  find f (sh s) = match find g s with Some r => Some (fst r + d, snd r)%Z | None => None end.
Proof.
  intros A f g s H. induction s as [|[t v] s IH]; [reflexivity|]. cbn [delayed map find fst snd]. rewrite H. change (map _ s) with (sh s).
  destruct (g (t, v)); [reflexivity|exact IH].
Qed.
Lemma sh_rev : forall A (s : list (Z * A)), rev (sh s) = sh (rev s).
Proof. intros. unfold delayed. now rewrite map_rev. Qed.
Lemma eqb_sh : forall a b, (a + d =? b + d)%Z = (a =? b)%Z.
Proof. intros. destruct (Z.eqb_spec (a + d) (b + d)), (Z.eqb_spec a b); lia || reflexivity. Qed.
Lemma leb_sh : forall a b, (a + d <=? b + d)%Z = (a <=? b)%Z.
Proof. intros. destruct (Z.leb_spec (a + d) (b + d)), (Z.leb_spec a b); lia || reflexivity. Qed.
Lemma ltb_sh : forall a b, (a + d <? b + d)%Z = (a <? b)%Z.
Proof. intros. destruct (Z.ltb_spec (a + d) (b + d)), (Z.ltb_spec a b); lia || reflexivity. Qed.
Lemma sh_lookup : forall s t, lookup (sh s) (t + d) = lookup s t.
Proof. intros s t. unfold lookup. rewrite (sh_find _ _ (fun r => (fst r =? t)%Z)) by (intros; apply eqb_sh). destruct (find _ s); reflexivity. Qed.
Lemma sh_lookup_bfill : forall s t, lookup_bfill (sh s) (t + d) = lookup_bfill s t.
Proof. intros s t. unfold lookup_bfill. rewrite (sh_find _ _ (fun r => (t <=? fst r)%Z)) by (intros; apply leb_sh). destruct (find _ s); reflexivity. Qed.
Lemma sh_rows : forall A (f g : Z -> A) l, (forall t, f (t + d)%Z = g t) -> map (fun t => (t, f t)) (al l) = sh (map (fun t => (t, g t)) l).
Proof. intros A f g l H. unfold all_delayed, delayed. rewrite !map_map. apply map_ext. intros t. cbn. now rewrite H. Qed.
Lemma sh_reindex : forall s l, reindex (sh s) (al l) = sh (reindex s l).
Proof. intros. apply sh_rows. intros t. apply sh_lookup. Qed.
Lemma sh_bfill : forall s, bfill (sh s) = sh (bfill s).
Proof.
  intros s. induction s as [|[t v] s IH]; [reflexivity|]. cbn [delayed map bfill fst snd]. change (map _ s) with (sh s). rewrite IH.
  destruct (bfill s) as [|[u w] r]; reflexivity.
Qed.
Lemma al_in : forall l t, In t (al l) <-> In (t - d)%Z l.
Proof.
  intros l t. unfold all_delayed. rewrite in_map_iff. split.
  - intros (x & <- & I). now replace (x + d - d)%Z with x by lia.
  - intros I. exists (t - d)%Z. split; [lia|exact I].
Qed.
Lemma al_sorted : forall l, StronglySorted Z.lt l -> StronglySorted Z.lt (al l).
Proof.
  intros l H. induction H as [|a l H IH F]; cbn; constructor; [exact IH|]. apply Forall_forall. intros x I. apply (al_in l x) in I.
  rewrite Forall_forall in F. specialize (F _ I). lia.
Qed.
Lemma al_zset : forall l, zset (al l) = al (zset l).
Proof.
  intros l. apply sorted_lt_unique; [apply zset_sorted|apply al_sorted, zset_sorted|]. intros t. rewrite zset_In, !al_in, zset_In. reflexivity.
Qed.
Lemma al_app : forall a b, al (a ++ b) = al a ++ al b.
Proof. intros. apply map_app. Qed.
Lemma steps_sh : forall l p, steps_from (p + d) (al l) = steps_from p l.
Proof. induction l as [|t l IH]; intros p; [reflexivity|]. cbn. rewrite (IH t : steps_from (t + d) (map (fun t => (t + d)%Z) l) = _). do 2 f_equal. lia. Qed.
Lemma diffs_sh : forall l, time_diffs (al l) = time_diffs l.
Proof. intros [|t l]; [reflexivity|]. cbn. f_equal. apply steps_sh. Qed.
Lemma combine_sh : forall A l (v : list A), combine (al l) v = sh (combine l v).
Proof. intros A l. induction l as [|t l IH]; intros [|x v]; try reflexivity. cbn. f_equal. apply IH. Qed.
Lemma sh_gaps : forall s, gap_sizes (sh s) = sh (gap_sizes s).
Proof. intros s. unfold gap_sizes. now rewrite sh_times, diffs_sh, combine_sh. Qed.
Lemma sh_limit : forall s m, gap_limit (sh s) m = gap_limit s m.
Proof. intros s [m|]; [reflexivity|]. cbn. now rewrite sh_times, diffs_sh. Qed.
Lemma existsb_sh : forall l t, existsb (Z.eqb (t + d)) (al l) = existsb (Z.eqb t) l.
Proof. intros l t. induction l as [|x l IH]; [reflexivity|]. cbn. rewrite eqb_sh. f_equal. exact IH. Qed.
Lemma sh_map : forall A B (f g : Z * A -> B) (s : list (Z * A)), (forall t v, f (t + d, v)%Z = g (t, v)) -> map (fun r => (fst r, f r)) (sh s) = sh (map (fun r => (fst r, g r)) s).
Proof. intros A B f g s H. unfold delayed. rewrite !map_map. apply map_ext. intros [t v]. cbn. now rewrite H. Qed.
Lemma lin_sh : forall t1 v1 t2 v2 t, lin (t1 + d) v1 (t2 + d) v2 (t + d) = lin t1 v1 t2 v2 t.
Proof. intros. unfold lin. replace (t2 + d - (t1 + d))%Z with (t2 - t1)%Z by lia. now replace (t + d - (t1 + d))%Z with (t - t1)%Z by lia. Qed.
Lemma last_such_sh : forall A (f g : Z * A -> bool) s, (forall t v, f (t + d, v)%Z = g (t, v)) ->
  last_such f (sh s) = match last_such g s with Some r => Some (fst r + d, snd r)%Z | None => None end.
Proof.
  intros A f g s H. unfold last_such. rewrite (sh_filter _ f g s H), sh_rev. destruct (rev (filter g s)); reflexivity.
Qed.
Lemma sh_interp_at : forall s t, interp_at (sh s) (t + d) = interp_at s t.
Proof.
  intros s t. unfold interp_at. rewrite (last_such_sh _ _ (fun r => (fst r <? t)%Z)) by (intros; apply ltb_sh).
  rewrite (sh_find _ _ (fun r => (t <? fst r)%Z)) by (intros; apply ltb_sh).
  destruct (last_such _ s) as [[t1 v1]|]; [|reflexivity]. destruct (find _ s) as [[t2 v2]|]; [|reflexivity]. cbn. apply lin_sh.
Qed.
Lemma sh_interp_index : forall s, interp_index (sh s) = sh (interp_index s).
Proof.
  intros s. unfold interp_index. rewrite sh_available. apply (sh_map _ _ (fun r => if isnan (snd r) then interp_at (sh (available s)) (fst r) else snd r)).
  intros t v. cbn. now rewrite sh_interp_at.
Qed.

(** ** Interpolation *)
Theorem interpolate_series_delay : forall s target m, interpolate_series (sh s) (al target) m = sh (interpolate_series s target m).
Proof.
  intros s target m. unfold interpolate_series. cbv zeta. rewrite sh_available, sh_limit, sh_times, <- al_app, al_zset, sh_gaps, sh_reindex, sh_bfill, sh_reindex.
  set (df := available s). set (u := zset (times df ++ target)).
  rewrite (sh_map _ _ _ (fun r => if existsb (Z.eqb (fst r)) (times df) then fz 0 else snd r)) by (intros t v; cbn; now rewrite existsb_sh).
  rewrite (sh_filter _ _ (fun r => fle (lookup (map (fun r => (fst r, if existsb (Z.eqb (fst r)) (times df) then fz 0 else snd r)) (bfill (reindex (gap_sizes df) u))) (fst r)) (gap_limit df m)))
    by (intros t v; cbn [fst]; now rewrite sh_lookup).
  rewrite sh_interp_index. apply sh_rows. intros t. apply sh_lookup.
Qed.
Lemma range_sh : forall a b w, date_range (a + d) (b + d) w = al (date_range a b w).
Proof.
  intros. unfold date_range, all_delayed. rewrite map_map. replace (b + d - (a + d))%Z with (b - a)%Z by lia. apply map_ext. intros k. lia.
Qed.
Lemma last_al : forall l a, List.last (al l) (a + d)%Z = (List.last l a + d)%Z.
Proof. intros l. induction l as [|x l IH]; intros a; [reflexivity|]. destruct l as [|y l]; [reflexivity|]. exact (IH a). Qed.
Theorem interpolate_delay : forall tz tz' s t m, interpolate tz tz' (sh s) (target_delayed d t) m = td (interpolate tz tz' s t m).
Proof.
  intros tz tz' s t m. unfold interpolate. rewrite sh_times. destruct t as [l|w|]; cbn [target_delayed target_index].
  - cbn [bind]. destruct (xorb tz tz'); [reflexivity|]. cbn. now rewrite interpolate_series_delay.
  - destruct (times s) as [|t0 l]; [reflexivity|]. change (al (t0 :: l)) with ((t0 + d)%Z :: al l). cbn [bind].
    change ((t0 + d)%Z :: al l) with (al (t0 :: l)). rewrite last_al, range_sh. destruct (xorb tz tz); [reflexivity|]. cbn. now rewrite interpolate_series_delay.
  - reflexivity.
Qed.

(** ** Energy *)
Lemma sh_steps : forall s, t_step_nanoseconds (sh s) = sh (t_step_nanoseconds s).
Proof. exact sh_gaps. Qed.
Lemma sh_median : forall s, median_step (sh s) = median_step s.
Proof. intros s. unfold median_step. now rewrite sh_steps, sh_vals. Qed.
Lemma label_sh : forall o w t, bin_label (o + d) w (t + d) = (bin_label o w t + d)%Z.
Proof. intros. unfold bin_label. replace (t + d - (o + d))%Z with (t - o)%Z by lia. lia. Qed.
Lemma labels_sh : forall o w l, bin_labels (o + d) w (l + d) = al (bin_labels o w l).
Proof.
  intros. unfold bin_labels, all_delayed. rewrite map_map. replace (l + d - (o + d))%Z with (l - o)%Z by lia. apply map_ext. intros k. lia.
Qed.
Lemma last_sh : forall (s : series) t v, fst (List.last (sh s) ((t + d)%Z, v)) = (fst (List.last s (t, v)) + d)%Z.
Proof. intros s t v. induction s as [|x s IH]; [reflexivity|]. destruct s as [|y s]; [reflexivity|]. exact IH. Qed.
Lemma sh_resample : forall s w, resample_sum (sh s) w = sh (resample_sum s w).
Proof.
  intros [|[t0 v0] s] w; [reflexivity|]. unfold resample_sum. change (sh ((t0, v0) :: s)) with ((t0 + d, v0)%Z :: sh s). cbv iota.
  change ((t0 + d, v0)%Z :: sh s) with (sh ((t0, v0) :: s)). rewrite last_sh, labels_sh. apply sh_rows. intros b.
  rewrite (sh_filter _ _ (fun r => (bin_label t0 w (fst r) =? b)%Z)) by (intros t v; cbn; now rewrite label_sh, eqb_sh). now rewrite sh_vals.
Qed.
Lemma sh_step_energies : forall pt l p, step_energies pt ((fst p + d)%Z, snd p) (sh l) = sh (step_energies pt p l).
Proof.
  intros pt l. induction l as [|[t v] l IH]; intros [tp vp]; [reflexivity|]. cbn [delayed map step_energies fst snd]. change (map _ l) with (sh l).
  rewrite (IH (t, v) : step_energies pt ((t + d)%Z, v) (sh l) = _). f_equal. f_equal. unfold step_energy. cbn [fst snd]. now replace (t + d - (tp + d))%Z with (t - tp)%Z by lia.
Qed.
Lemma sh_filled : forall pt av u, filled pt (sh av) (al u) = sh (filled pt av u).
Proof. intros pt av u. destruct pt; cbn [filled]; rewrite sh_reindex; auto using sh_bfill, sh_interp_index. Qed.
Lemma mask_sh : forall av u limit t, gap_mask (sh av) (al u) limit (t + d) = gap_mask av u limit t.
Proof.
  intros av u limit t. unfold gap_mask. rewrite sh_gaps, sh_lookup_bfill. f_equal. destruct av as [|[a v] av]; [reflexivity|]. destruct u as [|b u]; [reflexivity|].
  cbn. now rewrite eqb_sh, leb_sh.
Qed.
Lemma sh_tl : forall A (s : list (Z * A)), tl (sh s) = sh (tl s).
Proof. intros A [|x s]; reflexivity. Qed.
Lemma aggregate_delay : forall s w limit pt, aggregate (sh s) w limit pt = td (aggregate s w limit pt).
Proof.
  intros s w limit pt. destruct s as [|[t0 v0] s]; [reflexivity|]. set (S := (t0, v0) :: s).
  assert (U : forall (x : series) t v l, x = (t, v) :: l -> aggregate x w limit pt =
    match available x with
    | [] => Raise IndexError
    | _ => let union := zset (times x ++ bin_labels t w (fst (List.last x (t, NaN)))) in
      match pt with
      | OtherType => Raise ValueError
      | _ =>
        let masked := map (fun r => (fst r, if gap_mask (available x) union limit (fst r) then NaN else snd r)) (filled pt (available x) union) in
        match masked with
        | [] => Raise IndexError
        | r0 :: l => Ok (tl (resample_sum ((fst r0, NaN) :: step_energies pt r0 l) w))
        end
      end
    end) by (intros x t v l ->; unfold aggregate; destruct (available ((t, v) :: l)); reflexivity).
  rewrite (U (sh S) (t0 + d)%Z v0 (sh s) eq_refl), (U S t0 v0 s eq_refl). rewrite sh_available. generalize (available S). intros A.
  destruct A as [|[a va] av]; [reflexivity|]. change (sh ((a, va) :: av)) with ((a + d, va)%Z :: sh av) at 1. cbv iota zeta.
  rewrite last_sh, labels_sh, sh_times, <- al_app, al_zset. set (u := zset _). set (A := (a, va) :: av).
  assert (M : forall pt, map (fun r => (fst r, if gap_mask (sh A) (al u) limit (fst r) then NaN else snd r)) (filled pt (sh A) (al u)) =
    sh (map (fun r => (fst r, if gap_mask A u limit (fst r) then NaN else snd r)) (filled pt A u))).
  { intros pt'. rewrite sh_filled. apply (sh_map _ _ (fun r => if gap_mask (sh A) (al u) limit (fst r) then NaN else snd r)). intros t v. cbn [fst snd]. now rewrite mask_sh. }
  destruct pt; [| |reflexivity]; rewrite M; match goal with |- context [sh (map ?f ?l)] => destruct (map f l) as [|r0 l'] end; try reflexivity.
  - change (sh (r0 :: l')) with ((fst r0 + d, snd r0)%Z :: sh l'). cbv iota. rewrite sh_step_energies. cbn [fst].
    change ((fst r0 + d, NaN)%Z :: sh ?x) with (sh ((fst r0, NaN) :: x)). rewrite sh_resample, sh_tl. reflexivity.
  - change (sh (r0 :: l')) with ((fst r0 + d, snd r0)%Z :: sh l'). cbv iota. rewrite sh_step_energies. cbn [fst].
    change ((fst r0 + d, NaN)%Z :: sh ?x) with (sh ((fst r0, NaN) :: x)). rewrite sh_resample, sh_tl. reflexivity.
Qed.
Theorem energy_delay : forall freq s target m pt, energy_from_power freq (sh s) target m pt = td (energy_from_power freq s target m pt).
Proof.
  intros freq s target m pt. destruct s as [|r [|r' s]].
  - cbn. destruct pt, (match target with Some w => Some w | None => freq end); reflexivity.
  - cbn. destruct pt, (match target with Some w => Some w | None => freq end); reflexivity.
  - set (S := r :: r' :: s).
    assert (U : forall x : series, (exists a b l, x = a :: b :: l) -> energy_from_power freq x target m pt =
      match median_step x with
      | Fin median =>
        let width := match target with Some w => w | None => qfloor median end in
        let limit := match m with Some m => m | None => median end in
        bind (if qle (qz width) median then interpolate true true x (TFreq width) (Some (qz (qfloor limit))) else Ok x) (fun p =>
        bind (aggregate p width (qz (qfloor limit)) pt) (fun energy =>
        Ok (map (fun r => (fst r, if fgt (lookup_bfill (t_step_nanoseconds x) (fst r)) (Fin limit) then NaN else snd r)) energy)))
      | _ => Raise ValueError end) by (intros x (a & b & l & ->); reflexivity).
    rewrite (U (sh S)) by (eexists _, _, _; reflexivity). rewrite (U S) by (eexists _, _, _; reflexivity). rewrite sh_median.
    destruct (median_step S) as [| |med|]; try reflexivity. cbv zeta.
    set (width := match target with Some w => w | None => qfloor med end). set (limit := match m with Some m => m | None => med end).
    match goal with |- bind ?x _ = td (bind ?y _) => assert (I : x = td y) end.
    { destruct (qle (qz width) med); [|reflexivity]. exact (interpolate_delay true true S (TFreq width) (Some (qz (qfloor limit)))). }
    rewrite I. clear I. match goal with |- bind (td ?x) _ = _ => destruct x as [p|e] end; [|reflexivity]. cbn [then_delayed bind]. rewrite aggregate_delay.
    destruct (aggregate p width (qz (qfloor limit)) pt) as [en|e]; [|reflexivity]. cbn [then_delayed bind]. f_equal. rewrite sh_steps.
    apply (sh_map _ _ (fun r => if fgt (lookup_bfill (sh (t_step_nanoseconds S)) (fst r)) (Fin limit) then NaN else snd r)). intros t v. cbn [fst snd]. now rewrite sh_lookup_bfill.
Qed.
End Delay.
