(** Interpolation, energies and normalization of power in another unit, for all values. *)

From Coq Require Import QArith Qcanon List ZArith Bool Arith Lia.
From Verif.Base Require Import QcExtra ISort Quantile Fl TimeSeries Calendar Rolling.
From Verif.Model Require Import Utilities Interpolation Energy Normalization.
From Verif.Spec Require Import Interp Energy.
From Verif.Proofs Require Import FlP.
Import ListNotations.
Open Scope list_scope.
Open Scope Qc_scope.

Section Unit.
Variable k : Qc.
Hypothesis Hk : 0 < k.
Local Notation sc := (fscale k).
Local Notation g := (on_values (fscale k)).

Lemma fdiv_any : forall x y, fdiv (sc x) y = sc (fdiv x y).
Proof.
  intros x y. destruct y as [| |c|].
  - destruct x; rewrite ?fscale_NaN, ?(fscale_NInf k Hk), ?(fscale_PInf k Hk), ?fscale_Fin; cbn [fdiv]; reflexivity.
  - destruct x; rewrite ?fscale_NaN, ?(fscale_NInf k Hk), ?(fscale_PInf k Hk), ?fscale_Fin; cbn [fdiv]; rewrite ?fscale_Fin, ?Qcmult_0_r; reflexivity.
  - destruct (qeq c 0) eqn:E.
    + apply qeq_spec in E. subst c. assert (Z : forall A (u v : A), (if qeq 0 0 then u else v) = u) by reflexivity.
      destruct x; rewrite ?fscale_NaN, ?(fscale_NInf k Hk), ?(fscale_PInf k Hk), ?fscale_Fin; cbn [fdiv]; rewrite ?Z; rewrite ?fscale_NaN, ?(fscale_NInf k Hk), ?(fscale_PInf k Hk); try reflexivity.
      rewrite (fscale_inf_sgn k Hk). apply (inf_sgn_scale k Hk).
    + apply qeq_false in E. now apply fdiv_fscale_l.
  - destruct x; rewrite ?fscale_NaN, ?(fscale_NInf k Hk), ?(fscale_PInf k Hk), ?fscale_Fin; cbn [fdiv]; rewrite ?fscale_Fin, ?Qcmult_0_r; reflexivity.
Qed.
Lemma times_u : forall s, times (g s) = times s.
Proof. intros s. unfold times, on_values. rewrite map_map. reflexivity. Qed.
Lemma vals_u : forall s, vals (g s) = map sc (vals s).
Proof. intros s. unfold vals, on_values. rewrite !map_map. reflexivity. Qed.
Lemma available_u : forall s, available (g s) = g (available s).
Proof. intros s. unfold available, on_values. rewrite filter_map_comm. f_equal. apply filter_ext. intros r. cbn [fst snd]. unfold notnan. now rewrite (isnan_fscale k Hk). Qed.
Lemma find_u : forall (f : Z -> bool) s, find (fun r => f (fst r)) (g s) = option_map (fun r => (fst r, sc (snd r))) (find (fun r => f (fst r)) s).
Proof. intros f s. unfold on_values. induction s as [|[t v] s IH]; [reflexivity|]. cbn. destruct (f t); [reflexivity|exact IH]. Qed.
Lemma filter_u : forall (f : Z -> bool) s, filter (fun r => f (fst r)) (g s) = g (filter (fun r => f (fst r)) s).
Proof. intros f s. unfold on_values. apply filter_map_comm. Qed.
Lemma last_u : forall (f : Z -> bool) s, last_such (fun r => f (fst r)) (g s) = option_map (fun r => (fst r, sc (snd r))) (last_such (fun r => f (fst r)) s).
Proof. intros f s. unfold last_such. rewrite filter_u. unfold on_values. rewrite <- map_rev. destruct (rev _); reflexivity. Qed.
Lemma lookup_u : forall s t, lookup (g s) t = sc (lookup s t).
Proof. intros s t. unfold lookup. rewrite (find_u (fun u => (u =? t)%Z)). destruct (find _ s); reflexivity. Qed.
Lemma lookup_bfill_times : forall (s s' : series) t, s = s' -> lookup_bfill s t = lookup_bfill s' t.
Proof. intros. now subst. Qed.
Lemma reindex_u : forall s idx, reindex (g s) idx = g (reindex s idx).
Proof. intros s idx. unfold reindex, on_values. rewrite map_map. apply map_ext. intros t. cbn. f_equal. apply lookup_u. Qed.
Lemma bfill_u : forall s, bfill (g s) = g (bfill s).
Proof.
  induction s as [|[t v] s IH]; [reflexivity|]. cbn [bfill on_values map fst snd]. fold (g s). rewrite IH, (isnan_fscale k Hk). f_equal. f_equal.
  destruct (isnan v); [|reflexivity]. destruct (bfill s) as [|[u w] l]; reflexivity.
Qed.
Lemma lin_u : forall t1 v1 t2 v2 t, lin t1 (sc v1) t2 (sc v2) t = sc (lin t1 v1 t2 v2 t).
Proof. intros. unfold lin. now rewrite (fsub_fscale k Hk), fdiv_any, (fmul_fscale_l k Hk), (fadd_fscale k Hk). Qed.
Lemma interp_at_u : forall s t, interp_at (g s) t = sc (interp_at s t).
Proof.
  intros s t. unfold interp_at. rewrite (last_u (fun u => (u <? t)%Z)), (find_u (fun u => (t <? u)%Z)).
  destruct (last_such _ s) as [[t1 v1]|], (find _ s) as [[t2 v2]|]; cbn [option_map fst snd]; try reflexivity. apply lin_u.
Qed.
Lemma interp_index_u : forall s, interp_index (g s) = g (interp_index s).
Proof.
  intros s. unfold interp_index. rewrite available_u. unfold on_values at 2 3. rewrite !map_map. apply map_ext. intros [t v]. cbn [fst snd]. f_equal.
  rewrite (isnan_fscale k Hk). destruct (isnan v); [apply interp_at_u|reflexivity].
Qed.
Lemma interpolate_series_u : forall s target m, interpolate_series (g s) target m = g (interpolate_series s target m).
Proof.
  intros s target m. unfold interpolate_series, gap_limit, gap_sizes. rewrite available_u, times_u, reindex_u. cbv zeta.
  match goal with |- context [filter (fun r => fle (lookup ?x (fst r)) ?y) _] => rewrite (filter_u (fun t => fle (lookup x t) y)) end.
  rewrite interp_index_u. unfold on_values at 2. rewrite map_map. apply map_ext. intros t. cbn [fst snd]. f_equal. apply lookup_u.
Qed.
Lemma interpolate_u : forall a b s target m, interpolate a b (g s) target m = rmap g (interpolate a b s target m).
Proof.
  intros a b s target m. unfold interpolate. rewrite times_u. destruct (target_index (times s) target) as [idx|]; [|reflexivity]. cbn [bind].
  destruct (xorb _ _); [reflexivity|]. cbn [rmap]. now rewrite interpolate_series_u.
Qed.
Lemma resample_u : forall s w, resample_sum (g s) w = g (resample_sum s w).
Proof.
  intros s w. unfold resample_sum. destruct s as [|[t0 v0] s]; [reflexivity|]. set (s0 := (t0, v0) :: s).
  change (match g s0 with [] => [] | (t0, _) :: _ => map (fun b => (b, fsum1 (vals (filter (fun r => (bin_label t0 w (fst r) =? b)%Z) (g s0))))) (bin_labels t0 w (fst (List.last (g s0) (t0, NaN)))) end
          = g (map (fun b => (b, fsum1 (vals (filter (fun r => (bin_label t0 w (fst r) =? b)%Z) s0)))) (bin_labels t0 w (fst (List.last s0 (t0, NaN)))))).
  assert (L : forall d (l : series), fst (List.last (g l) d) = fst (List.last l d)).
  { intros d l. induction l as [|r l IH]; [reflexivity|]. destruct l as [|r' l]; [reflexivity|]. exact IH. }
  cbn [on_values map fst snd s0]. change ((t0, sc v0) :: map (fun r => (fst r, sc (snd r))) s) with (g s0). rewrite L. fold s0.
  unfold on_values at 2. rewrite map_map. apply map_ext. intros b. cbn [fst snd]. f_equal.
  rewrite (filter_u (fun t => (bin_label t0 w t =? b)%Z)), vals_u. unfold fsum1. rewrite (dropna_fscale k Hk), (fsum_fscale k Hk).
  destruct (dropna _); reflexivity.
Qed.
Lemma step_u : forall pt p r, step_energy pt (fst p, sc (snd p)) (fst r, sc (snd r)) = sc (step_energy pt p r).
Proof.
  intros pt p r. unfold step_energy. cbn [fst snd]. destruct pt; rewrite ?(fadd_fscale k Hk), ?fdiv_any, ?(fmul_fscale_l k Hk); reflexivity.
Qed.
Lemma steps_u : forall pt l p, step_energies pt (fst p, sc (snd p)) (g l) = g (step_energies pt p l).
Proof.
  intros pt l. induction l as [|r l IH]; intros p; [reflexivity|]. cbn [step_energies on_values map]. f_equal; [cbn [fst snd]; f_equal; apply step_u|]. apply IH.
Qed.
Lemma filled_u : forall pt av union, Energy.filled pt (g av) union = g (Energy.filled pt av union).
Proof. intros pt av union. unfold Energy.filled. rewrite reindex_u. destruct pt; [apply bfill_u|apply interp_index_u|apply bfill_u]. Qed.
Lemma gap_mask_u : forall av union limit t, gap_mask (g av) union limit t = gap_mask av union limit t.
Proof. intros av union limit t. unfold gap_mask, gap_sizes. rewrite times_u. f_equal. destruct av as [|[a v] av]; reflexivity. Qed.
Lemma masked_u : forall (f : Z -> bool) s, map (fun r => (fst r, if f (fst r) then NaN else snd r)) (g s) = g (map (fun r => (fst r, if f (fst r) then NaN else snd r)) s).
Proof. intros f s. unfold on_values. rewrite !map_map. apply map_ext. intros r. cbn [fst snd]. destruct (f (fst r)); reflexivity. Qed.
Lemma aggregate_u : forall s w limit pt, aggregate (g s) w limit pt = rmap g (aggregate s w limit pt).
Proof.
  intros s w limit pt. unfold aggregate. rewrite times_u. destruct s as [|[t0 v0] s]; [reflexivity|]. set (s0 := (t0, v0) :: s).
  assert (L : forall d (l : series), fst (List.last (g l) d) = fst (List.last l d)).
  { intros d l. induction l as [|r l IH]; [reflexivity|]. destruct l as [|r' l]; [reflexivity|]. exact IH. }
  change (g s0) with ((t0, sc v0) :: g s). cbv beta iota. change ((t0, sc v0) :: g s) with (g s0).
  change (match s0 with [] => @Raise series IndexError | _ => @Raise series IndexError end) with (@Raise series IndexError) in *.
  unfold s0 at 3. cbv beta iota. fold s0. rewrite available_u. destruct (available s0) as [|r av] eqn:Av; [reflexivity|].
  change (g (r :: av)) with ((fst r, sc (snd r)) :: g av). cbv beta iota. change ((fst r, sc (snd r)) :: g av) with (g (r :: av)). rewrite L.
  set (union := zset _). cbv zeta. 
  assert (X : match map (fun r0 => (fst r0, if gap_mask (g (r :: av)) union limit (fst r0) then NaN else snd r0)) (Energy.filled pt (g (r :: av)) union) with
              | [] => Raise IndexError | r0 :: l => Ok (tl (resample_sum ((fst r0, NaN) :: step_energies pt r0 l) w)) end
            = rmap g match map (fun r0 => (fst r0, if gap_mask (r :: av) union limit (fst r0) then NaN else snd r0)) (Energy.filled pt (r :: av) union) with
              | [] => Raise IndexError | r0 :: l => Ok (tl (resample_sum ((fst r0, NaN) :: step_energies pt r0 l) w)) end).
  { rewrite filled_u. rewrite (map_ext (fun r0 : Z * fl => (fst r0, if gap_mask (g (r :: av)) union limit (fst r0) then NaN else snd r0)) (fun r0 => (fst r0, if gap_mask (r :: av) union limit (fst r0) then NaN else snd r0)))
      by (intros r0; now rewrite gap_mask_u).
    rewrite (masked_u (gap_mask (r :: av) union limit)). destruct (map _ (Energy.filled pt (r :: av) union)) as [|r0 l]; [reflexivity|].
    cbn [on_values map]. fold (g l). cbn [rmap fst]. f_equal. 
    change ((fst r0, NaN) :: step_energies pt (fst r0, sc (snd r0)) (g l)) with ((fst r0, sc NaN) :: step_energies pt (fst r0, sc (snd r0)) (g l)).
    rewrite steps_u. change ((fst r0, sc NaN) :: g (step_energies pt r0 l)) with (g ((fst r0, NaN) :: step_energies pt r0 l)). rewrite resample_u.
    unfold on_values. destruct (resample_sum _ _); reflexivity. }
  destruct pt; [exact X|exact X|reflexivity].
Qed.
Lemma fold_u : forall s, map (fun r : Z * fl => (fst r, sc (snd r))) s = g s.
Proof. reflexivity. Qed.
Theorem energy_u : forall freq power target max pt, energy_from_power freq (g power) target max pt = rmap g (energy_from_power freq power target max pt).
Proof.
  intros freq power target max pt.
  assert (Short : forall s : series, match pt with Instantaneous => Raise ValueError | _ =>
      match (match target with Some w => Some w | None => freq end) with None => Raise ValueError
      | Some w => Ok (map (fun r => (fst r, fdiv (fdiv (fmul (snd r) (fz w)) (fz 1000000000)) (fz 3600))) (g s)) end end
    = rmap g match pt with Instantaneous => Raise ValueError | _ =>
      match (match target with Some w => Some w | None => freq end) with None => Raise ValueError
      | Some w => Ok (map (fun r => (fst r, fdiv (fdiv (fmul (snd r) (fz w)) (fz 1000000000)) (fz 3600))) s) end end).
  { intros s. assert (Y : forall w, map (fun r => (fst r, fdiv (fdiv (fmul (snd r) (fz w)) (fz 1000000000)) (fz 3600))) (g s) = g (map (fun r => (fst r, fdiv (fdiv (fmul (snd r) (fz w)) (fz 1000000000)) (fz 3600))) s)).
    { intros w. unfold on_values. rewrite !map_map. apply map_ext. intros r. cbn [fst snd]. now rewrite (fmul_fscale_l k Hk), !fdiv_any. }
    destruct pt; try reflexivity; (destruct (match target with Some w => Some w | None => freq end); [cbn [rmap]; now rewrite Y|reflexivity]). }
  destruct power as [|r [|r' power]]; [exact (Short [])|exact (Short [r])|]. set (s := r :: r' :: power).
  assert (M : median_step (g s) = median_step s) by (unfold median_step, t_step_nanoseconds; now rewrite times_u).
  unfold energy_from_power. change (g s) with ((fst r, sc (snd r)) :: (fst r', sc (snd r')) :: g power). cbv beta iota. unfold s at 1. cbv beta iota. 
  change ((fst r, sc (snd r)) :: (fst r', sc (snd r')) :: g power) with (g s). fold s. rewrite M. destruct (median_step s) as [| |median|]; try reflexivity.
  set (width := match target with Some w => w | None => _ end). set (limit := match max with Some m => m | None => _ end).
  assert (I : (if qle (qz width) median then interpolate true true (g s) (TFreq width) (Some (qz (qfloor limit))) else Ok (g s))
            = rmap g (if qle (qz width) median then interpolate true true s (TFreq width) (Some (qz (qfloor limit))) else Ok s)).
  { destruct (qle _ _); [apply interpolate_u|reflexivity]. }
  cbv zeta. fold limit width. cbv zeta. fold s. rewrite I.
  match goal with |- bind (rmap g ?x) _ = rmap g (bind ?y _) => change y with x; destruct x as [p|] end; [|reflexivity]. cbn [rmap bind]. rewrite aggregate_u.
  destruct (aggregate p width _ pt) as [e|]; [|reflexivity]. cbn [rmap bind]. f_equal.
  unfold t_step_nanoseconds. rewrite times_u. apply (masked_u (fun t => fgt (lookup_bfill (combine (times s) (time_diffs (times s))) t) (Fin limit))).
Qed.

(** ** Normalization *)
Lemma align_u : forall f h a b, f NaN = NaN -> h NaN = NaN -> align (on_values f a) (on_values h b) = map (fun r => (fst r, (f (fst (snd r)), h (snd (snd r))))) (align a b).
Proof.
  intros f h a b Hf Hh. assert (T : forall u s, times (on_values u s) = times s) by (intros u s; unfold times, on_values; rewrite map_map; reflexivity).
  assert (L : forall u s t, u NaN = NaN -> lookup (on_values u s) t = u (lookup s t)).
  { intros u s t Hu. unfold lookup, on_values. induction s as [|[t' v] s IH]; [symmetry; exact Hu|]. cbn. destruct (t' =? t)%Z; [reflexivity|exact IH]. }
  unfold align. rewrite !T. destruct (same_index _ _).
  - unfold on_values. rewrite !map_map. revert b. induction a as [|x a IH]; intros [|y b]; try reflexivity. cbn. f_equal. apply IH.
  - rewrite !map_map. apply map_ext. intros t. cbn [fst snd]. now rewrite !L.
Qed.
Lemma on_id : forall s, on_values (fun x => x) s = s.
Proof. intros s. unfold on_values. rewrite <- (map_id s) at 2. apply map_ext. now intros []. Qed.
Lemma zip_both : forall a b, zip_aligned fdiv (g a) (g b) = zip_aligned fdiv a b.
Proof. intros a b. unfold zip_aligned. rewrite align_u by reflexivity. rewrite map_map. apply map_ext. intros [t [x y]]. cbn [fst snd]. now rewrite (fdiv_fscale k Hk). Qed.
Lemma zip_first : forall a b, zip_aligned fdiv (g a) b = g (zip_aligned fdiv a b).
Proof.
  intros a b. rewrite <- (on_id b) at 1. unfold zip_aligned. rewrite align_u by reflexivity. unfold on_values. rewrite !map_map. apply map_ext. intros [t [x y]]. cbn [fst snd]. now rewrite fdiv_any.
Qed.
Lemma zip_mul : forall a b, zip_aligned fmul (g a) b = g (zip_aligned fmul a b).
Proof.
  intros a b. rewrite <- (on_id b) at 1. unfold zip_aligned. rewrite align_u by reflexivity. unfold on_values. rewrite !map_map. apply map_ext. intros [t [x y]]. cbn [fst snd]. now rewrite (fmul_fscale_l k Hk).
Qed.
Lemma mean_step_u : forall f s, mean_step f (g s) = mean_step f s.
Proof. intros f s. unfold mean_step. rewrite times_u. destruct f; [|reflexivity]. unfold on_values. rewrite !map_map. reflexivity. Qed.
Lemma check_u : forall infer f s, check_series_frequency infer f (g s) = check_series_frequency infer f s.
Proof. intros. unfold check_series_frequency. now rewrite times_u. Qed.
Lemma measured_u : forall kind pf pv w, match kind with PvPower => bind (energy_from_power pf (g pv) (Some w) None RightLabeled) (fun e => Ok (e, Some w)) | PvEnergy => Ok (g pv, pf) | PvOther => Raise ValueError end
  = rmap (fun p => (g (fst p), snd p)) match kind with PvPower => bind (energy_from_power pf pv (Some w) None RightLabeled) (fun e => Ok (e, Some w)) | PvEnergy => Ok (pv, pf) | PvOther => Raise ValueError end.
Proof. intros kind pf pv w. destruct kind; try reflexivity. rewrite energy_u. destruct (energy_from_power _ _ _ _ _); reflexivity. Qed.

(** Measured and expected power in another unit. *)
Theorem normalize_both : forall infer pf mf pv model poa kind,
  normalize_with_expected_power infer pf mf (g pv) (g model) poa kind = normalize_with_expected_power infer pf mf pv model poa kind.
Proof.
  intros infer pf mf pv model poa kind. unfold normalize_with_expected_power. rewrite check_u, times_u. destruct (check_series_frequency infer pf pv) as [w|]; [|reflexivity]. cbn [bind].
  rewrite measured_u. destruct (match kind with PvPower => _ | PvEnergy => _ | PvOther => _ end) as [[e f]|]; [|reflexivity]. cbn [rmap bind fst snd]. cbv zeta. rewrite !mean_step_u.
  set (sl := fgt _ _).
  assert (I : (if sl then interpolate true true (g model) (TIndex (times pv)) None else Ok (g model)) = rmap g (if sl then interpolate true true model (TIndex (times pv)) None else Ok model)).
  { destruct sl; [apply interpolate_u|reflexivity]. }
  rewrite I. destruct (if sl then interpolate true true model _ _ else Ok model) as [p|]; [|reflexivity]. cbn [rmap bind]. destruct (if sl then interpolate true true poa _ _ else Ok poa) as [q|]; [|reflexivity]. cbn [bind].
  rewrite energy_u. destruct (energy_from_power None p _ _ _) as [ee|]; [|reflexivity]. cbn [rmap bind]. destruct (energy_from_power None q _ _ _) as [ii|]; [|reflexivity]. cbn [bind].
  now rewrite zip_both.
Qed.
(** Measured power only. *)
Theorem normalize_measured : forall infer pf mf pv model poa kind,
  normalize_with_expected_power infer pf mf (g pv) model poa kind = rmap (fun r => (g (fst r), snd r)) (normalize_with_expected_power infer pf mf pv model poa kind).
Proof.
  intros infer pf mf pv model poa kind. unfold normalize_with_expected_power. rewrite check_u, times_u. destruct (check_series_frequency infer pf pv) as [w|]; [|reflexivity]. cbn [bind].
  rewrite measured_u. destruct (match kind with PvPower => _ | PvEnergy => _ | PvOther => _ end) as [[e f]|]; [|reflexivity]. cbn [rmap bind fst snd]. cbv zeta. rewrite mean_step_u.
  set (sl := fgt _ _).
  destruct (if sl then interpolate true true model _ _ else Ok model) as [p|]; [|reflexivity]. cbn [bind]. destruct (if sl then interpolate true true poa _ _ else Ok poa) as [q|]; [|reflexivity]. cbn [bind].
  destruct (energy_from_power None p _ _ _) as [ee|]; [|reflexivity]. cbn [bind]. destruct (energy_from_power None q _ _ _) as [ii|]; [|reflexivity]. cbn [rmap bind fst snd].
  rewrite zip_first, times_u, reindex_u. reflexivity.
Qed.
Lemma pvwatts_u : forall poa rated temp ref tref gamma, pvwatts_dc_power poa (sc rated) temp ref tref gamma = g (pvwatts_dc_power poa rated temp ref tref gamma).
Proof.
  intros poa rated temp ref tref gamma. unfold pvwatts_dc_power.
  assert (X : on_values (fun v => fdiv (fmul (sc rated) v) ref) poa = g (on_values (fun v => fdiv (fmul rated v) ref) poa)).
  { unfold on_values. rewrite !map_map. apply map_ext. intros r. cbn [fst snd]. now rewrite (fmul_fscale_l k Hk), fdiv_any. }
  cbv zeta. rewrite X. destruct temp as [t|], gamma as [c|]; try reflexivity. apply zip_mul.
Qed.
End Unit.
