(** Interpolation and energy of weighted sums. *)

From Coq Require Import QArith Qcanon List ZArith Bool Arith Lia.
From Verif.Base Require Import QcExtra ISort Quantile Fl TimeSeries.
From Verif.Spec Require Import Superposition.
From Verif.Model Require Import Interpolation Energy.
Import ListNotations.
Open Scope list_scope.
Open Scope Qc_scope.

(** ** Two series at once *)

Definition duo : Type := option (Qc * Qc).
Definition duos : Type := list (Z * duo).
Definition dadd (x y : duo) : duo := match x, y with Some (p, q), Some (p', q') => Some (p + p', q + q') | _, _ => None end.
Definition dmul (c : Qc) (x : duo) : duo := match x with Some (p, q) => Some (c * p, c * q) | None => None end.
Definition dlin (t1 : Z) (v1 : duo) (t2 : Z) (v2 : duo) (t : Z) : duo :=
  dadd (dmul (qz (t - t1) / qz (t2 - t1)) (dadd v2 (dmul (- (1)) v1))) v1.
Definition dnone (x : duo) : bool := match x with None => true | _ => false end.
Definition dlookup (s : duos) (t : Z) : duo := match find (fun r => (fst r =? t)%Z) s with Some r => snd r | None => None end.
Definition dreindex (s : duos) (idx : list Z) : duos := map (fun t => (t, dlookup s t)) idx.
Definition davailable (s : duos) : duos := filter (fun r => negb (dnone (snd r))) s.
Fixpoint dbfill (s : duos) : duos :=
  match s with
  | [] => []
  | (t, v) :: s' => let r := dbfill s' in (t, if dnone v then match r with (_, w) :: _ => w | [] => None end else v) :: r
  end.
Definition dinterp_at (valid : duos) (t : Z) : duo :=
  match last_such (fun r => (fst r <? t)%Z) valid, find (fun r => (t <? fst r)%Z) valid with
  | Some (t1, v1), Some (t2, v2) => dlin t1 v1 t2 v2 t
  | Some (_, v1), None => v1
  | None, _ => None
  end.
Definition dinterp_index (s : duos) : duos := map (fun r => (fst r, if dnone (snd r) then dinterp_at (davailable s) (fst r) else snd r)) s.
Definition hours_of (ns : Z) : Qc := qz ns / qz 1000000000 / qz 3600.
Definition dstep (pt : power_type) (prev cur : Z * duo) : duo :=
  match pt with
  | Instantaneous => dmul (hours_of (fst cur - fst prev) * / qz 2) (dadd (snd cur) (snd prev))
  | _ => dmul (hours_of (fst cur - fst prev)) (snd cur)
  end.
Fixpoint dsteps (pt : power_type) (prev : Z * duo) (l : duos) : duos :=
  match l with [] => [] | r :: l' => (fst r, dstep pt prev r) :: dsteps pt r l' end.
Fixpoint dsum (l : list duo) : Qc * Qc :=
  match l with [] => (0, 0) | Some (p, q) :: l' => (p + fst (dsum l'), q + snd (dsum l')) | None :: l' => dsum l' end.
Definition dsum1 (l : list duo) : duo := if forallb dnone l then None else Some (dsum l).
Definition dresample (s : duos) (w : Z) : duos :=
  match s with
  | [] => []
  | (t0, _) :: _ =>
    map (fun b => (b, dsum1 (map snd (filter (fun r => (bin_label t0 w (fst r) =? b)%Z) s)))) (bin_labels t0 w (fst (List.last s (t0, None))))
  end.
Definition dfilled (pt : power_type) (av : duos) (union : list Z) : duos :=
  match pt with Instantaneous => dinterp_index (dreindex av union) | _ => dbfill (dreindex av union) end.

Section Weights.
Variables a b : Qc.
Definition h (x : duo) : fl := match x with None => NaN | Some (p, q) => Fin (a * p + b * q) end.
Definition g (s : duos) : series := map (fun r => (fst r, h (snd r))) s.

Lemma isnan_h : forall x, isnan (h x) = dnone x.
Proof. intros [[p q] |]; reflexivity. Qed.
Lemma times_g : forall s, times (g s) = map fst s.
Proof. intros s. unfold times, g. rewrite map_map. reflexivity. Qed.
Lemma vals_g : forall s, vals (g s) = map h (map snd s).
Proof. intros s. unfold vals, g. rewrite !map_map. reflexivity. Qed.
Lemma find_g : forall (f : Z -> bool) s, find (fun r => f (fst r)) (g s) = option_map (fun r => (fst r, h (snd r))) (find (fun r => f (fst r)) s).
Proof. intros f s. induction s as [| [t v] s IH]; [reflexivity |]. cbn. destruct (f t); [reflexivity | exact IH]. Qed.
Lemma filter_g : forall (f : Z -> bool) s, filter (fun r => f (fst r)) (g s) = g (filter (fun r => f (fst r)) s).
Proof. intros f s. induction s as [| [t v] s IH]; [reflexivity |]. cbn [g map filter fst snd]. fold (g s). destruct (f t); cbn [g map fst snd]; rewrite IH; reflexivity. Qed.
Lemma available_g : forall s, available (g s) = g (davailable s).
Proof. intros s. unfold available, davailable. induction s as [| [t v] s IH]; [reflexivity |]. cbn [g map filter fst snd]. unfold notnan at 1. rewrite isnan_h. destruct (negb (dnone v)); cbn [map]; fold (g s); rewrite IH; reflexivity. Qed.
Lemma last_g : forall (f : Z -> bool) s, last_such (fun r => f (fst r)) (g s) = option_map (fun r => (fst r, h (snd r))) (last_such (fun r => f (fst r)) s).
Proof. intros f s. unfold last_such. rewrite filter_g. unfold g. rewrite <- map_rev. destruct (rev _); reflexivity. Qed.
Lemma lookup_g : forall s t, lookup (g s) t = h (dlookup s t).
Proof. intros s t. unfold lookup, dlookup. rewrite (find_g (fun u => (u =? t)%Z)). destruct (find _ s); reflexivity. Qed.
Lemma reindex_g : forall s idx, reindex (g s) idx = g (dreindex s idx).
Proof. intros s idx. unfold reindex, dreindex, g. rewrite map_map. apply map_ext. intros t. cbn. f_equal. apply lookup_g. Qed.
Lemma bfill_g : forall s, bfill (g s) = g (dbfill s).
Proof.
  induction s as [| [t v] s IH]; [reflexivity |]. cbn [bfill dbfill g map fst snd]. fold (g s). rewrite IH, isnan_h. f_equal. f_equal.
  destruct (dnone v); [| reflexivity]. destruct (dbfill s) as [| [u w] l]; reflexivity.
Qed.
Lemma dadd_h : forall x y, fadd (h x) (h y) = h (dadd x y).
Proof. intros [[p q] |] [[p' q'] |]; cbn; try reflexivity. f_equal. ring. Qed.
Lemma dmul_h : forall c x, fmul (h x) (Fin c) = h (dmul c x).
Proof. intros c [[p q] |]; cbn; [f_equal; ring | reflexivity]. Qed.
Lemma ddiv_h : forall c x, c <> 0 -> fdiv (h x) (Fin c) = h (dmul (/ c) x).
Proof. intros c [[p q] |] Hc; cbn; [| reflexivity]. apply qeq_false in Hc. rewrite Hc. f_equal. unfold Qcdiv. ring. Qed.
Lemma dsub_h : forall x y, fsub (h x) (h y) = h (dadd x (dmul (- (1)) y)).
Proof. intros [[p q] |] [[p' q'] |]; cbn; try reflexivity. f_equal. ring. Qed.
Lemma dmul_dmul : forall c d x, dmul c (dmul d x) = dmul (c * d) x.
Proof. intros c d [[p q] |]; cbn; [do 2 f_equal; ring | reflexivity]. Qed.
Lemma lin_g : forall t1 v1 t2 v2 t, (t1 < t2)%Z -> lin t1 (h v1) t2 (h v2) t = h (dlin t1 v1 t2 v2 t).
Proof.
  intros t1 v1 t2 v2 t H. unfold lin, dlin. assert (qz (t2 - t1) <> 0) as N by (apply Qc_pos_neq; apply qz_pos; lia).
  rewrite dsub_h. unfold fz. rewrite (ddiv_h _ _ N), dmul_h, dadd_h, dmul_dmul. reflexivity.
Qed.
Lemma interp_at_g : forall s t, interp_at (g s) t = h (dinterp_at s t).
Proof.
  intros s t. unfold interp_at, dinterp_at. rewrite (last_g (fun u => (u <? t)%Z)), (find_g (fun u => (t <? u)%Z)).
  destruct (last_such (fun r => (fst r <? t)%Z) s) as [[t1 v1] |] eqn:E1, (find (fun r => (t <? fst r)%Z) s) as [[t2 v2] |] eqn:E2; cbn [option_map fst snd]; try reflexivity. apply lin_g.
  assert (t1 < t)%Z.
  { unfold last_such in E1. destruct (rev _) as [| x l] eqn:R; [discriminate |]. injection E1 as ->.
    assert (In (t1, v1) (filter (fun r : Z * duo => (fst r <? t)%Z) s)) as K by (rewrite in_rev, R; left; reflexivity). apply filter_In in K. apply Z.ltb_lt, K. }
  apply find_some in E2. destruct E2 as [_ E2]. apply Z.ltb_lt in E2. cbn [fst] in E2. lia.
Qed.
Lemma interp_index_g : forall s, interp_index (g s) = g (dinterp_index s).
Proof.
  intros s. unfold interp_index, dinterp_index. rewrite available_g. unfold g at 2 3. rewrite !map_map. apply map_ext. intros [t v]. cbn [fst snd]. f_equal.
  rewrite isnan_h. destruct (dnone v); [apply interp_at_g | reflexivity].
Qed.
Lemma filled_g : forall pt av union, filled pt (g av) union = g (dfilled pt av union).
Proof. intros pt av union. unfold filled, dfilled. rewrite reindex_g. destruct pt; [apply bfill_g | apply interp_index_g | apply bfill_g]. Qed.
Lemma hours_fl : forall n, in_hours n = Fin (hours_of n).
Proof. intros n. reflexivity. Qed.
Lemma step_g : forall pt p r, step_energy pt (fst p, h (snd p)) (fst r, h (snd r)) = h (dstep pt p r).
Proof.
  intros pt p r. unfold step_energy, dstep. cbn [fst snd]. rewrite hours_fl. destruct pt; rewrite ?dadd_h; unfold fz; try apply dmul_h.
  rewrite ddiv_h by discriminate. rewrite dmul_h, dmul_dmul. reflexivity.
Qed.
Lemma steps_g : forall pt l p, step_energies pt (fst p, h (snd p)) (g l) = g (dsteps pt p l).
Proof. intros pt l. induction l as [| r l IH]; intros p; [reflexivity |]. cbn [step_energies dsteps g map]. f_equal; [cbn [fst snd]; f_equal; apply step_g |]. apply IH. Qed.
Lemma sum_g : forall l, fsum (map h l) = Fin (a * fst (dsum l) + b * snd (dsum l)).
Proof.
  induction l as [| [[p q] |] l IH].
  - cbn. f_equal. ring.
  - unfold fsum in *. cbn [map dropna filter h notnan isnan negb]. fold (dropna (map h l)). cbn [fold_right]. rewrite IH. cbn [fadd dsum fst snd]. f_equal. ring.
  - exact IH.
Qed.
Lemma dropna_g : forall l, forallb dnone l = true <-> dropna (map h l) = [].
Proof.
  induction l as [| [[p q] |] l IH]; cbn; [split; reflexivity | split; discriminate | exact IH].
Qed.
Lemma sum1_g : forall l, fsum1 (map h l) = h (dsum1 l).
Proof.
  intros l. unfold fsum1, dsum1. destruct (forallb dnone l) eqn:E.
  - apply dropna_g in E. rewrite E. reflexivity.
  - destruct (dropna (map h l)) eqn:D; [apply dropna_g in D; congruence |]. rewrite sum_g. destruct (dsum l). reflexivity.
Qed.
Lemma last_time : forall d v (l : duos), fst (List.last (g l) (d, v)) = fst (List.last l (d, None)).
Proof. intros d v l. induction l as [| r l IH]; [reflexivity |]. destruct l as [| r' l]; [reflexivity |]. exact IH. Qed.
Lemma resample_g : forall s w, resample_sum (g s) w = g (dresample s w).
Proof.
  intros s w. destruct s as [| [t0 v0] s]; [reflexivity |]. unfold resample_sum, dresample. set (s0 := (t0, v0) :: s).
  change (g s0) with ((t0, h v0) :: g s) at 1. cbv beta iota. rewrite last_time. unfold s0 at 3. cbv beta iota. unfold g at 2. rewrite map_map. apply map_ext. intros k. cbn [fst snd]. f_equal.
  rewrite (filter_g (fun t => (bin_label t0 w t =? k)%Z)), vals_g. apply sum1_g.
Qed.
Lemma mask_g : forall (f : Z -> bool) s, map (fun r => (fst r, if f (fst r) then NaN else snd r)) (g s) = g (map (fun r => (fst r, if f (fst r) then None else snd r)) s).
Proof. intros f s. unfold g. rewrite !map_map. apply map_ext. intros [t v]. cbn [fst snd]. destruct (f t); reflexivity. Qed.
End Weights.

(** ** The functions of rdtools *)

Definition outcome_of (a b : Qc) (r : result duos) : result series := match r with Ok s => Ok (g a b s) | Raise e => Raise e end.

Lemma gap_mask_times : forall (x y : series) union limit t, times x = times y -> gap_mask x union limit t = gap_mask y union limit t.
Proof.
  intros x y union limit t H. unfold gap_mask, gap_sizes. rewrite H. f_equal. destruct x as [| [u v] x], y as [| [u' v'] y]; try discriminate; [reflexivity |].
  cbn [times map fst] in H. injection H as -> _. reflexivity.
Qed.

Lemma interpolate_series_g : forall s target m, exists s', forall a b, interpolate_series (g a b s) target m = g a b s'.
Proof.
  intros s target m. set (ts := map fst (davailable s)).
  set (limit := match m with None => fmul (fz 2) (fmedian (time_diffs ts)) | Some m => Fin m end).
  set (union := zset (ts ++ target)).
  set (gap2 := map (fun r => (fst r, if existsb (Z.eqb (fst r)) ts then fz 0 else snd r)) (bfill (reindex (combine ts (time_diffs ts)) union))).
  exists (map (fun t => (t, dlookup (dinterp_index (filter (fun r => fle (lookup gap2 (fst r)) limit) (dreindex (davailable s) union))) t)) target).
  intros a b. unfold interpolate_series, gap_limit, gap_sizes. rewrite available_g, times_g, reindex_g. cbv zeta. fold ts union gap2. fold limit.
  rewrite (filter_g a b (fun t => fle (lookup gap2 t) limit)), interp_index_g. unfold g at 2. rewrite map_map. apply map_ext. intros t. cbn [fst snd]. f_equal. apply lookup_g.
Qed.

Lemma interpolate_g : forall tz tz' s target m, exists r, forall a b, interpolate tz tz' (g a b s) target m = outcome_of a b r.
Proof.
  intros tz tz' s target m. unfold interpolate. destruct (target_index (map fst s) target) as [idx | e] eqn:T.
  - destruct (interpolate_series_g s idx m) as [s' H]. destruct (xorb tz (match target with TFreq _ => tz | _ => tz' end)) eqn:X.
    + exists (Raise ValueError). intros a b. rewrite times_g, T. reflexivity.
    + exists (Ok s'). intros a b. rewrite times_g, T. cbn [bind]. rewrite H. reflexivity.
  - exists (Raise e). intros a b. rewrite times_g, T. reflexivity.
Qed.

Lemma aggregate_g : forall s w limit pt, exists r, forall a b, aggregate (g a b s) w limit pt = outcome_of a b r.
Proof.
  intros s w limit pt. unfold aggregate. destruct s as [| [t0 v0] s]; [exists (Raise IndexError); reflexivity |]. set (s0 := (t0, v0) :: s).
  destruct (davailable s0) as [| r0 av] eqn:Av.
  - exists (Raise IndexError). intros a b. change (g a b s0) with ((t0, h a b v0) :: g a b s). cbv beta iota. change ((t0, h a b v0) :: g a b s) with (g a b s0). rewrite available_g, Av. reflexivity.
  - set (union := zset (map fst s0 ++ bin_labels t0 w (fst (List.last s0 (t0, None))))).
    set (marked := fun a b => gap_mask (g a b (r0 :: av)) union limit).
    assert (forall a b t, marked a b t = marked 0 0 t) as HM by (intros a b t; apply gap_mask_times; rewrite !times_g; reflexivity).
    set (masked := map (fun r => (fst r, if marked 0 0 (fst r) then None else snd r)) (dfilled pt (r0 :: av) union)).
    exists (match pt with OtherType => Raise ValueError | _ => match masked with [] => Raise IndexError | r1 :: l => Ok (tl (dresample ((fst r1, None) :: dsteps pt r1 l) w)) end end).
    intros a b. change (g a b s0) with ((t0, h a b v0) :: g a b s). cbv beta iota. change ((t0, h a b v0) :: g a b s) with (g a b s0).
    rewrite available_g, Av. change (g a b (r0 :: av)) with ((fst r0, h a b (snd r0)) :: g a b av). cbv beta iota. change ((fst r0, h a b (snd r0)) :: g a b av) with (g a b (r0 :: av)).
    rewrite times_g, last_time. fold union. cbv zeta.
    assert (match map (fun r => (fst r, if gap_mask (g a b (r0 :: av)) union limit (fst r) then NaN else snd r)) (filled pt (g a b (r0 :: av)) union) with
            | [] => Raise IndexError | r1 :: l => Ok (tl (resample_sum ((fst r1, NaN) :: step_energies pt r1 l) w)) end =
            outcome_of a b (match masked with [] => Raise IndexError | r1 :: l => Ok (tl (dresample ((fst r1, None) :: dsteps pt r1 l) w)) end)) as X.
    { rewrite filled_g. rewrite (map_ext (fun r : Z * fl => (fst r, if gap_mask (g a b (r0 :: av)) union limit (fst r) then NaN else snd r)) (fun r => (fst r, if marked 0 0 (fst r) then NaN else snd r)))
        by (intros r; rewrite <- (HM a b); reflexivity).
      rewrite mask_g. fold masked. destruct masked as [| r1 l]; [reflexivity |]. cbn [g map outcome_of]. fold (g a b l). cbn [fst]. f_equal.
      change ((fst r1, NaN) :: step_energies pt (fst r1, h a b (snd r1)) (g a b l)) with ((fst r1, h a b None) :: step_energies pt (fst r1, h a b (snd r1)) (g a b l)).
      rewrite steps_g. change ((fst r1, h a b None) :: g a b (dsteps pt r1 l)) with (g a b ((fst r1, None) :: dsteps pt r1 l)). rewrite resample_g.
      destruct (dresample _ _); reflexivity. }
    destruct pt; [exact X | exact X | reflexivity].
Qed.

Lemma energy_g : forall freq s target m pt, exists r, forall a b, energy_from_power freq (g a b s) target m pt = outcome_of a b r.
Proof.
  intros freq s target m pt. destruct s as [| r1 [| r2 s]].
  - destruct pt; cbn; try (exists (Raise ValueError); reflexivity); (destruct (match target with Some w => Some w | None => freq end); [exists (Ok []) | exists (Raise ValueError)]; reflexivity).
  - assert (forall w, fdiv (fdiv (fz w) (fz 1000000000)) (fz 3600) = Fin (hours_of w)) as HW by reflexivity.
    assert (forall a b w x, fdiv (fdiv (fmul (h a b x) (fz w)) (fz 1000000000)) (fz 3600) = h a b (dmul (hours_of w) x)) as HX.
    { intros a b w x. unfold fz. rewrite dmul_h, ddiv_h by discriminate. rewrite ddiv_h by discriminate. rewrite !dmul_dmul. f_equal. f_equal. unfold hours_of, Qcdiv. ring. }
    destruct pt; cbn [g map energy_from_power]; try (exists (Raise ValueError); reflexivity);
      (destruct (match target with Some w => Some w | None => freq end) as [w |]; [exists (Ok [(fst r1, dmul (hours_of w) (snd r1))]) | exists (Raise ValueError); reflexivity]);
      intros a b; cbn [outcome_of g map fst snd]; rewrite HX; reflexivity.
  - set (s0 := r1 :: r2 :: s). set (tsteps := combine (map fst s0) (time_diffs (map fst s0))).
    assert (forall a b, energy_from_power freq (g a b s0) target m pt =
      match fmedian (vals tsteps) with
      | Fin median =>
        let width := match target with Some w => w | None => qfloor median end in
        let limit := match m with Some m => m | None => median end in
        bind (if qle (qz width) median then interpolate true true (g a b s0) (TFreq width) (Some (qz (qfloor limit))) else Ok (g a b s0)) (fun p =>
        bind (aggregate p width (qz (qfloor limit)) pt) (fun energy =>
        Ok (map (fun r => (fst r, if fgt (lookup_bfill tsteps (fst r)) (Fin limit) then NaN else snd r)) energy)))
      | _ => Raise ValueError
      end) as HE.
    { intros a b. unfold energy_from_power. change (g a b s0) with ((fst r1, h a b (snd r1)) :: (fst r2, h a b (snd r2)) :: g a b s) at 1. cbv beta iota.
      unfold median_step, t_step_nanoseconds. rewrite times_g. fold tsteps. reflexivity. }
    destruct (fmedian (vals tsteps)) as [| | median |] eqn:M; try (exists (Raise ValueError); intros a b; rewrite HE; reflexivity).
    cbv zeta in HE. set (width := match target with Some w => w | None => qfloor median end) in *. set (limit := match m with Some m => m | None => median end) in *.
    assert (exists r, forall a b, (if qle (qz width) median then interpolate true true (g a b s0) (TFreq width) (Some (qz (qfloor limit))) else Ok (g a b s0)) = outcome_of a b r) as [[p | e] HP].
    { destruct (qle (qz width) median); [apply interpolate_g | exists (Ok s0); reflexivity]. }
    + destruct (aggregate_g p width (qz (qfloor limit)) pt) as [[en | e] HA].
      * exists (Ok (map (fun r => (fst r, if fgt (lookup_bfill tsteps (fst r)) (Fin limit) then None else snd r)) en)).
        intros a b. rewrite HE, HP. cbn [outcome_of bind]. rewrite HA. cbn [outcome_of bind]. f_equal. apply (mask_g a b (fun t => fgt (lookup_bfill tsteps t) (Fin limit))).
      * exists (Raise e). intros a b. rewrite HE, HP. cbn [outcome_of bind]. rewrite HA. reflexivity.
    + exists (Raise e). intros a b. rewrite HE, HP. reflexivity.
Qed.

(** ** Weighted sums *)

Lemma side_duos : forall x y, side_by_side x y -> exists s, x = g 1 0 s /\ y = g 0 1 s /\ forall a b, weighted a x b y = g a b s.
Proof.
  intros x y H. induction H as [| [t v] [t' v'] x y [E B] _ (s & -> & -> & HS)]; [exists []; repeat split; reflexivity |]. cbn [fst snd] in *. subst t'.
  destruct B as [[-> ->] | (p & q & -> & ->)].
  - exists ((t, None) :: s). cbn [g map fst snd h]. split; [reflexivity |]. split; [reflexivity |]. intros a b. unfold weighted in *. cbn [combine map fst snd]. f_equal. apply HS.
  - exists ((t, Some (p, q)) :: s). cbn [g map fst snd h]. split; [do 3 f_equal; ring |]. split; [do 3 f_equal; ring |].
    intros a b. unfold weighted in *. cbn [combine map fst snd fmul fadd]. f_equal. apply HS.
Qed.

Lemma duos_side : forall s, side_by_side (g 1 0 s) (g 0 1 s).
Proof.
  intros s. unfold side_by_side. induction s as [| [t v] s IH]; [constructor |]. cbn [g map fst snd]. constructor; [| exact IH]. split; [reflexivity |].
  destruct v as [[p q] |]; [right; cbn; eauto | left; split; reflexivity].
Qed.
Lemma duos_weighted : forall a b s, weighted a (g 1 0 s) b (g 0 1 s) = g a b s.
Proof.
  intros a b s. unfold weighted. induction s as [| [t v] s IH]; [reflexivity |]. cbn [g map combine fst snd]. f_equal; [| exact IH]. f_equal.
  destruct v as [[p q] |]; cbn; [f_equal; ring | reflexivity].
Qed.

(** Linear: two inputs side by side give two outputs side by side or the same error, and a
    weighted sum of them gives the weighted sum. *)
Definition linear (f : series -> result series) : Prop :=
  forall x y, side_by_side x y ->
    match f x, f y with
    | Ok u, Ok v => side_by_side u v /\ forall a b, f (weighted a x b y) = Ok (weighted a u b v)
    | Raise e, Raise e' => e = e' /\ forall a b, f (weighted a x b y) = Raise e
    | _, _ => False
    end.

Lemma linear_duos : forall f, (forall s, exists r, forall a b, f (g a b s) = outcome_of a b r) -> linear f.
Proof.
  intros f H x y HS. destruct (side_duos x y HS) as (s & -> & -> & HW). destruct (H s) as [r HR]. rewrite !HR. destruct r as [u | e]; cbn [outcome_of].
  - split; [apply duos_side |]. intros a b. rewrite duos_weighted, HR. cbn. rewrite duos_weighted. reflexivity.
  - split; [reflexivity |]. intros a b. rewrite duos_weighted, HR. reflexivity.
Qed.

Lemma interpolate_linear : forall tz tz' target m, linear (fun x => interpolate tz tz' x target m).
Proof. intros tz tz' target m. apply linear_duos. intros s. apply interpolate_g. Qed.
Lemma energy_linear : forall freq target m pt, linear (fun x => energy_from_power freq x target m pt).
Proof. intros freq target m pt. apply linear_duos. intros s. apply energy_g. Qed.
