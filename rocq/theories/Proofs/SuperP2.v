(** Sums of several series; energies are never negative where the power is not. *)

From Coq Require Import QArith Qcanon List ZArith Bool Arith Lia Sorted.
From Verif.Base Require Import QcExtra ISort Quantile Fl TimeSeries.
From Verif.Spec Require Import Superposition.
From Verif.Model Require Import Interpolation Energy.
From Verif.Proofs Require Import SuperP.
Import ListNotations.
Open Scope list_scope.
Open Scope Qc_scope.

(** ** Several series *)

Lemma two_impl : forall A B (R S : A -> B -> Prop) l m, (forall x y, R x y -> S x y) -> Forall2 R l m -> Forall2 S l m.
Proof. intros A B R S l m H K. induction K; constructor; auto. Qed.
Lemma added_weighted : forall x y, side_by_side x y -> added x y = weighted 1 x 1 y.
Proof.
  intros x y H. unfold added, weighted. induction H as [| [t v] [t' v'] x y [E B] _ IH]; [reflexivity |]. cbn [combine map fst snd]. f_equal; [| exact IH]. f_equal.
  cbn [snd] in B. destruct B as [[-> ->] | (p & q & -> & ->)]; cbn; [reflexivity | f_equal; ring].
Qed.
Lemma side_refl : forall x y, side_by_side x y -> side_by_side x x.
Proof.
  intros x y H. induction H as [| [t v] [t' v'] x y [_ B] _ IH]; [constructor |]. constructor; [| exact IH]. cbn [fst snd] in *. split; [reflexivity |].
  destruct B as [[-> _] | (p & q & -> & _)]; [left; split; reflexivity | right; eauto].
Qed.
Lemma side_sym : forall x y, side_by_side x y -> side_by_side y x.
Proof.
  intros x y H. induction H as [| [t v] [t' v'] x y [E B] _ IH]; [constructor |]. constructor; [| exact IH]. cbn [fst snd] in *. split; [symmetry; exact E |].
  destruct B as [[-> ->] | (p & q & -> & ->)]; [left; split; reflexivity | right; eauto].
Qed.
Lemma side_trans : forall x y z, side_by_side x y -> side_by_side y z -> side_by_side x z.
Proof.
  intros x y z H. revert z. induction H as [| [t v] [t' v'] x y [E B] _ IH]; intros z K; inversion K as [| s' [t'' v''] y' z' [E' B'] KK]; subst; [constructor |]. constructor; [| apply IH; exact KK]. cbn [fst snd] in *.
  split; [congruence |]. destruct B as [[-> Y] | (p & q & -> & Y)], B' as [[Y' ->] | (p' & q' & Y' & ->)]; try congruence; [left; split; reflexivity | right; eauto].
Qed.
Lemma side_added : forall x y, side_by_side x y -> side_by_side x (added x y).
Proof.
  intros x y H. unfold added. induction H as [| [t v] [t' v'] x y [E B] _ IH]; [constructor |]. cbn [combine map fst snd]. constructor; [| exact IH]. split; [reflexivity |].
  cbn [snd] in *. destruct B as [[-> ->] | (p & q & -> & ->)]; [left; split; reflexivity | right; cbn; eauto].
Qed.

Lemma linear_total : forall f, linear f -> forall l x, Forall (side_by_side x) l -> l <> [] ->
  match f x with
  | Ok u => exists us, Forall2 (fun y v => f y = Ok v /\ side_by_side u v) l us /\ f (total x l) = Ok (total u us)
  | Raise e => Forall (fun y => f y = Raise e) l /\ f (total x l) = Raise e
  end.
Proof.
  intros f L l. induction l as [| y l IH]; intros x H NE; [congruence |]. clear NE. inversion H as [| y' l' Hy Hl]; subst.
  pose proof (L x y Hy) as B. pose proof (side_added x y Hy) as SA.
  assert (Forall (side_by_side (added x y)) l) as Hl'.
  { apply Forall_forall. intros z Hz. rewrite Forall_forall in Hl. eapply side_trans; [apply side_sym; exact SA | apply Hl; exact Hz]. }
  destruct (f x) as [u | e] eqn:Ex, (f y) as [v | e'] eqn:Ey; try contradiction; destruct B as [B W].
  - specialize (W 1 1). rewrite <- (added_weighted x y Hy), <- (added_weighted u v B) in W.
    destruct l as [| z l].
    + exists [v]. split; [constructor; [split; [exact Ey | exact B] | constructor] | exact W].
    + specialize (IH (added x y) Hl' ltac:(discriminate)). rewrite W in IH. destruct IH as (us & F & T).
      exists (v :: us). split; [| exact T]. constructor; [split; [exact Ey | exact B] |].
      eapply two_impl; [| exact F]. intros c d [K1 K2]. split; [exact K1 |]. eapply side_trans; [apply side_added; exact B | exact K2].
  - subst e'. specialize (W 1 1). rewrite <- (added_weighted x y Hy) in W. destruct l as [| z l].
    + split; [constructor; [exact Ey | constructor] | exact W].
    + specialize (IH (added x y) Hl' ltac:(discriminate)). rewrite W in IH. destruct IH as [F T]. split; [constructor; [exact Ey | exact F] | exact T].
Qed.

(** ** Never negative *)

Definition fine (v : fl) : Prop := v = NaN \/ exists q, v = Fin q /\ 0 <= q.

Lemma fine_nan : fine NaN. Proof. left. reflexivity. Qed.
Lemma fine_add : forall x y, fine x -> fine y -> fine (fadd x y).
Proof. intros x y [-> | (p & -> & P)] [-> | (q & -> & Q)]; cbn; try apply fine_nan. right. exists (p + q). split; [reflexivity |]. qlra. Qed.
Lemma fine_mul : forall c x, 0 <= c -> fine x -> fine (fmul x (Fin c)).
Proof. intros c x C [-> | (p & -> & P)]; cbn; [apply fine_nan |]. right. exists (p * c). split; [reflexivity |]. qnra. Qed.
Lemma fine_div : forall c x, 0 < c -> fine x -> fine (fdiv x (Fin c)).
Proof.
  intros c x C [-> | (p & -> & P)]; cbn; [apply fine_nan |]. assert (qeq c 0 = false) as -> by (apply qeq_false; apply Qc_pos_neq; exact C).
  right. exists (p / c). split; [reflexivity |]. unfold Qcdiv. assert (0 < / c) by (apply Qc_inv_pos; exact C). qnra.
Qed.
Lemma fine_In : forall s t v, nowhere_negative s -> In (t, v) s -> fine v.
Proof. intros s t v H K. unfold nowhere_negative in H. rewrite Forall_forall in H. exact (H _ K). Qed.
Lemma fine_filter : forall f s, nowhere_negative s -> nowhere_negative (filter f s).
Proof. intros f s H. apply Forall_forall. intros r K. apply filter_In in K. unfold nowhere_negative in H. rewrite Forall_forall in H. apply H, K. Qed.
Lemma fine_lookup : forall s t, nowhere_negative s -> fine (lookup s t).
Proof. intros s t H. unfold lookup. destruct (find _ s) as [[u v] |] eqn:F; [| apply fine_nan]. apply find_some in F. eapply fine_In; [exact H | apply F]. Qed.
Lemma fine_map : forall A (f : A -> Z) (k : A -> fl) l, (forall x, In x l -> fine (k x)) -> nowhere_negative (map (fun x => (f x, k x)) l).
Proof. intros A f k l H. apply Forall_forall. intros r K. apply in_map_iff in K. destruct K as (x & <- & K). exact (H x K). Qed.
Lemma fine_reindex : forall s idx, nowhere_negative s -> nowhere_negative (reindex s idx).
Proof. intros s idx H. unfold reindex. apply fine_map. intros t _. apply fine_lookup. exact H. Qed.
Lemma fine_bfill : forall s, nowhere_negative s -> nowhere_negative (bfill s).
Proof.
  intros s H. induction H as [| [t v] s F _ IH]; [constructor |]. cbn [bfill]. constructor; [| exact IH]. cbn [snd] in *. destruct (isnan v); [| exact F].
  destruct (bfill s) as [| [u w] l]; [apply fine_nan |]. inversion IH; assumption.
Qed.
Lemma fine_lin : forall t1 v1 t2 v2 t, (t1 < t)%Z -> (t < t2)%Z -> fine v1 -> fine v2 -> fine (lin t1 v1 t2 v2 t).
Proof.
  intros t1 v1 t2 v2 t L R [-> | (p & -> & P)] [-> | (q & -> & Q)]; unfold lin; cbn [fsub fneg fadd fdiv fmul fz]; try apply fine_nan.
  unfold fz. cbn [fdiv fmul fadd]. assert (0 < qz (t2 - t1)) as D by (apply qz_pos; lia). assert (qeq (qz (t2 - t1)) 0 = false) as -> by (apply qeq_false; apply Qc_pos_neq; exact D).
  cbn [fmul fadd]. right. eexists. split; [reflexivity |].
  replace ((q + - p) / qz (t2 - t1) * qz (t - t1) + p) with ((q * qz (t - t1) + p * qz (t2 - t)) / qz (t2 - t1)).
  - assert (0 < / qz (t2 - t1)) by (apply Qc_inv_pos; exact D). assert (0 < qz (t - t1)) by (apply qz_pos; lia). assert (0 < qz (t2 - t)) by (apply qz_pos; lia).
    unfold Qcdiv. assert (0 <= q * qz (t - t1)) by qnra. assert (0 <= p * qz (t2 - t)) by qnra. assert (0 <= q * qz (t - t1) + p * qz (t2 - t)) by qlra. qnra.
  - replace (qz (t2 - t)) with (qz (t2 - t1) - qz (t - t1)) by (rewrite <- qz_sub; f_equal; lia). field. apply Qc_pos_neq. exact D.
Qed.
Lemma fine_interp_at : forall s t, nowhere_negative s -> fine (interp_at s t).
Proof.
  intros s t H. unfold interp_at. destruct (last_such _ s) as [[t1 v1] |] eqn:E1; [| apply fine_nan].
  assert ((t1 < t)%Z /\ In (t1, v1) s) as [L I].
  { unfold last_such in E1. destruct (rev _) as [| x l] eqn:R; [discriminate |]. injection E1 as ->.
    assert (In (t1, v1) (filter (fun r : Z * fl => (fst r <? t)%Z) s)) as K by (rewrite in_rev, R; left; reflexivity). apply filter_In in K. split; [apply Z.ltb_lt, K | apply K]. }
  destruct (find _ s) as [[t2 v2] |] eqn:E2; [| eapply fine_In; eassumption]. apply find_some in E2. destruct E2 as [I2 E2]. apply Z.ltb_lt in E2.
  apply fine_lin; [exact L | exact E2 | eapply fine_In; eassumption | eapply fine_In; eassumption].
Qed.
Lemma fine_interp_index : forall s, nowhere_negative s -> nowhere_negative (interp_index s).
Proof.
  intros s H. unfold interp_index. apply fine_map. intros [t v] K. cbn [fst snd]. destruct (isnan v); [| eapply fine_In; eassumption].
  apply fine_interp_at. apply fine_filter. exact H.
Qed.
Lemma interp_index_times : forall s, times (interp_index s) = times s.
Proof. intros s. unfold interp_index, times. rewrite map_map. reflexivity. Qed.
Lemma bfill_times : forall s, times (bfill s) = times s.
Proof. induction s as [| [t v] s IH]; [reflexivity |]. cbn. f_equal. exact IH. Qed.
Lemma reindex_times : forall s idx, times (reindex s idx) = idx.
Proof. intros s idx. unfold reindex, times. rewrite map_map. apply map_id. Qed.
Lemma filled_times : forall pt av union, times (filled pt av union) = union.
Proof. intros pt av union. unfold filled. destruct pt; rewrite ?interp_index_times, ?bfill_times; apply reindex_times. Qed.
Lemma fine_filled : forall pt av union, nowhere_negative av -> nowhere_negative (filled pt av union).
Proof. intros pt av union H. unfold filled. destruct pt; [apply fine_bfill | apply fine_interp_index | apply fine_bfill]; apply fine_reindex; exact H. Qed.
Lemma fine_hours : forall n, (0 <= n)%Z -> 0 <= hours_of n.
Proof.
  intros n H. unfold hours_of, Qcdiv. assert (0 <= qz n) by (apply qz_nonneg; exact H). assert (0 < / qz 1000000000) by (apply Qc_inv_pos; apply qz_pos; lia). assert (0 < / qz 3600) by (apply Qc_inv_pos; apply qz_pos; lia).
  assert (0 <= qz n * / qz 1000000000) by qnra. qnra.
Qed.
Lemma fine_steps : forall pt l p, StronglySorted Z.lt (fst p :: times l) -> fine (snd p) -> nowhere_negative l -> nowhere_negative (step_energies pt p l).
Proof.
  intros pt l. induction l as [| r l IH]; intros p S P H; [constructor |]. inversion H as [| r' l' F K]; subst. cbn [times map] in S. apply StronglySorted_inv in S. destruct S as [S A].
  cbn [step_energies]. constructor; [| apply IH; assumption]. cbn [snd]. unfold step_energy. rewrite hours_fl.
  assert (0 <= hours_of (fst r - fst p)) as HH by (apply fine_hours; inversion A; subst; lia).
  destruct pt; try (apply fine_mul; [exact HH | exact F]). apply fine_mul; [exact HH |]. unfold fz. apply fine_div; [apply qz_pos; lia |]. apply fine_add; assumption.
Qed.
Lemma fine_sum : forall l, Forall fine l -> exists q, fsum l = Fin q /\ 0 <= q.
Proof.
  intros l H. induction H as [| v l F _ (q & E & Q)]; [exists 0; split; [reflexivity | qlra] |]. destruct F as [-> | (p & -> & P)]; [exists q; split; assumption |].
  unfold fsum in *. cbn [dropna filter notnan isnan negb]. fold (dropna l). cbn [fold_right]. rewrite E. cbn. exists (p + q). split; [reflexivity | qlra].
Qed.
Lemma fine_resample : forall s w, nowhere_negative s -> nowhere_negative (resample_sum s w).
Proof.
  intros s w H. unfold resample_sum. destruct s as [| [t0 v0] s]; [constructor |]. apply fine_map. intros k _. unfold fsum1.
  match goal with |- fine (match dropna (vals ?u) with _ => _ end) => assert (nowhere_negative u) as K by (apply fine_filter; exact H); set (r := u) in * end.
  destruct (dropna (vals r)); [apply fine_nan |]. right. apply fine_sum. unfold vals. apply Forall_forall. intros v I. apply in_map_iff in I. destruct I as ([t u] & <- & I). eapply fine_In; [exact K | exact I].
Qed.
Lemma fine_mask : forall (f : Z -> bool) s, nowhere_negative s -> nowhere_negative (map (fun r => (fst r, if f (fst r) then NaN else snd r)) s).
Proof. intros f s H. apply fine_map. intros [t v] K. cbn [fst snd]. destruct (f t); [apply fine_nan | eapply fine_In; eassumption]. Qed.
Lemma fine_tl : forall s, nowhere_negative s -> nowhere_negative (tl s).
Proof. intros s H. destruct H; [constructor | assumption]. Qed.

Lemma ok_same : forall A (x y : A), Ok x = Ok y -> x = y.
Proof. intros A x y H. injection H as H. exact H. Qed.
Lemma fine_interpolate : forall tz tz' s target m out, nowhere_negative s -> interpolate tz tz' s target m = Ok out -> nowhere_negative out.
Proof.
  intros tz tz' s target m out H. unfold interpolate. destruct (target_index (times s) target) as [idx | e]; [| discriminate]. cbn [bind]. destruct (xorb tz _); [discriminate |]. intros E. injection E as <-.
  unfold interpolate_series. apply fine_map. intros t _. apply fine_lookup. apply fine_interp_index. apply fine_filter. apply fine_reindex. apply fine_filter. exact H.
Qed.
Lemma fine_aggregate : forall s w limit pt out, nowhere_negative s -> aggregate s w limit pt = Ok out -> nowhere_negative out.
Proof.
  intros s w limit pt out H. unfold aggregate. destruct s as [| [t0 v0] s]; [discriminate |]. set (s0 := (t0, v0) :: s) in *.
  assert (nowhere_negative (available s0)) as HA by (apply fine_filter; exact H). change ((t0, v0) :: s) with s0. destruct (available s0) as [| r0 av]; [discriminate |]. set (union := zset _).
  pose proof (fine_mask (gap_mask (r0 :: av) union limit) _ (fine_filled pt _ union HA)) as HM.
  assert (StronglySorted Z.lt (times (map (fun r => (fst r, if gap_mask (r0 :: av) union limit (fst r) then NaN else snd r)) (filled pt (r0 :: av) union)))) as HS.
  { unfold times. rewrite map_map. cbn [fst]. change (map (fun x : Z * fl => fst x) (filled pt (r0 :: av) union)) with (times (filled pt (r0 :: av) union)). rewrite filled_times. apply zset_sorted. }
  cbv zeta. set (masked := map _ (filled pt (r0 :: av) union)) in *. clearbody masked.
  assert (match masked with [] => Raise IndexError | r1 :: l => Ok (tl (resample_sum ((fst r1, NaN) :: step_energies pt r1 l) w)) end = Ok out -> nowhere_negative out) as X.
  { destruct masked as [| r1 l]; [discriminate |]. intros E. apply ok_same in E. subst out. apply fine_tl, fine_resample. constructor; [apply fine_nan |]. inversion HM; subst. apply fine_steps; assumption. }
  destruct pt; [exact X | exact X | discriminate].
Qed.

Lemma energy_not_negative : forall freq power target m pt out,
  (forall w, target = Some w \/ freq = Some w -> (0 <= w)%Z) -> nowhere_negative power ->
  energy_from_power freq power target m pt = Ok out -> nowhere_negative out.
Proof.
  intros freq power target m pt out HW H E. destruct power as [| r1 [| r2 s]].
  - cbn in E. destruct pt; try discriminate; (destruct (match target with Some w => Some w | None => freq end); [| discriminate]); injection E as <-; constructor.
  - assert (forall w v, (0 <= w)%Z -> fine v -> fine (fdiv (fdiv (fmul v (fz w)) (fz 1000000000)) (fz 3600))) as HX.
    { intros w v Hw F. unfold fz. apply fine_div; [apply qz_pos; lia |]. apply fine_div; [apply qz_pos; lia |]. apply fine_mul; [apply qz_nonneg; exact Hw | exact F]. }
    unfold energy_from_power in E. revert E. destruct (match target with Some w => Some w | None => freq end) as [w |] eqn:W; intros E; [| destruct pt; discriminate E].
    assert (0 <= w)%Z as Hw by (apply HW; destruct target; [left; exact W | right; exact W]). inversion H; subst.
    destruct pt; try discriminate; injection E as <-; (constructor; [apply HX; assumption | constructor]).
  - set (p := r1 :: r2 :: s) in *. assert (energy_from_power freq p target m pt = Ok out) as E' by exact E. unfold energy_from_power in E'. unfold p in E' at 1. cbv beta iota in E'.
    destruct (median_step p) as [| | median |]; try discriminate E'. cbv zeta in E'. set (limit := match m with Some m => m | None => median end) in *. set (width := match target with Some w => w | None => qfloor median end) in *.
    revert E'. match goal with |- bind ?t _ = _ -> _ => destruct t as [q | e] eqn:P end; [intros E' | discriminate]. cbn [bind] in E'.
    assert (nowhere_negative q) as HQ by (destruct (qle (qz width) median); [eapply fine_interpolate; [exact H | exact P] | injection P as <-; exact H]).
    revert E'. destruct (aggregate q width (qz (qfloor limit)) pt) as [en | e] eqn:A; [intros E' | discriminate]. cbn [bind] in E'. injection E' as <-.
    apply (fine_mask (fun t => fgt (lookup_bfill (t_step_nanoseconds p) t) (Fin limit))). eapply fine_aggregate; [exact HQ | exact A].
Qed.

(** ** More power, more energy *)

Lemma above_side : forall x y, nowhere_above x y -> side_by_side x y.
Proof.
  intros x y H. eapply two_impl; [| exact H]. intros r s [E [[A B] | (p & q & A & B & _)]]; (split; [exact E |]); [left; split; assumption | right; eauto].
Qed.
Lemma above_difference : forall x y, nowhere_above x y -> nowhere_negative (weighted (- (1)) x 1 y).
Proof.
  intros x y H. unfold weighted. induction H as [| [t v] [t' v'] x y [E B] _ IH]; [constructor |]. cbn [combine map fst snd]. constructor; [| exact IH]. cbn [snd] in *.
  destruct B as [[-> ->] | (p & q & -> & -> & L)]; [left; reflexivity |]. right. exists (- (1) * p + 1 * q). split; [reflexivity |]. replace (- (1) * p + 1 * q) with (q - p) by ring. qlra.
Qed.
Lemma difference_above : forall x y, side_by_side x y -> nowhere_negative (weighted (- (1)) x 1 y) -> nowhere_above x y.
Proof.
  intros x y H. unfold weighted. induction H as [| [t v] [t' v'] x y [E B] _ IH]; intros N; [constructor |]. cbn [combine map fst snd] in *. inversion N as [| r l F K]; subst. constructor; [| apply IH; exact K].
  split; [reflexivity |]. cbn [snd] in *. destruct B as [[-> ->] | (p & q & -> & ->)]; [left; split; reflexivity |]. right. exists p, q. split; [reflexivity |]. split; [reflexivity |].
  destruct F as [F | (d & F & D)]; [discriminate |]. change (Fin (- (1) * p + 1 * q) = Fin d) in F. injection F as <-. replace (- (1) * p + 1 * q) with (q - p) in D by ring. qlra.
Qed.
Lemma energy_monotone : forall freq x y target m pt,
  (forall w, target = Some w \/ freq = Some w -> (0 <= w)%Z) -> nowhere_above x y ->
  match energy_from_power freq x target m pt, energy_from_power freq y target m pt with
  | Ok u, Ok v => nowhere_above u v
  | Raise e, Raise e' => e = e'
  | _, _ => False
  end.
Proof.
  intros freq x y target m pt HW H. pose proof (energy_linear freq target m pt x y (above_side x y H)) as L. cbv beta in L.
  destruct (energy_from_power freq x target m pt) as [u | e], (energy_from_power freq y target m pt) as [v | e']; try contradiction; destruct L as [S L]; [| exact S].
  apply difference_above; [exact S |]. eapply energy_not_negative; [exact HW | apply above_difference; exact H | apply L].
Qed.
Lemma interpolate_monotone : forall tz tz' x y target m, nowhere_above x y ->
  match interpolate tz tz' x target m, interpolate tz tz' y target m with
  | Ok u, Ok v => nowhere_above u v
  | Raise e, Raise e' => e = e'
  | _, _ => False
  end.
Proof.
  intros tz tz' x y target m H. pose proof (interpolate_linear tz tz' target m x y (above_side x y H)) as L. cbv beta in L.
  destruct (interpolate tz tz' x target m) as [u | e], (interpolate tz tz' y target m) as [v | e']; try contradiction; destruct L as [S L]; [| exact S].
  apply difference_above; [exact S |]. eapply fine_interpolate; [apply above_difference; exact H | apply L].
Qed.
