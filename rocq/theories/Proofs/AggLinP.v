(** Daily values of inverters that report side by side. *)

From Coq Require Import QArith Qcanon List ZArith Bool Lia.
From Verif.Base Require Import QcExtra ISort Quantile Fl TimeSeries Rolling.
From Verif.Model Require Import Interpolation Energy Normalization.
From Verif.Spec Require Import Superposition.
From Verif.Proofs Require Import SuperP NormLinP.
Import ListNotations.
Open Scope Qc_scope.

Definition mix (a b : Qc) (x y : fl) : fl := fadd (fmul (Fin a) x) (fmul (Fin b) y).
Lemma weighted_cons : forall a b r x s y, weighted a (r :: x) b (s :: y) = (fst r, mix a b (snd r) (snd s)) :: weighted a x b y.
Proof. reflexivity. Qed.

Lemma products : forall a b ins x y, side_by_side x y -> times x = times ins -> noinf (vals ins) ->
  side_by_side (zip_aligned fmul ins x) (zip_aligned fmul ins y) /\
  zip_aligned fmul ins (weighted a x b y) = weighted a (zip_aligned fmul ins x) b (zip_aligned fmul ins y).
Proof.
  intros a b ins x y S T N. pose proof (side_times x y S) as Txy.
  assert (Z : forall s : series, times s = times ins -> zip_aligned fmul ins s = map (fun p => (fst (fst p), fmul (snd (fst p)) (snd (snd p)))) (combine ins s)).
  { intros s E. unfold zip_aligned, align. rewrite (proj2 (same_index_iff (times ins) (times s)) (eq_sym E)), map_map. reflexivity. }
  rewrite (Z x T), (Z y) by congruence. rewrite (Z (weighted a x b y)) by (rewrite weighted_times; assumption). clear Z Txy.
  revert ins T N. induction S as [|r s x y [E B] S IH]; intros [|[ti vi] ins] T N; try discriminate T; [split; [constructor|reflexivity]|].
  cbn in T. injection T as T1 T2. destruct (IH ins T2) as [I1 I2]; [intros v I; apply N; now right|].
  destruct (N vi (or_introl eq_refl)) as [N1 N2]. rewrite weighted_cons. cbn [combine map fst snd]. split.
  - constructor; [|exact I1]. cbn [fst snd]. split; [reflexivity|]. destruct vi as [| |c|]; try congruence; destruct B as [[-> ->]|(p & q & -> & ->)]; try (left; split; reflexivity). right. cbn. eauto.
  - rewrite weighted_cons, I2. cbn [fst snd]. do 2 f_equal. unfold mix. destruct vi as [| |c|]; try congruence; destruct B as [[-> ->]|(p & q & -> & ->)]; try reflexivity. cbn. f_equal. ring.
Qed.

Lemma sums : forall a b f p q, side_by_side p q ->
  exists u v, fsum (vals (filter (fun r => f (fst r)) p)) = Fin u /\ fsum (vals (filter (fun r => f (fst r)) q)) = Fin v /\
    fsum (vals (filter (fun r => f (fst r)) (weighted a p b q))) = Fin (a * u + b * v).
Proof.
  intros a b f p q S. induction S as [|[t x] [t' y] p q [E B] S (u & v & H1 & H2 & H3)].
  - exists 0, 0. split; [reflexivity|]. split; [reflexivity|]. cbn. f_equal. ring.
  - cbn [fst snd] in E, B. subst t'. rewrite weighted_cons. cbn [filter fst snd]. destruct (f t); [|eauto].
    destruct B as [[-> ->]|(c & d & -> & ->)]; [exists u, v; auto|]. exists (c + u), (d + v).
    assert (C : forall t z (l : series), fsum (vals ((t, Fin z) :: l)) = fadd (Fin z) (fsum (vals l))) by reflexivity.
    unfold mix. cbn [fmul fadd]. rewrite !C, H1, H2, H3. cbn [fadd]. repeat split; f_equal; ring.
Qed.

Lemma last_side : forall p q d e, side_by_side p q -> p <> [] -> fst (List.last p d) = fst (List.last q e).
Proof.
  intros p q d e S. induction S as [|r s p q [E _] S IH]; intros H; [congruence|]. destruct S as [|r' s' p q ES S]; [exact E|]. apply IH. discriminate.
Qed.
Lemma side_weighted : forall a b p q, side_by_side p q -> side_by_side p (weighted a p b q).
Proof.
  intros a b p q S. induction S as [|r s p q [E B] S IH]; [constructor|]. rewrite weighted_cons. constructor; [|exact IH]. cbn [fst snd]. split; [reflexivity|].
  destruct B as [[-> ->]|(c & d & -> & ->)]; [left; split; reflexivity|right; cbn; eauto].
Qed.
Lemma rows_weighted : forall a b (F H : Z -> fl) l, weighted a (map (fun t => (t, F t)) l) b (map (fun t => (t, H t)) l) = map (fun t => (t, mix a b (F t) (H t))) l.
Proof. intros a b F H l. induction l as [|t l IH]; [reflexivity|]. cbn [map]. now rewrite weighted_cons, IH. Qed.
Lemma rows_side : forall (F H : Z -> fl) l, (forall t, both_or_none (F t) (H t)) -> side_by_side (map (fun t => (t, F t)) l) (map (fun t => (t, H t)) l).
Proof. intros F H l B. induction l as [|t l IH]; constructor; [split; [reflexivity|apply B]|exact IH]. Qed.

Lemma day_sums : forall a b w p q, side_by_side p q ->
  side_by_side (resample_day_sum p w) (resample_day_sum q w) /\ resample_day_sum (weighted a p b q) w = weighted a (resample_day_sum p w) b (resample_day_sum q w).
Proof.
  intros a b w p q S. destruct p as [|r p']; [inversion S; subst; split; [constructor|reflexivity]|]. destruct q as [|s q']; [inversion S|].
  assert (E : fst s = fst r) by (inversion S as [|? ? ? ? [E _]]; congruence).
  pose proof (last_side _ _ (fst r, NaN) (fst r, NaN) S ltac:(discriminate)) as L.
  pose proof (last_side _ _ (fst r, NaN) (fst r, NaN) (side_weighted a b _ _ S) ltac:(discriminate)) as L'.
  assert (D : forall z : series, (exists h z', z = h :: z' /\ fst h = fst r) -> fst (List.last (r :: p') (fst r, NaN)) = fst (List.last z (fst r, NaN)) ->
    resample_day_sum z w = map (fun c => (c, fsum (vals (filter (fun x => (bin_start (start_day (fst r)) w (fst x) =? c)%Z) z)))) (bin_starts (fst r) w (fst (List.last (r :: p') (fst r, NaN))))).
  { intros z ([t v] & z' & -> & Eh) El. cbn [fst] in Eh. subst t. unfold resample_day_sum. rewrite <- El. reflexivity. }
  rewrite (D (r :: p')), (D (s :: q')), (D (weighted a (r :: p') b (s :: q'))); eauto.
  2: { rewrite weighted_cons. do 2 eexists. split; [reflexivity|reflexivity]. }
  split.
  - apply rows_side. intros t. destruct (sums a b (fun x => (bin_start (start_day (fst r)) w x =? t)%Z) _ _ S) as (u & v & H1 & H2 & _). right. eauto.
  - rewrite rows_weighted. apply map_ext. intros t. f_equal. destruct (sums a b (fun x => (bin_start (start_day (fst r)) w x =? t)%Z) _ _ S) as (u & v & H1 & H2 & H3).
    rewrite H3, H1, H2. reflexivity.
Qed.

Lemma quotients : forall a b e u v, side_by_side u v -> noinf (vals (zip_aligned fdiv u e)) -> noinf (vals (zip_aligned fdiv v e)) ->
  zip_aligned fdiv (weighted a u b v) e = weighted a (zip_aligned fdiv u e) b (zip_aligned fdiv v e).
Proof.
  intros a b e u v S. pose proof (side_times u v S) as T. unfold zip_aligned, align. rewrite (weighted_times a b u v T), <- T.
  destruct (same_index (times u) (times e)); rewrite !map_map; cbn [fst snd].
  - clear T. revert e. induction S as [|r s u v [E B] S IH]; intros [|h e] N1 N2; try reflexivity.
    rewrite weighted_cons. cbn [combine map fst snd] in *. rewrite weighted_cons. cbn [fst snd]. f_equal.
    + f_equal. destruct (N1 _ (or_introl eq_refl)). destruct (N2 _ (or_introl eq_refl)). now apply quotient_linear.
    + apply IH; [intros z I; apply N1; now right|intros z I; apply N2; now right].
  - intros N1 N2. rewrite (rows_weighted a b (fun t => fdiv (lookup u t) (lookup e t)) (fun t => fdiv (lookup v t) (lookup e t))). apply map_ext_in. intros t I. f_equal.
    rewrite (weighted_lookup a b u v t T). unfold vals in N1, N2. rewrite map_map in N1, N2. cbn [snd] in N1, N2.
    destruct (N1 _ (in_map _ _ _ I)). destruct (N2 _ (in_map _ _ _ I)). apply quotient_linear; auto. now apply side_lookup.
Qed.

Lemma quotients_both : forall e u v, side_by_side u v -> noinf (vals (zip_aligned fdiv u e)) -> noinf (vals (zip_aligned fdiv v e)) ->
  side_by_side (zip_aligned fdiv u e) (zip_aligned fdiv v e).
Proof.
  intros e u v S. pose proof (side_times u v S) as T. unfold zip_aligned, align. rewrite <- T.
  destruct (same_index (times u) (times e)); rewrite !map_map; cbn [fst snd].
  - clear T. revert e. induction S as [|r s u v [E B] S IH]; intros [|h e] N1 N2; try constructor; cbn [combine map fst snd] in *.
    + split; [exact E|]. destruct (N1 _ (or_introl eq_refl)). destruct (N2 _ (or_introl eq_refl)). now apply quotient_both.
    + apply IH; [intros z I; apply N1; now right|intros z I; apply N2; now right].
  - intros N1 N2. unfold vals in N1, N2. rewrite map_map in N1, N2. cbn [snd] in N1, N2.
    assert (K : forall t, In t (zset (times u ++ times e)) -> both_or_none (fdiv (lookup u t) (lookup e t)) (fdiv (lookup v t) (lookup e t))).
    { intros t I. destruct (N1 _ (in_map _ _ _ I)). destruct (N2 _ (in_map _ _ _ I)). apply quotient_both; auto. now apply side_lookup. }
    clear - K. induction (zset (times u ++ times e)) as [|t l IH]; constructor; [split; [reflexivity|apply K; now left]|apply IH; intros t' I; apply K; now right].
Qed.

Theorem aggregation_linear : forall w insolation x y, side_by_side x y -> times x = times insolation -> noinf (vals insolation) ->
  let daily s := aggregation_insol s insolation w in
  times (daily x) = times (daily y) /\
  (noinf (vals (daily x)) -> noinf (vals (daily y)) -> side_by_side (daily x) (daily y) /\ forall a b, daily (weighted a x b y) = weighted a (daily x) b (daily y)).
Proof.
  intros w ins x y S T N. cbv zeta. unfold aggregation_insol. split.
  - apply zip_times, side_times, (day_sums 0 0 w). apply (products 0 0 ins x y S T N).
  - intros N1 N2. split; [apply quotients_both; [apply (day_sums 0 0 w), (products 0 0 ins x y S T N)|exact N1|exact N2]|].
    intros a b. destruct (products a b ins x y S T N) as [P1 P2]. rewrite P2. destruct (day_sums a b w _ _ P1) as [D1 D2]. rewrite D2. now apply quotients.
Qed.

Theorem pvwatts_linear : forall infer ef pf poa rated tcell ref tref gamma x y, side_by_side x y ->
  let normalized e := normalize_with_pvwatts infer ef pf e poa rated tcell ref tref gamma in
  match normalized x, normalized y with
  | Ok (u, i), Ok (v, j) => i = j /\ times u = times v /\
      (noinf (vals u) -> noinf (vals v) -> side_by_side u v /\ forall a b, normalized (weighted a x b y) = Ok (weighted a u b v, i))
  | Raise e, Raise e' => e = e' /\ forall a b, normalized (weighted a x b y) = Raise e
  | _, _ => False
  end.
Proof. intros. unfold normalize_with_pvwatts in *. now apply normalized_linear. Qed.
