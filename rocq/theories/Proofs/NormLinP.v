(** Normalized energies of inverters that report side by side. *)

From Coq Require Import QArith Qcanon List ZArith Bool Lia.
From Verif.Base Require Import QcExtra ISort Quantile Fl TimeSeries Rolling.
From Verif.Model Require Import Interpolation Energy Normalization.
From Verif.Spec Require Import Superposition.
From Verif.Proofs Require Import SuperP.
Import ListNotations.
Open Scope Qc_scope.

Lemma find_combine : forall (x e : series) t, times x = times e ->
  find (fun r => (fst r =? t)%Z) (map (fun p => (fst (fst p), fdiv (snd (fst p)) (snd (snd p)))) (combine x e)) =
  match find (fun r => (fst r =? t)%Z) x, find (fun r => (fst r =? t)%Z) e with Some r, Some s => Some (fst r, fdiv (snd r) (snd s)) | _, _ => None end.
Proof.
  intros x. induction x as [|[tx vx] x IH]; intros [|[te ve] e] t H; try discriminate H; [reflexivity|]. cbn in H. injection H as <- H. cbn.
  destruct (tx =? t)%Z; [reflexivity|]. now apply IH.
Qed.
Lemma find_same : forall (x e : series) t, times x = times e -> find (fun r => (fst r =? t)%Z) x = None <-> find (fun r => (fst r =? t)%Z) e = None.
Proof.
  intros x. induction x as [|[tx vx] x IH]; intros [|[te ve] e] t H; try discriminate H; [reflexivity|]. cbn in H. injection H as <- H. cbn.
  destruct (tx =? t)%Z; [split; discriminate|]. now apply IH.
Qed.
Lemma lookup_missing : forall (s : series) t, ~ In t (times s) -> lookup s t = NaN.
Proof.
  intros s t H. unfold lookup. destruct (find _ s) as [r|] eqn:F; [|reflexivity]. exfalso. apply find_some in F. destruct F as [I E]. apply Z.eqb_eq in E. subst t. apply H.
  now apply in_map.
Qed.
Lemma find_rows : forall (f : Z -> fl) l t, lookup (map (fun t => (t, f t)) l) t = if existsb (Z.eqb t) l then f t else NaN.
Proof.
  intros f l t. unfold lookup. induction l as [|x l IH]; [reflexivity|]. cbn. rewrite (Z.eqb_sym t x). destruct (Z.eqb_spec x t) as [->|]; [reflexivity|exact IH].
Qed.
Lemma zip_lookup : forall x e t, lookup (zip_aligned fdiv x e) t = fdiv (lookup x t) (lookup e t).
Proof.
  intros x e t. unfold zip_aligned, align, same_index. destruct (list_eq_dec Z.eq_dec (times x) (times e)) as [E|E].
  - rewrite map_map. cbn [fst snd]. unfold lookup. rewrite (find_combine x e t E). pose proof (find_same x e t E) as N.
    destruct (find _ x) as [r|]; destruct (find _ e) as [s|]; try reflexivity; destruct N as [N1 N2]; try (specialize (N1 eq_refl); discriminate); specialize (N2 eq_refl); discriminate.
  - rewrite map_map. cbn [fst snd]. rewrite (find_rows (fun t => fdiv (lookup x t) (lookup e t))). destruct (existsb (Z.eqb t) _) eqn:X; [reflexivity|].
    assert (N : ~ In t (zset (times x ++ times e))).
    { intros I. enough (existsb (Z.eqb t) (zset (times x ++ times e)) = true) by congruence. apply existsb_exists. exists t. split; [exact I|apply Z.eqb_refl]. }
    rewrite zset_In, in_app_iff in N. rewrite (lookup_missing x t), (lookup_missing e t) by tauto. reflexivity.
Qed.
Lemma zip_times : forall x y e : series, times x = times y -> times (zip_aligned fdiv x e) = times (zip_aligned fdiv y e).
Proof.
  intros x y e H. unfold zip_aligned, align. rewrite <- H. destruct (same_index (times x) (times e)); [|unfold times; rewrite !map_map; reflexivity].
  revert y e H. induction x as [|r x IH]; intros [|s y] e H; try discriminate H; [reflexivity|]. cbn in H. injection H as H1 H2. destruct e as [|u e]; [reflexivity|].
  cbn. f_equal; [exact H1|]. now apply IH.
Qed.
Lemma side_times : forall x y, side_by_side x y -> times x = times y.
Proof. intros x y H. unfold times. induction H as [|r s x y [E _] _ IH]; [reflexivity|]. cbn [map]. f_equal; assumption. Qed.
Lemma weighted_times : forall a b x y, times x = times y -> times (weighted a x b y) = times x.
Proof.
  intros a b x. unfold weighted. induction x as [|r x IH]; intros [|s y] H; try discriminate H; [reflexivity|]. cbn in *. injection H as _ H. f_equal. now apply IH.
Qed.
Lemma weighted_lookup : forall a b x y t, times x = times y -> lookup (weighted a x b y) t = fadd (fmul (Fin a) (lookup x t)) (fmul (Fin b) (lookup y t)).
Proof.
  intros a b x. unfold weighted, lookup. induction x as [|[tx vx] x IH]; intros [|[ty vy] y] t H; try discriminate H; [reflexivity|].
  cbn in H. injection H as <- H. cbn. destruct (tx =? t)%Z; [reflexivity|]. now apply IH.
Qed.
Lemma side_lookup : forall x y t, side_by_side x y -> both_or_none (lookup x t) (lookup y t).
Proof.
  intros x y t H. unfold lookup. induction H as [|[tx vx] [ty vy] x y [E B] _ IH]; [left; auto|]. cbn in E, B. subst ty. cbn. destruct (tx =? t)%Z; [exact B|exact IH].
Qed.
Lemma quotient_linear : forall a b x y e, both_or_none x y -> fdiv x e <> PInf -> fdiv x e <> NInf -> fdiv y e <> PInf -> fdiv y e <> NInf ->
  fdiv (fadd (fmul (Fin a) x) (fmul (Fin b) y)) e = fadd (fmul (Fin a) (fdiv x e)) (fmul (Fin b) (fdiv y e)).
Proof.
  intros a b x y e [[-> ->]|(p & q & -> & ->)] H1 H2 H3 H4; [destruct e; reflexivity|].
  destruct e as [| |c|]; [reflexivity| | |].
  - cbn. f_equal. ring.
  - destruct (Qc_eq_dec c 0) as [->|Hc].
    + assert (Z0 : forall r, fdiv (Fin r) (Fin 0) <> PInf -> fdiv (Fin r) (Fin 0) <> NInf -> r = 0).
      { intros r N1 N2. destruct (Qc_eq_dec r 0) as [R|R]; [exact R|]. exfalso. cbn in N1, N2. unfold inf_sgn in *.
        repeat match goal with H : context [if ?c then _ else _] |- _ => destruct c eqn:? end; try congruence; qb; try congruence; apply R; qlra. }
      rewrite (Z0 p H1 H2), (Z0 q H3 H4). cbn [fmul fadd]. replace (a * 0 + b * 0) with 0 by ring. vm_compute. reflexivity.
    + assert (D : forall r, fdiv (Fin r) (Fin c) = Fin (r / c)).
      { intros r. cbn. destruct (qeq c 0) eqn:E; [qb; contradiction|reflexivity]. }
      cbn [fmul fadd]. rewrite !D. cbn [fmul fadd]. f_equal. field. exact Hc.
  - cbn. f_equal. ring.
Qed.

Lemma over_zero : forall r, fdiv (Fin r) (Fin 0) <> PInf -> fdiv (Fin r) (Fin 0) <> NInf -> r = 0.
Proof.
  intros r N1 N2. destruct (Qc_eq_dec r 0) as [R|R]; [exact R|]. exfalso. cbn in N1, N2. unfold inf_sgn in *.
  repeat match goal with H : context [if ?c then _ else _] |- _ => destruct c eqn:? end; try congruence; qb; try congruence; apply R; qlra.
Qed.
Lemma quotient_both : forall x y e, both_or_none x y -> fdiv x e <> PInf -> fdiv x e <> NInf -> fdiv y e <> PInf -> fdiv y e <> NInf -> both_or_none (fdiv x e) (fdiv y e).
Proof.
  intros x y e [[-> ->]|(p & q & -> & ->)] H1 H2 H3 H4; [left; destruct e; split; reflexivity|].
  destruct e as [| |c|]; [left; split; reflexivity|right; exists 0, 0; split; reflexivity| |right; exists 0, 0; split; reflexivity].
  destruct (Qc_eq_dec c 0) as [->|Hc]; [left; rewrite (over_zero p H1 H2), (over_zero q H3 H4); split; vm_compute; reflexivity|].
  right. exists (p / c), (q / c). cbn. destruct (qeq c 0) eqn:E; [qb; contradiction|split; reflexivity].
Qed.

Theorem normalized_linear : forall infer pf mf expected poa kind x y, side_by_side x y ->
  let normalized p := normalize_with_expected_power infer pf mf p expected poa kind in
  match normalized x, normalized y with
  | Ok (u, i), Ok (v, j) => i = j /\ times u = times v /\
      (noinf (vals u) -> noinf (vals v) -> side_by_side u v /\ forall a b, normalized (weighted a x b y) = Ok (weighted a u b v, i))
  | Raise e, Raise e' => e = e' /\ forall a b, normalized (weighted a x b y) = Raise e
  | _, _ => False
  end.
Proof.
  intros infer pf mf expected poa kind x y S. cbv zeta. pose proof (side_times x y S) as T.
  assert (W : forall a b, times (weighted a x b y) = times x) by (intros; now apply weighted_times).
  unfold normalize_with_expected_power.
  assert (C : forall s : series, times s = times x -> check_series_frequency infer pf s = check_series_frequency infer pf x) by (intros s Es; unfold check_series_frequency; now rewrite Es).
  rewrite (C y (eq_sym T)).
  assert (Cw : forall a b, check_series_frequency infer pf (weighted a x b y) = check_series_frequency infer pf x) by (intros; apply C, W).
  destruct (check_series_frequency infer pf x) as [freq|e]; [|cbn [bind]; split; [reflexivity|]; intros a b; now rewrite Cw]. cbn [bind].
  set (er := fun p : series => match kind with
        | PvPower => bind (energy_from_power pf p (Some freq) None RightLabeled) (fun e => Ok (e, Some freq))
        | PvEnergy => Ok (p, pf)
        | PvOther => Raise ValueError
        end).
  assert (EN : match er x, er y with
    | Ok (u, f), Ok (v, f') => f = f' /\ side_by_side u v /\ forall a b, er (weighted a x b y) = Ok (weighted a u b v, f)
    | Raise e, Raise e' => e = e' /\ forall a b, er (weighted a x b y) = Raise e
    | _, _ => False end).
  { unfold er. destruct kind; [|auto|auto]. pose proof (energy_linear pf (Some freq) None RightLabeled x y S) as L. cbv beta in L.
    destruct (energy_from_power pf x (Some freq) None RightLabeled) as [u|e]; destruct (energy_from_power pf y (Some freq) None RightLabeled) as [v|e']; cbn [bind]; try contradiction.
    - destruct L as [L1 L2]. split; [reflexivity|]. split; [exact L1|]. intros a b. now rewrite L2.
    - destruct L as [L1 L2]. split; [exact L1|]. intros a b. now rewrite L2. }
  change (match kind with
        | PvPower => bind (energy_from_power pf x (Some freq) None RightLabeled) (fun e => Ok (e, Some freq))
        | PvEnergy => Ok (x, pf)
        | PvOther => Raise ValueError
        end) with (er x).
  change (match kind with
        | PvPower => bind (energy_from_power pf y (Some freq) None RightLabeled) (fun e => Ok (e, Some freq))
        | PvEnergy => Ok (y, pf)
        | PvOther => Raise ValueError
        end) with (er y).
  assert (Ew : forall a b, match kind with
        | PvPower => bind (energy_from_power pf (weighted a x b y) (Some freq) None RightLabeled) (fun e => Ok (e, Some freq))
        | PvEnergy => Ok (weighted a x b y, pf)
        | PvOther => Raise ValueError
        end = er (weighted a x b y)) by reflexivity.
  destruct (er x) as [[u f]|e]; destruct (er y) as [[v f']|e']; try contradiction.
  2: { destruct EN as [-> EN]. cbn [bind]. split; [reflexivity|]. intros a b. rewrite Cw. cbn [bind]. rewrite Ew, EN. reflexivity. }
  destruct EN as (<- & Suv & EN). pose proof (side_times u v Suv) as Tuv. cbn [bind fst snd].
  assert (MS : forall s : series, times s = times u -> mean_step f s = mean_step f u).
  { intros s Es. unfold mean_step. destruct f; [|now rewrite Es]. f_equal. assert (Ls : length s = length u) by (rewrite <- (map_length fst s), <- (map_length fst u); exact (f_equal (@length Z) Es)).
    rewrite !map_map. clear - Ls. revert u Ls. induction s as [|r s IH]; intros [|r' u] Ls; try discriminate Ls; [reflexivity|]. cbn. f_equal. apply IH. now injection Ls. }
  rewrite (MS v (eq_sym Tuv)), <- T.
  set (slower := fgt (mean_step mf expected) (mean_step f u)).
  set (power := if slower then interpolate true true expected (TIndex (times x)) None else Ok expected).
  set (light := if slower then interpolate true true poa (TIndex (times x)) None else Ok poa).
  destruct power as [p|e] eqn:Ep; cbn [bind].
  2: { split; [reflexivity|]. intros a b. rewrite Cw. cbn [bind]. rewrite Ew, EN. cbn [bind fst snd]. rewrite (MS (weighted a u b v)) by now apply weighted_times. rewrite W. fold slower. fold power. rewrite Ep. reflexivity. }
  destruct light as [l|e] eqn:El; cbn [bind].
  2: { split; [reflexivity|]. intros a b. rewrite Cw. cbn [bind]. rewrite Ew, EN. cbn [bind fst snd]. rewrite (MS (weighted a u b v)) by now apply weighted_times. rewrite W. fold slower. fold power. rewrite Ep. cbn [bind]. fold light. rewrite El. reflexivity. }
  destruct (energy_from_power None p (Some freq) None RightLabeled) as [ee|e] eqn:E1; cbn [bind].
  2: { split; [reflexivity|]. intros a b. rewrite Cw. cbn [bind]. rewrite Ew, EN. cbn [bind fst snd]. rewrite (MS (weighted a u b v)) by now apply weighted_times. rewrite W. fold slower. fold power. rewrite Ep. cbn [bind]. fold light. rewrite El. cbn [bind]. rewrite E1. reflexivity. }
  destruct (energy_from_power None l (Some freq) None RightLabeled) as [ins|e] eqn:E2; cbn [bind].
  2: { split; [reflexivity|]. intros a b. rewrite Cw. cbn [bind]. rewrite Ew, EN. cbn [bind fst snd]. rewrite (MS (weighted a u b v)) by now apply weighted_times. rewrite W. fold slower. fold power. rewrite Ep. cbn [bind]. fold light. rewrite El. cbn [bind]. rewrite E1. cbn [bind]. rewrite E2. reflexivity. }
  rewrite <- (zip_times u v ee Tuv). set (union := zset (times (zip_aligned fdiv u ee) ++ times ins)).
  split; [reflexivity|]. split; [unfold reindex, times; now rewrite !map_map|]. intros N1 N2. split.
  { unfold reindex in *. assert (K : forall t, In t union -> both_or_none (lookup (zip_aligned fdiv u ee) t) (lookup (zip_aligned fdiv v ee) t)).
    { intros t I. unfold vals in N1, N2. rewrite map_map in N1, N2. cbn [snd] in N1, N2. destruct (N1 _ (in_map _ _ _ I)). destruct (N2 _ (in_map _ _ _ I)). rewrite !zip_lookup in *. apply quotient_both; auto. now apply side_lookup. }
    clear - K. induction union as [|t l IH]; constructor; [split; [reflexivity|apply K; now left]|apply IH; intros t' I; apply K; now right]. }
  intros a b.
  rewrite Cw. cbn [bind]. rewrite Ew, EN. cbn [bind fst snd]. rewrite (MS (weighted a u b v)) by now apply weighted_times. rewrite W. fold slower. fold power. rewrite Ep. cbn [bind]. fold light. rewrite El. cbn [bind]. rewrite E1. cbn [bind]. rewrite E2. cbn [bind].
  rewrite (zip_times (weighted a u b v) u ee) by now apply weighted_times. fold union. do 2 f_equal.
  unfold reindex in *.
  assert (R : forall (F H : Z -> fl) l, weighted a (map (fun t => (t, F t)) l) b (map (fun t => (t, H t)) l) = map (fun t => (t, fadd (fmul (Fin a) (F t)) (fmul (Fin b) (H t)))) l)
    by (intros F H k; unfold weighted; induction k as [|t k IH]; [reflexivity|cbn [map combine]; now rewrite IH]).
  rewrite R. apply map_ext_in. intros t I. f_equal. rewrite !zip_lookup, weighted_lookup by exact Tuv.
  assert (V1 : In (fdiv (lookup u t) (lookup ee t)) (vals (map (fun t => (t, lookup (zip_aligned fdiv u ee) t)) union))) by (unfold vals; rewrite map_map; apply in_map_iff; exists t; cbn; split; [apply zip_lookup|exact I]).
  assert (V2 : In (fdiv (lookup v t) (lookup ee t)) (vals (map (fun t => (t, lookup (zip_aligned fdiv v ee) t)) union))) by (unfold vals; rewrite map_map; apply in_map_iff; exists t; cbn; split; [apply zip_lookup|exact I]).
  apply quotient_linear; [now apply side_lookup|apply (N1 _ V1)|apply (N1 _ V1)|apply (N2 _ V2)|apply (N2 _ V2)].
Qed.
