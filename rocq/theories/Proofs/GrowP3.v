(** Instantaneous energies for short intervals as the record grows. *)

From Coq Require Import QArith Qcanon List ZArith Bool Arith Lia Sorted.
From Verif.Base Require Import QcExtra ISort Quantile Fl TimeSeries Rolling Segments.
From Verif.Spec Require Import Stats Interp Energy Window Upsampled.
From Verif.Model Require Import Interpolation Energy.
From Verif.Proofs Require Import StatsP InterpP EnergyP EnergyP2 EnergyP8 WindowP GrowP.
Import ListNotations.
Open Scope list_scope.
Open Scope Qc_scope.

Lemma mean_dec : forall s width limit t, sorted_index s -> noinf (vals s) -> 0 <= limit ->
  (exists e, mean_of_ends s width limit t e) \/ (forall e, ~ mean_of_ends s width limit t e).
Proof.
  intros s width limit t S I H0. unfold mean_of_ends. destruct (Qclt_le_dec limit (qz width)) as [L | L]; [right; intros e (H & _); qlra |].
  assert (may_start s width limit (t - width) \/ ~ may_start s width limit (t - width)) as [M | M].
  { unfold may_start. destruct (Z.eq_dec (t - width) (first_time s)) as [E | E]; [left; left; exact E |].
    destruct (interp_dec s limit (t - width - width) S I H0) as [D | D]; [left; right; auto | right; intros [C | [_ C]]; [exact (E C) | exact (D C)]]. }
  2: { right. intros e (_ & H & _). exact (M H). }
  destruct (interp_dec s limit (t - width) S I H0) as [(q' & Hq') | N]; [| right; intros e (_ & _ & q' & q & H & _); apply N; exists q'; exact H].
  destruct (interp_dec s limit t S I H0) as [(q & Hq) | N]; [| right; intros e (_ & _ & q1 & q & _ & H & _); apply N; exists q; exact H].
  left. eexists. split; [exact L |]. split; [exact M |]. exists q', q. split; [exact Hq' |]. split; [exact Hq | reflexivity].
Qed.

Section Grow.
Context (old new : series).
Let all : series := old ++ new.
Hypothesis HS : sorted_index all.
Hypothesis HI : noinf (vals all).
Hypothesis HL : (2 <= length old)%nat.

Lemma start_grow : forall width limit t, (0 < width)%Z -> reached old t -> (may_start all width limit t <-> may_start old width limit t).
Proof.
  intros width limit t HW R. unfold may_start. unfold all. rewrite (first_grow old new HS (old_nonempty old HL)).
  assert (reached old (t - width)) as R' by (apply (reached_le old t); [exact R | lia]).
  split; (intros [H | (H & q & K)]; [left; exact H | right; split; [exact H | exists q; apply (interp_grow old new HS limit (t - width) (Fin q) R'); exact K]]).
Qed.
Lemma mean_grow : forall width limit t e, (0 < width)%Z -> reached old t -> (mean_of_ends all width limit t e <-> mean_of_ends old width limit t e).
Proof.
  intros width limit t e HW R. unfold mean_of_ends.
  assert (reached old (t - width)) as R' by (apply (reached_le old t); [exact R | lia]). rewrite (start_grow width limit (t - width) HW R').
  split; intros (H1 & H2 & q' & q & H3 & H4 & H5); (split; [exact H1 |]; split; [exact H2 |]; exists q', q;
    split; [apply (interp_grow old new HS limit (t - width) (Fin q') R'); exact H3 |]; split; [apply (interp_grow old new HS limit t (Fin q) R); exact H4 | exact H5]).
Qed.

Theorem grow_short_inst : forall freq freq' target width max med med' limit e, is_median (gaps_between (times old)) med -> is_median (gaps_between (times all)) med' ->
  width = match target with Some w => w | None => qfloor med end -> width = match target with Some w => w | None => qfloor med' end ->
  limit = the_limit max med -> limit = the_limit max med' -> (0 < width)%Z -> qz width <= med -> qz width <= med' -> 0 <= limit ->
  energy_from_power freq old target max Instantaneous = Ok e ->
  exists e', energy_from_power freq' all target max Instantaneous = Ok e' /\
    forall b, (exists g q, on_grid old width g /\ interp old limit g (Fin q) /\ (b <= g)%Z) -> up_to b e' = up_to b e.
Proof.
  intros freq freq' target width max med med' limit e HM HM' EW EW' EL EL' HW L L' H0 E.
  pose proof (proj1 (grow_parts old new HS)) as HS1. pose proof (old_noinf old new HI) as HI1. pose proof (old_nonempty old HL) as NE.
  destruct (energy_short_inst freq old target width max med limit HS1 HI1 HL HM EW EL HW L H0) as [N P].
  destruct (grid_dec old width limit HS1 HI1 H0 HW NE) as [(t0 & q0 & G0 & I0) | NG]; [| rewrite (N NG) in E; discriminate].
  destruct (P t0 q0 G0 I0) as (out & Eo & S1 & T1 & V1). rewrite Eo in E. injection E as <-.
  pose proof (interp_reached old _ _ _ I0) as R0.
  destruct (energy_short_inst freq' all target width max med' limit HS HI (all_length old new HL) HM' EW' EL' HW L' H0) as [_ P'].
  destruct (P' t0 q0 (proj2 (grid_grow old new HS HL width t0 R0) G0) (proj2 (interp_grow old new HS limit t0 (Fin q0) R0) I0)) as (e' & E' & S2 & T2 & V2).
  exists e'. split; [exact E' |]. intros b (g & qg & Gg & Ig & Hbg). pose proof (interp_reached old _ _ _ Ig) as Rg. apply agree_up_to; [exact S1 | exact S2 | |].
  - intros t Hle. assert (reached old t) as Rt by (apply (reached_le old g); [exact Rg | lia]). rewrite T1, T2. unfold all. rewrite (first_grow old new HS NE).
    rewrite (grid_grow old new HS HL width t Rt). reflexivity.
  - intros t v v' Hle H H'. assert (reached old t) as Rt by (apply (reached_le old g); [exact Rg | lia]).
    destruct (V1 t v H) as (A1 & A2 & A3). destruct (V2 t v' H') as (B1 & B2 & B3).
    destruct (long_dec old limit t) as [Y | Y]; [rewrite (A1 Y), (B1 (proj2 (long_grow old new HS limit t Rt) Y)); reflexivity |].
    assert (~ in_long_step all limit t) as Y' by (intros C; apply Y; apply (long_grow old new HS limit t Rt); exact C).
    destruct (mean_dec old width limit t HS1 HI1 H0) as [(x & X) | X].
    + rewrite (A3 x Y (or_introl X)), (B3 x Y' (or_introl (proj2 (mean_grow width limit t x HW Rt) X))). reflexivity.
    + assert (v = NaN) as ->.
      { apply A2. intros x. split; [apply X |]. intros (l & q & _ & _ & M & Hl & _). pose proof (M g qg Gg Ig). lia. }
      symmetry. apply B2. intros x. split; [intros C; apply (X x); apply (mean_grow width limit t x HW Rt); exact C |].
      intros (l & q & _ & _ & M & Hl & _).
      pose proof (M g qg (proj2 (grid_grow old new HS HL width g Rg) Gg) (proj2 (interp_grow old new HS limit g (Fin qg) Rg) Ig)). lia.
Qed.
End Grow.
