(** C82: aggregating in two steps *)

From Coq Require Import QArith Qcanon List ZArith Bool Arith Lia Permutation Sorted.
From Verif.Base Require Import QcExtra ISort Quantile Fl TimeSeries Calendar Rolling Segments.
From Verif.Spec Require Import Stats Interp Energy Filters Normalization.
From Verif.Model Require Import Interpolation Energy Filters Normalization.
From Verif.Proofs Require Import EnergyP NormP NormP3 NormP4 TwoStepsP TwoStepsP2.
Import ListNotations.
Open Scope list_scope.
Open Scope Qc_scope.
Open Scope Qc_scope.

(** The insolation of long bins is the sum of the insolation of the short ones. *)
Theorem C82_insolation : forall ins w k, noinf (vals ins) -> (0 < w)%Z -> (0 < k)%Z -> sorted_index ins ->
  resample_day_sum (resample_day_sum ins w) (w * k) = resample_day_sum ins (w * k).
Proof. exact (fun ins w k => resample_twice ins ins w k eq_refl). Qed.

(** Aggregating normalized energy into short bins and these into long ones gives what aggregating into long bins gives. *)
Theorem C82_normalized : forall en ins w k, times en = times ins -> noinf (vals ins) -> noinf (vals en) -> (0 < w)%Z -> (0 < k)%Z -> sorted_index ins ->
  (forall t q, In (t, Fin q) ins -> 0 <= q) ->
  aggregation_insol (aggregation_insol en ins w) (resample_day_sum ins w) (w * k) = aggregation_insol en ins (w * k).
Proof. exact aggregate_twice. Qed.

(** The energy of a long interval is the sum of the reported energies of its short ones, missing if there are none, unless a short one ends inside a step longer than the limit. *)
Theorem C82_energy : forall freq power w k max med fine coarse, sorted_index power -> noinf (vals power) ->
  (2 <= length power)%nat -> is_median (gaps_between (times power)) med -> (0 < w)%Z -> med < qz w -> (0 < k)%Z ->
  energy_from_power freq power (Some w) max RightLabeled = Ok fine ->
  energy_from_power freq power (Some (w * k)%Z) max RightLabeled = Ok coarse ->
  forall T v, In (T, v) coarse ->
  (forall t, In t (times fine) -> (T - w * k < t <= T)%Z -> ~ in_long_step power (the_limit max med) t) ->
  v = fsum1 (vals (filter (fun r => (T - w * k <? fst r)%Z && (fst r <=? T)%Z) fine)).
Proof. exact energy_widths. Qed.

Definition minutes (m : Z) : Z := (m * 60000000000)%Z.
Definition hour (h : Z) : Z := minutes (h * 60).

(** Three rows on two days, in days and in two days. *)
Definition demo_ins : series := [(hour 30, fz 100); (hour 31, fz 300); (hour 55, fz 200); (hour 56, NaN); (hour 80, fz 0)].
Definition demo_en : series := [(hour 30, fz 1); (hour 31, ff 1 2); (hour 55, NaN); (hour 56, fz 1); (hour 80, fz 1)].
Lemma demo_noinf : noinf (vals demo_ins) /\ noinf (vals demo_en).
Proof. split; intros x H; cbn in H; decompose [or] H; subst; try contradiction; split; discriminate. Qed.
Example C82_example : times demo_en = times demo_ins /\ sorted_index demo_ins /\ (forall t q, In (t, Fin q) demo_ins -> 0 <= q) /\
  aggregation_insol demo_en demo_ins (hour 24) = [(hour 24, ff 5 8); (hour 48, fz 0); (hour 72, NaN)] /\
  aggregation_insol demo_en demo_ins (hour 24 * 2) = [(hour 24, ff 5 12); (hour 72, NaN)].
Proof.
  split; [reflexivity |]. split; [repeat constructor |]. split; [| split; fcompute].
  intros t q H. cbn [In demo_ins] in H. unfold fz in H. repeat (destruct H as [H | H]; [try discriminate H; injection H as _ <-; discriminate |]). contradiction.
Qed.
(** Irradiance sensors read a little below zero at night; if such readings cancel the others
    of a bin, its energy is lost. *)
Definition cancel_ins : series := [(hour 1, fz 1); (hour 2, fz (-1)); (hour 25, fz 1)].
Definition cancel_en : series := [(hour 1, fz 1); (hour 2, fz 0); (hour 25, fz 1)].
Theorem C82_negative_refuted : ~ (forall en ins w k, times en = times ins -> noinf (vals ins) -> noinf (vals en) -> (0 < w)%Z -> (0 < k)%Z -> sorted_index ins ->
  aggregation_insol (aggregation_insol en ins w) (resample_day_sum ins w) (w * k) = aggregation_insol en ins (w * k)).
Proof.
  intros H. specialize (H cancel_en cancel_ins (hour 24) 2%Z eq_refl). 
  assert (noinf (vals cancel_ins) /\ noinf (vals cancel_en)) as [Ni Ne] by (split; intros x X; cbn in X; decompose [or] X; subst; try contradiction; split; discriminate).
  specialize (H Ni Ne eq_refl eq_refl ltac:(repeat constructor)). vm_compute in H. discriminate.
Qed.
Print Assumptions C82_negative_refuted.

(** A value is missing; intervals of 20 minutes and of an hour. *)
Definition demo_power : series :=
  [(minutes 0, fz 9); (minutes 10, fz 4); (minutes 25, fz 8); (minutes 40, fz 12); (minutes 55, NaN); (minutes 70, fz 16); (minutes 85, fz 20); (minutes 100, fz 4)].
Example C82_energy_example :
  sorted_index demo_power /\ noinf (vals demo_power) /\ is_median (gaps_between (times demo_power)) (qz (minutes 15)) /\
  energy_from_power None demo_power (Some (minutes 20)) None RightLabeled =
    Ok [(minutes 20, fz 2); (minutes 40, Fin (qf 11 3)); (minutes 60, NaN); (minutes 80, Fin (qf 10 3)); (minutes 100, Fin (qf 8 3))] /\
  energy_from_power None demo_power (Some (minutes 20 * 3)%Z) None RightLabeled = Ok [(minutes 60, Fin (qf 17 3)); (minutes 120, fz 6)] /\
  forall t, ~ in_long_step demo_power (qz (minutes 15)) t.
Proof.
  split; [repeat constructor |]. split; [intros x H; cbn in H; decompose [or] H; subst; try contradiction; split; discriminate |].
  split.
  { exists (qz (minutes 10) :: repeat (qz (minutes 15)) 6). split.
    - split; [apply Permutation.Permutation_refl |]. repeat constructor; discriminate.
    - left. exists 3%nat. split; reflexivity. }
  split; [fcompute |]. split; [fcompute |].
  intros t (a & b & I & _ & L). cbn in I. repeat (destruct I as [E | I]; [injection E as <- <-; vm_compute in L; discriminate |]). contradiction.
Qed.
(** An interval that ends inside a long step is not reported; the energy before that step is, as
    a part of a longer interval. *)
Definition gap_power : series :=
  [(minutes 0, fz 6); (minutes 10, fz 6); (minutes 20, fz 6); (minutes 65, fz 6); (minutes 75, fz 6); (minutes 85, fz 6); (minutes 95, fz 6)].
Theorem C82_long_steps_refuted : ~ (forall freq power w k max med fine coarse, sorted_index power -> noinf (vals power) ->
  (2 <= length power)%nat -> is_median (gaps_between (times power)) med -> (0 < w)%Z -> med < qz w -> (0 < k)%Z ->
  energy_from_power freq power (Some w) max RightLabeled = Ok fine ->
  energy_from_power freq power (Some (w * k)%Z) max RightLabeled = Ok coarse ->
  forall T v, In (T, v) coarse -> v = fsum1 (vals (filter (fun r => (T - w * k <? fst r)%Z && (fst r <=? T)%Z) fine))).
Proof.
  intros H. assert (is_median (gaps_between (times gap_power)) (qz (minutes 10))) as M.
  { exists (repeat (qz (minutes 10)) 5 ++ [qz (minutes 45)]). split.
    - split; [| repeat constructor; discriminate]. apply (Permutation.Permutation_app_head [qz (minutes 10); qz (minutes 10)]). apply (Permutation.Permutation_cons_append (repeat (qz (minutes 10)) 3)).
    - right. exists 2%nat. split; [reflexivity | qc_canon]. }
  specialize (H None gap_power (minutes 30) 3%Z None _ [(minutes 30, NaN); (minutes 60, NaN); (minutes 90, Fin (qf 5 2)); (minutes 120, Fin (qf 1 2))] [(minutes 90, Fin (qf 9 2)); (minutes 180, Fin (qf 1 2))] ltac:(repeat constructor)
    ltac:(intros x X; cbn in X; decompose [or] X; subst; try contradiction; split; discriminate) ltac:(cbn; lia) M eq_refl ltac:(reflexivity) eq_refl ltac:(fcompute) ltac:(fcompute) (minutes 90) _ (or_introl eq_refl)).
  vm_compute in H. discriminate.
Qed.
Print Assumptions C82_long_steps_refuted.

Print Assumptions C82_insolation.
Print Assumptions C82_normalized.
Print Assumptions C82_energy.
