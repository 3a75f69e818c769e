(** C15: right-labelled energy is power times time. *)

From Coq Require Import QArith Qcanon List ZArith Bool Sorted Lia.
From Verif.Base Require Import QcExtra ISort Quantile Fl TimeSeries Segments.
From Verif.Spec Require Import Stats Interp Energy.
From Verif.Model Require Import Interpolation Energy.
From Verif.Proofs Require Import EnergyP EnergyP2 EnergyP3 EnergyP4 EnergyP5 EnergyP6.
Import ListNotations.
Open Scope Qc_scope.

(** Target intervals longer than the median step: one label for each interval that starts
    before the last row; each step between consecutive values, if not longer than the
    limit, contributes the later value times its time inside the interval. *)
Theorem C15_energy : forall freq power width max med, sorted_index power -> noinf (vals power) ->
  (2 <= length power)%nat -> is_median (gaps_between (times power)) med -> (0 < width)%Z -> med < qz width ->
  (points power = [] -> energy_from_power freq power (Some width) max RightLabeled = Raise IndexError) /\
  (points power <> [] -> exists out, energy_from_power freq power (Some width) max RightLabeled = Ok out /\
    StronglySorted Z.lt (times out) /\
    (forall t, In t (times out) <->
       exists k, (1 <= k)%Z /\ t = (first_time power + width * k)%Z /\ (t - width < final_time power)%Z) /\
    forall t v, In (t, v) out ->
      reported (in_long_step power (the_limit max med) t)
               (rect_covered power (the_limit max med) (t - width) t)
               (rect_energy power (the_limit max med) (t - width) t) v).
Proof. exact energy_long. Qed.

(** Without gaps no value is missing and they add up to the total. *)
Theorem C15_total : forall freq power width max med, sorted_index power -> noinf (vals power) ->
  (2 <= length power)%nat -> is_median (gaps_between (times power)) med -> (0 < width)%Z -> med < qz width ->
  no_gaps power (the_limit max med) ->
  exists es, energy_from_power freq power (Some width) max RightLabeled = Ok (map (fun e => (fst e, Fin (snd e))) es) /\
    qsum (map snd es) = total_energy power.
Proof. exact energy_total. Qed.

(** Target intervals up to the median step (in particular the default one): power
    interpolated at the label times the width, if it exists at both ends. *)
Theorem C15_upsampled : forall freq power target width max med limit, sorted_index power -> noinf (vals power) ->
  (2 <= length power)%nat -> is_median (gaps_between (times power)) med ->
  width = match target with Some w => w | None => qfloor med end -> limit = the_limit max med ->
  (0 < width)%Z -> qz width <= med -> 0 <= limit ->
  ((forall t q, on_grid power width t -> ~ interp power limit t (Fin q)) ->
     energy_from_power freq power target max RightLabeled = Raise IndexError) /\
  (forall t0 q0, on_grid power width t0 -> interp power limit t0 (Fin q0) ->
    exists out, energy_from_power freq power target max RightLabeled = Ok out /\
    StronglySorted Z.lt (times out) /\
    (forall t, In t (times out) <-> on_grid power width t /\ t <> first_time power) /\
    forall t v, In (t, v) out ->
      (in_long_step power limit t -> v = NaN) /\
      ((forall q, ~ both_ends power width limit t q) -> v = NaN) /\
      (forall q, ~ in_long_step power limit t -> both_ends power width limit t q -> v = Fin (q * hours width))).
Proof. exact energy_short. Qed.

(** Scaling, for either type and any width. *)
Theorem C15_scale : forall c freq power target max pt, sorted_index power -> noinf (vals power) ->
  match target with Some w => (0 < w)%Z | None => True end ->
  energy_from_power freq (map_values (fun q => c * q) power) target max pt =
  rmap (map_values (fun q => c * q)) (energy_from_power freq power target max pt).
Proof. exact energy_scale. Qed.

(** One row. *)
Theorem C15_single : forall freq t q target max pt,
  energy_from_power freq [(t, Fin q)] target max pt =
  match pt, (match target with Some w => Some w | None => freq end) with
  | Instantaneous, _ | _, None => Raise ValueError
  | _, Some w => Ok [(t, Fin (q * hours w))]
  end.
Proof. exact energy_single. Qed.

Print Assumptions C15_energy.
Print Assumptions C15_total.
Print Assumptions C15_upsampled.
Print Assumptions C15_scale.
Print Assumptions C15_single.

(** Quarter-hours with a short first step; intervals of half an hour. *)
Definition minutes (m : Z) : Z := (m * 60000000000)%Z.
Definition c15_power : series :=
  [(minutes 0, fz 9); (minutes 10, fz 4); (minutes 25, fz 8); (minutes 40, fz 12); (minutes 55, fz 16)].

Example C15_example :
  sorted_index c15_power /\ noinf (vals c15_power) /\ (2 <= length c15_power)%nat /\
  is_median (gaps_between (times c15_power)) (qz (minutes 15)) /\
  no_gaps c15_power (qz (minutes 15)) /\
  energy_from_power None c15_power (Some (minutes 30)) None RightLabeled =
    Ok [(minutes 30, Fin (qf 11 3)); (minutes 60, fz 6)] /\
  total_energy c15_power = qf 29 3.
Proof.
  split.
  { repeat constructor. }
  split.
  { intros x H. cbn in H. decompose [or] H; subst; try contradiction; split; discriminate. }
  split.
  { cbn. lia. }
  split.
  { exists [qz (minutes 10); qz (minutes 15); qz (minutes 15); qz (minutes 15)]. split.
    - split; [apply Permutation.Permutation_refl |]. repeat constructor; discriminate.
    - right. exists 1%nat. split; [reflexivity | qc_canon]. }
  split.
  { split; [intros v H; cbn in H; decompose [or] H; subst; try contradiction; discriminate |].
    intros g H. cbn in H. decompose [or] H; subst; try contradiction; discriminate. }
  split; [vm_compute; reflexivity | qc_canon].
Qed.

(** The default interval of 15 minutes: 55 minutes are not reached, 30 is interpolated. *)
Example C15_example_default :
  energy_from_power None c15_power None None RightLabeled =
    Ok [(minutes 15, Fin (qf 4 3)); (minutes 30, Fin (qf 7 3)); (minutes 45, Fin (qf 10 3))].
Proof. vm_compute. reflexivity. Qed.

(** Upsampling does not conserve energy: two rows of 0 and 4 an hour apart hold 4 as
    right-labelled power, but 1 + 2 are reported for the half hours. *)
Example C15_upsampling_loses :
  let power := [(minutes 0, fz 0); (minutes 60, fz 4)] in
  total_energy power = qz 4 /\
  energy_from_power None power (Some (minutes 30)) None RightLabeled = Ok [(minutes 30, fz 1); (minutes 60, fz 2)].
Proof. split; [qc_canon | vm_compute; reflexivity]. Qed.
