(** C17: instantaneous energy is the trapezoid integral. *)

From Coq Require Import QArith Qcanon List ZArith Bool Sorted Lia.
From Verif.Base Require Import QcExtra ISort Quantile Fl TimeSeries Segments.
From Verif.Spec Require Import Stats Interp Energy Upsampled.
From Verif.Model Require Import Interpolation Energy.
From Verif.Proofs Require Import StatsP EnergyP EnergyP2 EnergyP3 EnergyP4 EnergyP5 EnergyP6 EnergyP8.
Import ListNotations.
Open Scope Qc_scope.

(** Target intervals longer than the median step.  [trap_energy] adds the area under the
    chords between consecutive values not further apart than the limit; the last value is
    held to the end of the last interval; after a longer gap, counting starts at the next
    row or label. *)
Theorem C17_energy : forall freq power width max med, sorted_index power -> noinf (vals power) ->
  (2 <= length power)%nat -> is_median (gaps_between (times power)) med -> (0 < width)%Z -> med < qz width ->
  (points power = [] -> energy_from_power freq power (Some width) max Instantaneous = Raise IndexError) /\
  (points power <> [] -> exists out, energy_from_power freq power (Some width) max Instantaneous = Ok out /\
    StronglySorted Z.lt (times out) /\
    (forall t, In t (times out) <->
       exists k, (1 <= k)%Z /\ t = (first_time power + width * k)%Z /\ (t - width < final_time power)%Z) /\
    forall t v, In (t, v) out ->
      let stop := end_of_bins (first_time power) width (final_time power) in
      reported (in_long_step power (the_limit max med) t)
               (trap_covered power (the_limit max med) (first_time power) width stop (t - width) t)
               (trap_energy power (the_limit max med) (first_time power) width stop (t - width) t) v).
Proof. exact energy_long_trap. Qed.

(** Without gaps: all trapezoids. *)
Theorem C17_trapezoids : forall freq power width max med t v out, sorted_index power -> noinf (vals power) ->
  (2 <= length power)%nat -> is_median (gaps_between (times power)) med -> (0 < width)%Z -> med < qz width ->
  no_gaps power (the_limit max med) ->
  energy_from_power freq power (Some width) max Instantaneous = Ok out -> In (t, v) out ->
  v = Fin (qsum (map (fun pr => trap_part (fst (fst pr)) (t - width) t pr)
                     (consec (held power (end_of_bins (first_time power) width (final_time power)))))).
Proof. exact energy_trapezoids. Qed.

(** Up to the median step: the mean of the interpolated ends. *)
Theorem C17_upsampled : forall freq power target width max med, sorted_index power -> noinf (vals power) ->
  (2 <= length power)%nat -> is_median (gaps_between (times power)) med ->
  width = match target with Some w => w | None => qfloor med end -> (0 < width)%Z -> qz width <= med ->
  no_gaps power (the_limit max med) ->
  exists out, energy_from_power freq power target max Instantaneous = Ok out /\
    StronglySorted Z.lt (times out) /\
    (forall t, In t (times out) <-> on_grid power width t /\ t <> first_time power) /\
    forall t v, In (t, v) out -> exists q' q,
      interp power (the_limit max med) (t - width) (Fin q') /\ interp power (the_limit max med) t (Fin q) /\
      v = Fin ((q + q') / qz 2 * hours width).
Proof. exact energy_upsampled_inst. Qed.

(** The same with gaps.  An interval has the mean of its ends if both are known and so is the
    value before the first of them; after the last known value that value is held. *)
Theorem C17_upsampled_gaps : forall freq power target width max med limit, sorted_index power -> noinf (vals power) ->
  (2 <= length power)%nat -> is_median (gaps_between (times power)) med ->
  width = match target with Some w => w | None => qfloor med end -> limit = the_limit max med ->
  (0 < width)%Z -> qz width <= med -> 0 <= limit ->
  ((forall t q, on_grid power width t -> ~ interp power limit t (Fin q)) -> energy_from_power freq power target max Instantaneous = Raise IndexError) /\
  (forall t1 q1, on_grid power width t1 -> interp power limit t1 (Fin q1) ->
   exists out, energy_from_power freq power target max Instantaneous = Ok out /\
    StronglySorted Z.lt (times out) /\
    (forall t, In t (times out) <-> on_grid power width t /\ t <> first_time power) /\
    forall t v, In (t, v) out ->
      (in_long_step power limit t -> v = NaN) /\
      ((forall e, ~ mean_of_ends power width limit t e /\ ~ last_held power width limit t e) -> v = NaN) /\
      (forall e, ~ in_long_step power limit t -> mean_of_ends power width limit t e \/ last_held power width limit t e -> v = Fin e)).
Proof. exact energy_short_inst. Qed.

(** Exact for linear power. *)
Theorem C17_linear : forall freq power width max med alpha beta t v out, sorted_index power -> noinf (vals power) ->
  (2 <= length power)%nat -> is_median (gaps_between (times power)) med -> (0 < width)%Z -> med < qz width ->
  no_gaps power (the_limit max med) -> (forall u q, In (u, Fin q) power -> q = alpha + beta * qz u) ->
  energy_from_power freq power (Some width) max Instantaneous = Ok out -> In (t, v) out -> (t <= final_time power)%Z ->
  v = Fin ((alpha + beta * qz (t - width) + (alpha + beta * qz t)) / qz 2 * hours width).
Proof. exact energy_linear. Qed.

(** Both types agree for constant power. *)
Theorem C17_constant : forall freq power width max med c t v out, sorted_index power -> noinf (vals power) ->
  (2 <= length power)%nat -> is_median (gaps_between (times power)) med -> (0 < width)%Z -> med < qz width ->
  no_gaps power (the_limit max med) -> (forall u q, In (u, Fin q) power -> q = c) ->
  forall pt, pt <> OtherType ->
  energy_from_power freq power (Some width) max pt = Ok out -> In (t, v) out -> (t <= final_time power)%Z ->
  v = Fin (c * hours width).
Proof. exact energy_constant. Qed.

Print Assumptions C17_energy.
Print Assumptions C17_trapezoids.
Print Assumptions C17_upsampled.
Print Assumptions C17_upsampled_gaps.
Print Assumptions C17_linear.
Print Assumptions C17_constant.

(** Power 4 per hour and hour, sampled at irregular times; intervals of half an hour. *)
Definition minutes (m : Z) : Z := (m * 60000000000)%Z.
Definition c17_power : series :=
  [(minutes 0, fz 0); (minutes 15, fz 1); (minutes 20, Fin (qf 4 3)); (minutes 35, Fin (qf 7 3)); (minutes 50, Fin (qf 10 3));
   (minutes 60, fz 4)].

Example C17_example :
  sorted_index c17_power /\ noinf (vals c17_power) /\ (2 <= length c17_power)%nat /\
  is_median (gaps_between (times c17_power)) (qz (minutes 15)) /\
  no_gaps c17_power (qz (minutes 15)) /\
  (forall u q, In (u, Fin q) c17_power -> q = 0 + qf 4 3600000000000 * qz u) /\
  energy_from_power None c17_power (Some (minutes 30)) None Instantaneous =
    Ok [(minutes 30, Fin (qf 1 2)); (minutes 60, Fin (qf 3 2))].
Proof.
  split.
  { repeat constructor. }
  split.
  { intros x H. cbn in H. decompose [or] H; subst; try contradiction; split; discriminate. }
  split.
  { cbn. lia. }
  split.
  { exists [qz (minutes 5); qz (minutes 10); qz (minutes 15); qz (minutes 15); qz (minutes 15)]. split.
    - split; [| repeat constructor; discriminate].
      change (gaps_between (times c17_power)) with ([qz (minutes 15)] ++ [qz (minutes 5)] ++ [qz (minutes 15); qz (minutes 15); qz (minutes 10)]).
      eapply Permutation.perm_trans; [apply Permutation.Permutation_app_comm |]. cbn [app].
      apply Permutation.perm_skip. apply Permutation.Permutation_sym.
      exact (Permutation.Permutation_middle [qz (minutes 15); qz (minutes 15)] [qz (minutes 15)] (qz (minutes 10))).
    - left. exists 2%nat. split; [reflexivity | qc_canon]. }
  split.
  { split; [intros v H; cbn in H; decompose [or] H; subst; try contradiction; discriminate |].
    intros g H. cbn in H. decompose [or] H; subst; try contradiction; discriminate. }
  split; [| fcompute].
  intros u q H. cbn in H.
  repeat destruct H as [H | H]; try contradiction;
    (pose proof (f_equal fst H) as Hu; pose proof (f_equal (fun r => match snd r with Fin x => x | _ => 0 end) H) as Hq;
     cbn [fst snd fz] in Hu, Hq; rewrite <- Hu, <- Hq; qc_canon).
Qed.

(** Missing data at the end: the last value is held, here for more than an hour, although
    every step from 15 minutes on is missing. *)
Example C17_trailing_hold :
  energy_from_power None
    [(minutes 0, fz 4); (minutes 15, fz 4); (minutes 30, NaN); (minutes 45, NaN); (minutes 60, NaN); (minutes 75, NaN); (minutes 90, NaN)]
    (Some (minutes 30)) None Instantaneous =
  Ok [(minutes 30, fz 2); (minutes 60, fz 2); (minutes 90, fz 2)].
Proof. vm_compute. reflexivity. Qed.

(** Two gaps, ten-minute intervals: the interval from 40 to 50 is lost although both ends are
    known, and the value at 50 is held although it is missing from 60 on. *)
Definition gappy : series :=
  [(minutes 0, fz 6); (minutes 10, fz 12); (minutes 20, NaN); (minutes 30, NaN); (minutes 40, fz 6); (minutes 50, fz 12);
   (minutes 60, NaN); (minutes 70, NaN)].
Example C17_gaps_example :
  energy_from_power None gappy None None Instantaneous =
  Ok [(minutes 10, ff 3 2); (minutes 20, NaN); (minutes 30, NaN); (minutes 40, NaN); (minutes 50, NaN); (minutes 60, fz 2); (minutes 70, fz 2)].
Proof. vm_compute. reflexivity. Qed.
Lemma gappy_median : is_median (gaps_between (times gappy)) (qz (minutes 10)).
Proof.
  assert (qmedian (gaps_between (times gappy)) = qz (minutes 10)) as <- by (apply Qc_is_canon; vm_compute; reflexivity). apply qmedian_spec. discriminate.
Qed.
Example C17_gaps_applied : exists out, energy_from_power None gappy None None Instantaneous = Ok out /\
  forall t v, In (t, v) out -> forall e, ~ in_long_step gappy (qz (minutes 10)) t ->
    mean_of_ends gappy (minutes 10) (qz (minutes 10)) t e \/ last_held gappy (minutes 10) (qz (minutes 10)) t e -> v = Fin e.
Proof.
  edestruct (C17_upsampled_gaps None gappy None (minutes 10) None (qz (minutes 10)) (qz (minutes 10))) as [_ H].
  - unfold sorted_index. repeat (first [apply SSorted_nil | apply SSorted_cons]); repeat (first [apply Forall_nil | apply Forall_cons; [reflexivity |]]).
  - intros x Hx. cbn in Hx. repeat (destruct Hx as [<- | Hx]; [split; discriminate |]). destruct Hx.
  - cbn. lia.
  - exact gappy_median.
  - reflexivity.
  - reflexivity.
  - reflexivity.
  - discriminate.
  - discriminate.
  - destruct (H (minutes 0) (qz 6)) as (out & E & _ & _ & V).
    + exists 0%Z. split; [lia |]. split; [reflexivity |]. cbv. discriminate.
    + apply interp_point. cbn. auto.
    + exists out. split; [exact E |]. intros t v I. exact (proj2 (proj2 (V t v I))).
Qed.
