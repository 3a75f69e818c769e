(** C16: no energy across a gap longer than the limit. *)

From Coq Require Import QArith Qcanon List ZArith Bool Sorted Lia.
From Verif.Base Require Import QcExtra ISort Quantile Fl TimeSeries Segments.
From Verif.Spec Require Import Stats Interp Energy.
From Verif.Model Require Import Interpolation Energy.
From Verif.Proofs Require Import EnergyP EnergyP2 EnergyP3 EnergyP4 EnergyP5 EnergyP6.
Import ListNotations.
Open Scope Qc_scope.

(** A label inside or at the end of a step longer than the limit gives NaN: any type, any
    width. *)
Theorem C16_label_in_gap : forall freq power target max med pt out t v, sorted_index power -> (2 <= length power)%nat ->
  is_median (gaps_between (times power)) med ->
  energy_from_power freq power target max pt = Ok out -> In (t, v) out ->
  in_long_step power (the_limit max med) t -> v = NaN.
Proof. exact energy_masked. Qed.

(** Steps longer than the limit contribute nothing: the value at the end of one may be
    replaced by any other without effect.  [consec (points power)] skips missing values, so
    a run of them counts as one step. *)
Theorem C16_gap_ignored : forall g q freq power width max med a pa qg, sorted_index power -> noinf (vals power) ->
  (2 <= length power)%nat -> is_median (gaps_between (times power)) med -> (0 < width)%Z -> med < qz width ->
  In ((a, pa), (g, qg)) (consec (points power)) -> the_limit max med < qz (g - a) ->
  energy_from_power freq (set_value power g q) (Some width) max RightLabeled =
  energy_from_power freq power (Some width) max RightLabeled.
Proof. exact energy_ignored. Qed.

(** An interval with nothing but gaps has no energy. *)
Theorem C16_uncovered : forall freq power width max med t v out, sorted_index power -> noinf (vals power) ->
  (2 <= length power)%nat -> is_median (gaps_between (times power)) med -> (0 < width)%Z -> med < qz width ->
  energy_from_power freq power (Some width) max RightLabeled = Ok out -> In (t, v) out ->
  (forall pr, In pr (consec (points power)) -> (fst (fst pr) < t)%Z -> (t - width < fst (snd pr))%Z ->
     the_limit max med < qz (fst (snd pr) - fst (fst pr))) -> v = NaN.
Proof. exact energy_uncovered. Qed.

(** Types other than the two are refused. *)
Theorem C16_bad_type : forall freq power target max, noinf (vals power) -> sorted_index power -> (2 <= length power)%nat ->
  match target with Some w => (0 < w)%Z | None => True end ->
  exists e, energy_from_power freq power target max OtherType = Raise e.
Proof. exact energy_bad_type. Qed.

Print Assumptions C16_label_in_gap.
Print Assumptions C16_gap_ignored.
Print Assumptions C16_uncovered.
Print Assumptions C16_bad_type.

(** Quarter-hours, nothing between 45 minutes and two hours, one missing value. *)
Definition minutes (m : Z) : Z := (m * 60000000000)%Z.
Definition c16_power (q : Z) : series :=
  [(minutes 0, fz 4); (minutes 15, fz 4); (minutes 30, fz 4); (minutes 45, fz 8);
   (minutes 120, fz q); (minutes 135, fz 4); (minutes 150, NaN); (minutes 165, fz 4); (minutes 180, fz 4)].

Example C16_example :
  is_median (gaps_between (times (c16_power 7))) (qz (minutes 15)) /\
  In ((minutes 45, qz 8), (minutes 120, qz 7)) (consec (points (c16_power 7))) /\
  qz (minutes 15) < qz (minutes 120 - minutes 45) /\
  in_long_step (c16_power 7) (qz (minutes 15)) (minutes 60) /\
  energy_from_power None (c16_power 7) (Some (minutes 30)) None RightLabeled =
    Ok [(minutes 30, fz 2); (minutes 60, NaN); (minutes 90, NaN); (minutes 120, NaN); (minutes 150, fz 1);
        (minutes 180, fz 1)] /\
  energy_from_power None (c16_power 100) (Some (minutes 30)) None RightLabeled =
  energy_from_power None (c16_power 7) (Some (minutes 30)) None RightLabeled.
Proof.
  split.
  { exists (repeat (qz (minutes 15)) 7 ++ [qz (minutes 75)]). split.
    - split; [| repeat constructor; discriminate].
      change (gaps_between (times (c16_power 7))) with (repeat (qz (minutes 15)) 3 ++ qz (minutes 75) :: repeat (qz (minutes 15)) 4).
      change (repeat (qz (minutes 15)) 7 ++ [qz (minutes 75)]) with (repeat (qz (minutes 15)) 3 ++ repeat (qz (minutes 15)) 4 ++ [qz (minutes 75)]).
      apply Permutation.Permutation_app_head. exact (Permutation.Permutation_cons_append _ _).
    - right. exists 3%nat. split; [reflexivity | qc_canon]. }
  split; [cbn; auto 10 |]. split; [reflexivity |].
  split.
  { exists (minutes 45), (minutes 120). split; [cbn; auto 10 |]. split; [unfold minutes; lia | reflexivity]. }
  split; vm_compute; reflexivity.
Qed.

(** A gap wholly inside an interval is left out but does not make the value NaN: here the
    first interval of 150 minutes holds the energy of 60.  (The documentation says such values are
    NaN.) *)
Theorem C16_gap_inside_refuted :
  ~ (forall freq power width max med out t v a b, sorted_index power -> noinf (vals power) ->
       is_median (gaps_between (times power)) med -> med < qz width ->
       energy_from_power freq power (Some width) max RightLabeled = Ok out -> In (t, v) out ->
       In (a, b) (consec (times power)) -> (t - width <= a)%Z -> (b <= t)%Z -> the_limit max med < qz (b - a) ->
       v = NaN).
Proof.
  intros H. specialize (H None (c16_power 7) (minutes 150) None (qz (minutes 15))
    [(minutes 150, fz 5); (minutes 300, fz 1)] (minutes 150) (fz 5) (minutes 45) (minutes 120)).
  enough (fz 5 = NaN) by discriminate. apply H.
  - repeat constructor.
  - intros x Hx. cbn in Hx. decompose [or] Hx; subst; try contradiction; split; discriminate.
  - apply C16_example.
  - reflexivity.
  - vm_compute. reflexivity.
  - left. reflexivity.
  - cbn. auto 10.
  - unfold minutes. lia.
  - unfold minutes. lia.
  - reflexivity.
Qed.
Print Assumptions C16_gap_inside_refuted.
