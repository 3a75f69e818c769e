(** C13: interpolation is exact, local and never extrapolates. *)

From Coq Require Import QArith Qcanon List ZArith Bool Sorted Lia.
From Verif.Base Require Import QcExtra ISort Quantile Fl Calendar TimeSeries.
From Verif.Spec Require Import Stats Interp.
From Verif.Model Require Import Interpolation.
From Verif.Proofs Require Import StatsP InterpP EdgeP.
Import ListNotations.
Open Scope Qc_scope.

(** One row per target time, whose value is the specified one: the source value, or the
    point of the chord of the neighbouring available rows if these are at most [limit]
    apart, or NaN. *)
Theorem C13_interpolate : forall tz s target m out limit, sorted_index s -> noinf (vals s) ->
  limit_for s m limit ->
  (m = None -> (2 <= length (filter (fun r => notnan (snd r)) s))%nat) -> 0 <= limit ->
  interpolate tz tz s (TIndex target) m = Ok out ->
  times out = target /\ forall t v, In (t, v) out -> interp s limit t v.
Proof. exact interpolate_index_spec. Qed.

(** The specification leaves no freedom. *)
Theorem C13_determined : forall s limit t v w, sorted_index s ->
  interp s limit t v -> interp s limit t w -> v = w.
Proof. exact interp_unique. Qed.

(** The default limit exists and is not negative as soon as two rows are available;
    with fewer, or with a negative limit, nothing at all is reported. *)
Theorem C13_default_limit : forall s, (2 <= length (filter (fun r => notnan (snd r)) s))%nat ->
  exists limit, limit_for s None limit.
Proof. exact default_limit_exists. Qed.
Theorem C13_default_limit_nonneg : forall s limit, sorted_index s ->
  (2 <= length (filter (fun r => notnan (snd r)) s))%nat -> limit_for s None limit -> 0 <= limit.
Proof. exact limit_for_nonneg. Qed.
Theorem C13_default_limit_few : forall tz s target out, sorted_index s -> noinf (vals s) ->
  (length (filter (fun r => notnan (snd r)) s) < 2)%nat ->
  interpolate tz tz s (TIndex target) None = Ok out -> out = map (fun t => (t, NaN)) target.
Proof. exact interpolate_default_few. Qed.
Theorem C13_negative_limit : forall tz s target m out, sorted_index s -> m < 0 ->
  interpolate tz tz s (TIndex target) (Some m) = Ok out -> out = map (fun t => (t, NaN)) target.
Proof. exact interpolate_negative. Qed.

(** A frequency stands for the times first, first + w, … up to the last row. *)
Theorem C13_frequency : forall tz tz' s t0 tn w m, times s <> [] ->
  hd t0 (times s) = t0 -> List.last (times s) t0 = tn -> (0 < w)%Z -> (t0 <= tn)%Z ->
  interpolate tz tz' s (TFreq w) m = interpolate tz tz s (TIndex (date_range t0 tn w)) m /\
  forall t, In t (date_range t0 tn w) <-> exists k, (0 <= k)%Z /\ t = (t0 + w * k)%Z /\ (t <= tn)%Z.
Proof. exact interpolate_freq_spec. Qed.

Theorem C13_errors : forall s target m w tz tz',
  interpolate true false s (TIndex target) m = Raise ValueError /\
  interpolate false true s (TIndex target) m = Raise ValueError /\
  interpolate tz tz' s TOther m = Raise UnboundLocalError /\
  interpolate tz tz' [] (TFreq w) m = Raise ValueError.
Proof. exact interpolate_errors. Qed.

(** A frame is interpolated column by column. *)
Theorem C13_frame : forall tz tz' index cols target m outs,
  interpolate_frame tz tz' index cols target m = Ok outs ->
  Forall (fun c => length c = length index) cols ->
  cols <> [] /\ length outs = length cols /\
  forall k c, nth_error cols k = Some c ->
    exists o, nth_error outs k = Some o /\ interpolate tz tz' (combine index c) target m = Ok o.
Proof. exact interpolate_frame_columns. Qed.

(** The failures for a frame; one without columns is among them. *)
Theorem C13_frame_errors : forall index cols target m w tz tz',
  interpolate_frame true false index cols (TIndex target) m = Raise ValueError /\
  interpolate_frame false true index cols (TIndex target) m = Raise ValueError /\
  interpolate_frame tz tz' index cols TOther m = Raise UnboundLocalError /\
  interpolate_frame tz tz' [] cols (TFreq w) m = Raise ValueError /\
  interpolate_frame tz tz index [] (TIndex target) m = Raise ValueError /\
  (index <> [] -> interpolate_frame tz tz' index [] (TFreq w) m = Raise ValueError).
Proof. exact interpolate_frame_errors. Qed.

Print Assumptions C13_interpolate.
Print Assumptions C13_determined.
Print Assumptions C13_default_limit.
Print Assumptions C13_default_limit_nonneg.
Print Assumptions C13_default_limit_few.
Print Assumptions C13_negative_limit.
Print Assumptions C13_frequency.
Print Assumptions C13_errors.
Print Assumptions C13_frame.

(** Rows at 0, 10, 20 and 50 with a missing one at 15; steps 10, 10, 30, so the default
    limit is 20: 12 is interpolated, 30 lies in a gap, 60 past the end. *)
Definition c13_series : series :=
  [(0%Z, fz 1); (10%Z, fz 2); (15%Z, NaN); (20%Z, fz 4); (50%Z, fz 7)].
Definition c13_target : list Z := [(-5)%Z; 0%Z; 12%Z; 30%Z; 50%Z; 60%Z].

Example C13_example :
  sorted_index c13_series /\ noinf (vals c13_series) /\ limit_for c13_series None (qz 20) /\
  interpolate true true c13_series (TIndex c13_target) None =
    Ok [((-5)%Z, NaN); (0%Z, fz 1); (12%Z, Fin (qf 12 5)); (30%Z, NaN); (50%Z, fz 7); (60%Z, NaN)].
Proof.
  split.
  { repeat constructor. }
  split.
  { intros x H. cbn in H. decompose [or] H; subst; try contradiction; split; discriminate. }
  split.
  { exists (qz 10). split; [| qc_canon]. exists [qz 10; qz 10; qz 30]. split.
    - split; [apply Permutation.Permutation_refl |]. repeat constructor; discriminate.
    - left. exists 1%nat. split; [reflexivity | qc_canon]. }
  vm_compute. reflexivity.
Qed.

(** The same source at a frequency of 25: 0, 25, 50. *)
Example C13_example_frequency :
  interpolate false true c13_series (TFreq 25) (Some (qz 30)) =
    Ok [(0%Z, fz 1); (25%Z, Fin (qf 9 2)); (50%Z, fz 7)].
Proof. vm_compute. reflexivity. Qed.

Example C13_example_frame :
  interpolate_frame true true [0%Z; 10%Z] [[fz 1; fz 2]; [NaN; fz 3]] (TIndex [5%Z]) (Some (qz 10)) =
    Ok [[(5%Z, Fin (qf 3 2))]; [(5%Z, NaN)]].
Proof. vm_compute. reflexivity. Qed.
Print Assumptions C13_frame_errors.
