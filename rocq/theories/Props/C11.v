(** C11: classical decomposition. *)

From Coq Require Import QArith Qcanon List ZArith Bool Lia.
From Verif.Base Require Import QcExtra Quantile Fl Calendar.
From Verif.Spec Require Import Regression.
From Verif.Model Require Import Bootstrap Regression.
From Verif.Proofs Require Import RegressionP ClassicalP.
Import ListNotations.
Open Scope Qc_scope.

(** The check succeeds exactly for a series with a frequency whose available rows are
    evenly spaced. *)
Theorem C11_frequency_check : forall has_freq s,
  freq_lost has_freq s = false <-> has_freq = true /\ evenly_spaced s.
Proof. exact freq_kept_iff. Qed.

Theorem C11_rejects : forall draws z cl has_freq s, (has_freq = false \/ ~ evenly_spaced s) ->
  classical_decomposition draws z cl has_freq s = Raise ValueError.
Proof. exact lost_rejected. Qed.

(** A missing row between available ones, in a series with two consecutive available
    rows. *)
Theorem C11_gap_rejected : forall draws z cl has_freq s i j g k,
  available_at s i -> available_at s (S i) -> available_at s j -> available_at s k ->
  (j < g < k)%nat -> ~ available_at s g ->
  classical_decomposition draws z cl has_freq s = Raise ValueError.
Proof. exact gap_rejected. Qed.

(** The moving average at row [i]. *)
Theorem C11_moving_average : forall draws z cl has_freq t0 e0 s o i t e,
  let s0 := (t0, e0) :: s in let last := fst (List.last s0 (t0, NaN)) in
  classical_decomposition draws z cl has_freq s0 = Ok o ->
  nth_error s0 i = Some (t, e) ->
  exists v, nth_error (cd_series o) i = Some (t, v) /\
    (inside t0 last t ->
      v = fmean (vals (filter (fun r => ((- year_ns <? 2 * (fst r - t)) && (2 * (fst r - t) <=? year_ns))%Z) s0))) /\
    (~ inside t0 last t -> v = NaN).
Proof. exact cd_series_nth. Qed.

(** Regular data on a line.  The average is centred unless the step divides half a
    year, in which case it is half a step late. *)
Theorem C11_line : forall draws z cl t0 step n a c, (0 < step)%Z -> 0 <= cl -> cl <= qz 100 ->
  (exists i, inside t0 (t0 + (Z.of_nat n - 1) * step) (t0 + Z.of_nat i * step) /\
             inside t0 (t0 + (Z.of_nat n - 1) * step) (t0 + Z.of_nat (i + 2) * step)) ->
  let shift := if (year_ns mod (2 * step) =? 0)%Z then qz step / qz year_ns / (1 + 1) else 0 in
  exists o, classical_decomposition draws z cl true (regular_line t0 step n a c) = Ok o /\
    o_slope (cd_ols o) = c /\ o_intercept (cd_ols o) = a + c * shift /\ o_mse (cd_ols o) = 0 /\
    (a + c * shift <> 0 -> o_rate (cd_ols o) = Fin (qz 100 * c / (a + c * shift))) /\
    (forall k, (k < n)%nat -> let t := (t0 + Z.of_nat k * step)%Z in
      exists v, nth_error (cd_series o) k = Some (t, v) /\
        (inside t0 (t0 + (Z.of_nat n - 1) * step) t -> v = Fin (a + c * (years_between t0 t + shift))) /\
        (~ inside t0 (t0 + (Z.of_nat n - 1) * step) t -> v = NaN)).
Proof. exact classical_line. Qed.

(** Daily data on a line: the rate is exact. *)
Theorem C11_daily_line : forall draws z cl t0 n a c,
  0 <= cl -> cl <= qz 100 -> (369 <= Z.of_nat n)%Z -> a <> 0 ->
  exists o, classical_decomposition draws z cl true (regular_line t0 (86400 * 1000000000) n a c) = Ok o /\
    o_rate (cd_ols o) = Fin (qz 100 * c / a) /\ o_mse (cd_ols o) = 0 /\
    (forall k, (k < n)%nat -> let t := (t0 + Z.of_nat k * (86400 * 1000000000))%Z in
      exists v, nth_error (cd_series o) k = Some (t, v) /\
        ((183 <= Z.of_nat k <= Z.of_nat n - 184)%Z -> v = Fin (a + c * years_between t0 t)) /\
        (~ (183 <= Z.of_nat k <= Z.of_nat n - 184)%Z -> v = NaN)).
Proof. exact classical_daily. Qed.

(** The docstring's "no missing data" is not what is checked: a series with a missing
    first row is accepted. *)
Definition c11_step : Z := (100 * ns_day)%Z.
Definition c11_series : series :=
  (0%Z, NaN) :: map (fun k => (Z.of_nat k * c11_step, Fin (qz 10 - qz (Z.of_nat k)))%Z) (seq 1 9).
Definition c11_draws (p : Qc * Qc) (c : Qc * Qc * Qc) : list (fl * fl) := [ (Fin (fst p), Fin (snd p)) ].

Theorem C11_any_missing_rejected_refuted :
  ~ (forall draws z cl has_freq s, (exists t, In (t, NaN) s) ->
       classical_decomposition draws z cl has_freq s = Raise ValueError).
Proof.
  intros H. specialize (H c11_draws (qz 2) (qz 68) true c11_series (ex_intro _ 0%Z (or_introl eq_refl))).
  vm_compute in H. discriminate.
Qed.

Print Assumptions C11_frequency_check.
Print Assumptions C11_rejects.
Print Assumptions C11_gap_rejected.
Print Assumptions C11_moving_average.
Print Assumptions C11_line.
Print Assumptions C11_daily_line.
Print Assumptions C11_any_missing_rejected_refuted.

Example C11_example_gap :
  let s := [ (0%Z, fz 1); (1%Z, fz 1); (2%Z, NaN); (3%Z, fz 1) ] in
  available_at s 0 /\ available_at s 1 /\ available_at s 3 /\ ~ available_at s 2.
Proof.
  cbn zeta. repeat split; try (eexists _, _; split; [reflexivity | discriminate]).
  intros (t & e & H & N). injection H as <- <-. apply N. reflexivity.
Qed.

(** Rows every 73 days (half of 365/73 is not whole) and every 36.5 days (5 steps make
    half a year): in the second case the intercept moves by half a step. *)
Example C11_example_line :
  (exists o, classical_decomposition c11_draws (qz 2) (qz 68) true
     (regular_line 0 (73 * ns_day) 12 (qz 10) (qz (-1))) = Ok o /\
     o_intercept (cd_ols o) = qz 10 /\ o_rate (cd_ols o) = fz (-10)) /\
  (exists o, classical_decomposition c11_draws (qz 2) (qz 68) true
     (regular_line 0 (73 * ns_day / 2) 13 (qz 10) (qz (-1))) = Ok o /\
     o_intercept (cd_ols o) = qz 10 - qf 1 20).
Proof.
  split; eexists; (split; [vm_compute; reflexivity |]); [split |]; vm_compute;
    first [qc_canon | f_equal; qc_canon].
Qed.
