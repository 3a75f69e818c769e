(** C30: detector parameters of pvlib_clearsky_filter. *)

From Coq Require Import QArith Qcanon List ZArith Bool Arith Lia Permutation Sorted.
From Verif.Base Require Import QcExtra ISort Quantile Fl TimeSeries Rolling.
From Verif.Spec Require Import Stats Interp Filters.
From Verif.Model Require Import Utilities Filters.
From Verif.Proofs Require Import StatsP FlP FiltersP FiltersP2 FiltersP3.
Import ListNotations.
Open Scope list_scope.
Open Scope Qc_scope.

Theorem C30_lookup : forall nanos p, (0 < nanos)%Z ->
  let minutes := qz nanos / qz 60000000000 in
  let d := detector_params true (Some nanos) p in
  on_table published_windows minutes (p_window_length d) /\ on_table published_max_diffs minutes (p_max_diff d) /\
  on_table published_var_diffs minutes (p_var_diff d) /\ on_table published_slope_devs minutes (p_slope_dev d) /\
  p_mean_diff d = p_mean_diff p /\ p_lower_line d = p_lower_line p /\ p_upper_line d = p_upper_line p.
Proof. exact lookup_tables. Qed.

Theorem C30_range : forall nanos p, let d := detector_params true (Some nanos) p in
  (qz 50 <= p_window_length d /\ p_window_length d <= qz 120) /\ (qz 60 <= p_max_diff d /\ p_max_diff d <= qz 90) /\
  (qf 5 1000 <= p_var_diff d /\ p_var_diff d <= qf 70 1000) /\ (qz 50 <= p_slope_dev d /\ p_slope_dev d <= qz 96).
Proof. exact lookup_range. Qed.

Theorem C30_mono : forall n n' p, (n <= n')%Z ->
  let d := detector_params true (Some n) p in let d' := detector_params true (Some n') p in
  p_window_length d <= p_window_length d' /\ p_max_diff d <= p_max_diff d' /\ p_var_diff d <= p_var_diff d' /\ p_slope_dev d <= p_slope_dev d'.
Proof. exact lookup_mono. Qed.

(** The user's values are used without lookup or without an index frequency. *)
Theorem C30_user_values : forall lookup freq p, lookup = false \/ freq = None -> detector_params lookup freq p = p.
Proof. exact no_lookup. Qed.

Theorem C30_call : forall (K : Type) (detect : list (Z * (fl * fl)) -> clearsky_params -> bool -> K -> result mask) lookup freq p kwargs a b,
  times a = times b ->
  exists rows, pvlib_clearsky_filter detect lookup freq p kwargs a b = detect rows (detector_params lookup freq p) false kwargs /\
    map fst rows = times a /\ map (fun r => fst (snd r)) rows = vals a /\ map (fun r => snd (snd r)) rows = vals b.
Proof. exact pvlib_rows. Qed.
Theorem C30_no_components : forall (K : Type) (detect detect' : list (Z * (fl * fl)) -> clearsky_params -> bool -> K -> result mask) lookup freq p kwargs a b,
  (forall rows q, detect rows q false kwargs = detect' rows q false kwargs) ->
  pvlib_clearsky_filter detect lookup freq p kwargs a b = pvlib_clearsky_filter detect' lookup freq p kwargs a b.
Proof. exact pvlib_call. Qed.

(** A point of a table with increasing arguments determines the value. *)
Example C30_example : forall p,
  let d := detector_params true (Some 600000000000%Z) p in
  p_window_length d = qz 75 /\ p_max_diff d = qz 70 /\ p_var_diff d = qf 21 1000 /\ p_slope_dev d = qf 675 10 /\
  p_window_length (detector_params true (Some 30000000000%Z) p) = qz 50 /\
  p_window_length (detector_params true (Some 3600000000000%Z) p) = qz 120.
Proof. intros p. vm_compute. repeat split; qc_canon. Qed.

Print Assumptions C30_lookup.
Print Assumptions C30_range.
Print Assumptions C30_mono.
Print Assumptions C30_user_values.
Print Assumptions C30_call.
Print Assumptions C30_no_components.
