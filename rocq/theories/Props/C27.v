(** C27: hampel_filter. *)

From Coq Require Import QArith Qcanon List ZArith Bool Arith Lia Permutation Sorted.
From Verif.Base Require Import QcExtra ISort Quantile Fl TimeSeries Rolling.
From Verif.Spec Require Import Stats Interp Filters.
From Verif.Model Require Import Utilities Filters.
From Verif.Proofs Require Import StatsP FlP FiltersP FiltersP2 FiltersP3.
Import ListNotations.
Open Scope list_scope.
Open Scope Qc_scope.

(** Distance to the window median at most t0 times 1.4826 times the window median of these
    distances. *)
Theorem C27_mask : forall sp t0 s, noinf (vals s) ->
  mask_is (fun i _ _ => exists d m, abs_distance (around_span sp) s i d /\ median_deviation (around_span sp) s i m /\
             d <= t0 * qf 14826 10000 * m) s (hampel_filter sp t0 s).
Proof. assert (qf 14826 10000 = qf 7413 5000) as -> by qc_canon. exact hampel_spec. Qed.

Theorem C27_affine : forall sp t0 a b s, a <> 0 ->
  hampel_filter sp t0 (map_values (fun q => a * q + b) s) = hampel_filter sp t0 s.
Proof. exact hampel_affine. Qed.

Theorem C27_missing : forall sp t0 s i t b, noinf (vals s) -> nth_error s i = Some (t, NaN) ->
  nth_error (hampel_filter sp t0 s) i = Some (t, b) -> b = false.
Proof. exact hampel_missing. Qed.

Theorem C27_constant : forall sp t0 s i t q b, noinf (vals s) -> 0 <= t0 -> proper_span sp ->
  nth_error s i = Some (t, Fin q) ->
  (forall j u x, nth_error s j = Some (u, Fin x) -> around_span sp i t j u -> x = q) ->
  nth_error (hampel_filter sp t0 s) i = Some (t, b) -> b = true.
Proof. exact hampel_constant. Qed.
Theorem C27_at_median : forall sp t0 s i t q b, noinf (vals s) -> 0 <= t0 -> proper_span sp ->
  nth_error s i = Some (t, Fin q) -> window_median (around_span sp) 1 s i q ->
  nth_error (hampel_filter sp t0 s) i = Some (t, b) -> b = true.
Proof. exact hampel_at_median. Qed.

Theorem C27_mono : forall sp t0 t1 s i t, noinf (vals s) -> t0 <= t1 ->
  nth_error (hampel_filter sp t0 s) i = Some (t, true) -> nth_error (hampel_filter sp t1 s) i = Some (t, true).
Proof. exact hampel_mono. Qed.

Definition outlier : series := [(0%Z, fz 10); (1%Z, fz 11); (2%Z, fz 12); (3%Z, fz 30); (4%Z, NaN); (5%Z, fz 12); (6%Z, fz 11)].
Example C27_example :
  map snd (hampel_filter (ByTime 6) (qz 3) outlier) = [true; true; true; false; false; true; true] /\
  map snd (hampel_filter (ByRows 5) (qz 3) outlier) = [true; true; true; false; false; true; true] /\
  map snd (hampel_filter (ByTime 6) (qz 3) (map_values (fun q => qz (-3) * q + qz 8) outlier)) =
    [true; true; true; false; false; true; true] /\
  map snd (hampel_filter (ByTime 6) (qz 30) outlier) = [true; true; true; true; false; true; true].
Proof. vm_compute. auto. Qed.

Print Assumptions C27_mask.
Print Assumptions C27_affine.
Print Assumptions C27_missing.
Print Assumptions C27_constant.
Print Assumptions C27_at_median.
Print Assumptions C27_mono.
