(** C22: robust statistics. *)

From Coq Require Import QArith Qcanon List ZArith Bool Arith Lia Permutation Sorted.
From Verif.Base Require Import QcExtra ISort Quantile Fl TimeSeries Rolling.
From Verif.Spec Require Import Stats Interp Filters.
From Verif.Model Require Import Utilities Filters.
From Verif.Proofs Require Import StatsP FlP FiltersP FiltersP2 FiltersP3.
Import ListNotations.
Open Scope list_scope.
Open Scope Qc_scope.

(** The values kept exist and are unique, and the three statistics are the quantile, median
    and mean of them. *)
Theorem C22_kept : forall q x, noinf x -> x <> [] -> 0 <= q -> q <= 1 ->
  exists l, robust_part q x l /\ forall l', robust_part q x l' -> l' = l.
Proof.
  intros q x HI Hx H0 H1. destruct (robust_part_ex q x HI Hx H0 H1) as [l Hl]. exists l. split; [exact Hl |].
  intros l' Hl'. exact (robust_part_unique q x l' l Hx H0 H1 Hl' Hl).
Qed.
Theorem C22_quantile : forall q x l, noinf x -> x <> [] -> 0 <= q -> q <= 1 -> robust_part q x l ->
  (l = [] -> robust_quantile q x = NaN) /\
  (l <> [] -> exists v, robust_quantile q x = Fin v /\ is_percentile (qz 100 * q) l v).
Proof. exact robust_quantile_spec. Qed.
Theorem C22_median : forall q x l, noinf x -> x <> [] -> 0 <= q -> q <= 1 -> robust_part q x l ->
  (l = [] -> robust_median q x = NaN) /\
  (l <> [] -> exists v, robust_median q x = Fin v /\ is_median l v).
Proof. exact robust_median_spec. Qed.
Theorem C22_mean : forall q x l, noinf x -> x <> [] -> 0 <= q -> q <= 1 -> robust_part q x l ->
  (l = [] -> robust_mean q x = NaN) /\
  (l <> [] -> robust_mean q x = Fin (qsum l / qz (Z.of_nat (length l)))).
Proof. exact robust_mean_spec. Qed.

Theorem C22_range : forall q x l lo hi, noinf x -> x <> [] -> 0 <= q -> q <= 1 -> robust_part q x l ->
  is_min l lo -> is_max l hi -> forall v, (robust_quantile q x = v \/ robust_median q x = v \/ robust_mean q x = v) ->
  exists r, v = Fin r /\ lo <= r /\ r <= hi.
Proof. exact robust_range. Qed.

(** [fscale c v] is [v] times [c]. *)
Theorem C22_scale : forall q c x, 0 < c ->
  robust_quantile q (map (fscale c) x) = fscale c (robust_quantile q x) /\
  robust_median q (map (fscale c) x) = fscale c (robust_median q x) /\
  robust_mean q (map (fscale c) x) = fscale c (robust_mean q x).
Proof. exact robust_scale. Qed.

(** Non-negative data: zeros in place of missing values make no difference. *)
Theorem C22_zeros : forall q x, noinf x -> 0 <= q -> q <= 1 -> (forall v, In (Fin v) x -> 0 <= v) ->
  let y := map (fun v => Fin (or_zero v)) x in
  robust_quantile q y = robust_quantile q x /\ robust_median q y = robust_median q x /\ robust_mean q y = robust_mean q x.
Proof. exact robust_zeros. Qed.

(** Leaving missing values out makes no difference if no value lies between the thresholds. *)
Theorem C22_dropped : forall q x z z', noinf x -> 0 <= q -> q <= 1 ->
  is_percentile (qz 100 * q) (map or_zero x) z -> is_percentile (qz 100 * q) (finvals x) z' ->
  (forall v, In (Fin v) x -> (z / qz 1000 < v <-> z' / qz 1000 < v)) ->
  robust_quantile q (dropna x) = robust_quantile q x /\ robust_median q (dropna x) = robust_median q x /\
  robust_mean q (dropna x) = robust_mean q x.
Proof. exact robust_dropped. Qed.

(** Otherwise it does, contrary to the docstrings (utilities.py:6-8, 32-34, 58-60). *)
Definition sparse : list fl := [fz 1; fz 2000; NaN; NaN; NaN].
Theorem C22_missing_ignored_refuted :
  noinf sparse /\ robust_median (qf 1 2) sparse = ff 2001 2 /\ robust_median (qf 1 2) (dropna sparse) = fz 2000.
Proof.
  split; [intros v Hv; repeat (destruct Hv as [<- | Hv]; [split; discriminate |]); destruct Hv |].
  split; vm_compute; f_equal; qc_canon.
Qed.

Definition powers : list fl := [NaN; fz 0; ff 1 1000; fz 3; fz 4; fz 5].
Example C22_example :
  robust_quantile (qf 1 2) powers = fz 4 /\ robust_median q99 powers = fz 4 /\ robust_mean q99 powers = fz 4 /\
  robust_median q99 (map (fscale (qz 7)) powers) = fz 28 /\
  robust_part (qf 1 2) powers [qz 3; qz 4; qz 5].
Proof.
  split; [vm_compute; f_equal; qc_canon |]. split; [vm_compute; f_equal; qc_canon |]. split; [vm_compute; f_equal; qc_canon |].
  split; [vm_compute; f_equal; qc_canon |].
  exists (qquantile (qf 1 2) (map or_zero powers)). split; [apply quantile_is; discriminate |]. vm_compute. repeat f_equal; qc_canon.
Qed.

Print Assumptions C22_kept.
Print Assumptions C22_quantile.
Print Assumptions C22_median.
Print Assumptions C22_mean.
Print Assumptions C22_range.
Print Assumptions C22_scale.
Print Assumptions C22_zeros.
Print Assumptions C22_dropped.
Print Assumptions C22_missing_ignored_refuted.
