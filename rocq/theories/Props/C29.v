(** C29: insolation_filter. *)

From Coq Require Import QArith Qcanon List ZArith Bool Arith Lia Permutation Sorted.
From Verif.Base Require Import QcExtra ISort Quantile Fl TimeSeries Rolling.
From Verif.Spec Require Import Stats Interp Filters.
From Verif.Model Require Import Utilities Filters.
From Verif.Proofs Require Import StatsP FlP FiltersP FiltersP2 FiltersP3.
Import ListNotations.
Open Scope list_scope.
Open Scope Qc_scope.

Theorem C29_mask : forall q s, noinf (vals s) -> 0 <= q -> q <= 1 ->
  (finvals (vals s) = [] -> mask_is (fun _ _ _ => False) s (insolation_filter q s)) /\
  (finvals (vals s) <> [] -> exists z, is_percentile (qz 100 * q) (finvals (vals s)) z /\
     mask_is (fun _ _ v => exists x, v = Fin x /\ z <= x) s (insolation_filter q s)).
Proof. exact insolation_spec. Qed.

(** Rejected values: at most the next integer above (n-1)q. *)
Theorem C29_count : forall q s c, noinf (vals s) -> 0 <= q -> q <= 1 ->
  qz (Z.of_nat (length (finvals (vals s))) - 1) * q <= qz (Z.of_nat c) ->
  (length (finvals (vals s)) <= kept (insolation_filter q s) + c)%nat.
Proof. exact insolation_count. Qed.
Theorem C29_max : forall q s i t x, noinf (vals s) -> 0 <= q -> q <= 1 -> nth_error s i = Some (t, Fin x) ->
  is_max (finvals (vals s)) x -> nth_error (insolation_filter q s) i = Some (t, true).
Proof. exact insolation_max. Qed.

Theorem C29_mono : forall q q' s i t, noinf (vals s) -> 0 <= q -> q <= q' -> q' <= 1 ->
  nth_error (insolation_filter q' s) i = Some (t, true) -> nth_error (insolation_filter q s) i = Some (t, true).
Proof. exact insolation_mono. Qed.

Theorem C29_scale : forall q k s, 0 < k ->
  insolation_filter q (map (fun r => (fst r, fscale k (snd r))) s) = insolation_filter q s.
Proof. exact insolation_scale. Qed.

Definition insolations : series := [(0%Z, fz 5); (1%Z, fz 1); (2%Z, NaN); (3%Z, fz 4); (4%Z, fz 2); (5%Z, fz 3)].
Example C29_example :
  map snd (insolation_filter (qf 1 10) insolations) = [true; false; false; true; true; true] /\
  kept (insolation_filter (qf 1 10) insolations) = 4%nat /\
  map snd (insolation_filter (qf 1 2) insolations) = [true; false; false; true; false; true].
Proof. vm_compute. auto. Qed.

Print Assumptions C29_mask.
Print Assumptions C29_count.
Print Assumptions C29_max.
Print Assumptions C29_mono.
Print Assumptions C29_scale.
