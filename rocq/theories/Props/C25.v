(** C25: quantile_clip_filter. *)

From Coq Require Import QArith Qcanon List ZArith Bool Arith Lia Permutation Sorted.
From Verif.Base Require Import QcExtra ISort Quantile Fl TimeSeries Rolling.
From Verif.Spec Require Import Stats Interp Filters.
From Verif.Model Require Import Utilities Filters.
From Verif.Proofs Require Import StatsP FlP FiltersP FiltersP2 FiltersP3.
Import ListNotations.
Open Scope list_scope.
Open Scope Qc_scope.

(** Below 0.99 times the robust quantile. *)
Theorem C25_mask : forall q s l, noinf (vals s) -> s <> [] -> 0 <= q -> q <= 1 -> robust_part q (vals s) l ->
  (l = [] -> mask_is (fun _ _ _ => False) s (quantile_clip_filter q s)) /\
  (l <> [] -> exists r, is_percentile (qz 100 * q) l r /\
     mask_is (fun _ _ v => exists x, v = Fin x /\ x < r * qf 99 100) s (quantile_clip_filter q s)).
Proof. exact quantile_clip_spec. Qed.

Theorem C25_smaller : forall q s i j t u x y, nth_error s i = Some (t, Fin x) -> nth_error s j = Some (u, Fin y) -> x <= y ->
  nth_error (quantile_clip_filter q s) j = Some (u, true) -> nth_error (quantile_clip_filter q s) i = Some (t, true).
Proof. exact clip_smaller. Qed.

Theorem C25_scale : forall q k s, 0 < k ->
  quantile_clip_filter q (map (fun r => (fst r, fscale k (snd r))) s) = quantile_clip_filter q s.
Proof. exact quantile_clip_scale. Qed.

Definition clipped : series := [(0%Z, fz 0); (1%Z, fz 60); (2%Z, NaN); (3%Z, fz 100); (4%Z, fz 100); (5%Z, fz 99); (6%Z, fz 98)].
Example C25_example :
  quantile_clip_filter (qf 98 100) clipped =
    [(0%Z, true); (1%Z, true); (2%Z, false); (3%Z, false); (4%Z, false); (5%Z, false); (6%Z, true)] /\
  robust_part (qf 98 100) (vals clipped) [qz 60; qz 100; qz 100; qz 99; qz 98].
Proof.
  split; [vm_compute; reflexivity |]. eexists. split; [apply quantile_is; discriminate |]. vm_compute. reflexivity.
Qed.

Print Assumptions C25_mask.
Print Assumptions C25_smaller.
Print Assumptions C25_scale.
