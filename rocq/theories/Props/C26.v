(** C26: two_way_window_filter. *)

From Coq Require Import QArith Qcanon List ZArith Bool Arith Lia Permutation Sorted.
From Verif.Base Require Import QcExtra ISort Quantile Fl TimeSeries Rolling.
From Verif.Spec Require Import Stats Interp Filters.
From Verif.Model Require Import Utilities Filters.
From Verif.Proofs Require Import StatsP FlP FiltersP FiltersP2 FiltersP3.
Import ListNotations.
Open Scope list_scope.
Open Scope Qc_scope.

(** [z], the 99th percentile of the series, is the unit of the threshold. *)
Theorem C26_mask : forall sp thr s z, noinf (vals s) -> is_percentile (qz 99) (finvals (vals s)) z -> z <> 0 ->
  mask_is (fun i _ _ => close_on (last_span sp) s z thr i \/ close_on (next_span sp) s z thr i) s
    (two_way_window_filter sp (Fin thr) s).
Proof. exact two_way_spec. Qed.

(** Without a unit every row is kept. *)
Theorem C26_no_unit : forall sp thr s, noinf (vals s) -> (finvals (vals s) = [] \/ is_percentile (qz 99) (finvals (vals s)) 0) ->
  mask_is (fun _ _ _ => 0 < thr) s (two_way_window_filter sp (Fin thr) s).
Proof. exact two_way_degenerate. Qed.

Theorem C26_sparse : forall sp thr s i t v b, noinf (vals s) -> 0 < thr -> nth_error s i = Some (t, v) ->
  (forall d, ~ distance (last_span sp) 5 s i d) \/ (forall d, ~ distance (next_span sp) 5 s i d) ->
  nth_error (two_way_window_filter sp (Fin thr) s) i = Some (t, b) -> b = true.
Proof. exact two_way_sparse. Qed.
Theorem C26_missing : forall sp thr s i t b, noinf (vals s) -> 0 < thr -> nth_error s i = Some (t, NaN) ->
  nth_error (two_way_window_filter sp (Fin thr) s) i = Some (t, b) -> b = true.
Proof. exact two_way_missing. Qed.

Theorem C26_scale : forall sp thr c s, 0 < c ->
  two_way_window_filter sp thr (map (fun r => (fst r, fscale c (snd r))) s) = two_way_window_filter sp thr s.
Proof. exact two_way_scale. Qed.

(** Medians exist for every window with five values, and are unique. *)
Theorem C26_median_unique : forall sp s i m m', window_median (last_span sp) 5 s i m -> window_median (last_span sp) 5 s i m' -> m = m'.
Proof. intros sp s i m m'. apply (window_median_unique _ _ (in_back_iff sp) 5). lia. Qed.

Definition spike : series :=
  [(0%Z, fz 10); (1%Z, fz 10); (2%Z, fz 10); (3%Z, fz 10); (4%Z, fz 10); (5%Z, fz 13); (6%Z, NaN); (7%Z, fz 10); (8%Z, fz 10); (9%Z, fz 10); (10%Z, fz 10); (11%Z, fz 13)].
Example C26_example :
  map snd (two_way_window_filter (ByTime 6) (ff 3 100) spike) =
    [true; true; true; true; true; false; true; true; true; true; true; true] /\
  map snd (two_way_window_filter (ByRows 6) (ff 3 100) spike) =
    [true; true; true; true; true; false; true; true; true; true; true; true] /\
  is_percentile (qz 99) (finvals (vals spike)) (qz 13).
Proof.
  split; [vm_compute; reflexivity |]. split; [vm_compute; reflexivity |].
  assert (qz 13 = qquantile (qz 99 / qz 100) (finvals (vals spike))) as -> by (apply Qc_is_canon; vm_compute; reflexivity).
  apply qpercentile_spec; discriminate.
Qed.

Print Assumptions C26_mask.
Print Assumptions C26_no_unit.
Print Assumptions C26_sparse.
Print Assumptions C26_missing.
Print Assumptions C26_scale.
Print Assumptions C26_median_unique.
