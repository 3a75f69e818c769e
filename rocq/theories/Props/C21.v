(** C21: aggregation_insol *)

From Coq Require Import QArith Qcanon List ZArith Bool Arith Lia Permutation Sorted.
From Verif.Base Require Import QcExtra ISort Quantile Fl TimeSeries Calendar Rolling.
From Verif.Spec Require Import Stats Interp Energy Filters Normalization.
From Verif.Model Require Import Interpolation Energy Filters Normalization.
From Verif.Proofs Require Import FiltersP NormP NormP2 NormP3 NormP4.
Import ListNotations.
Open Scope list_scope.
Open Scope Qc_scope.

(** One row per bin of the given width, counted from the midnight before the first row, from
    the bin of the first row to the bin of the last; its value is the sum of energy times
    insolation over the sum of insolation, missing values counting as zero. *)
Theorem C21_value : forall en ins w first last, times en = times ins -> noinf (vals ins) -> noinf (vals en) -> (0 < w)%Z ->
  (exists l, times ins = first :: l) -> (exists l, times ins = l ++ [last]) -> sorted_index ins ->
  (exists b0 n m j, times (aggregation_insol en ins w) = map (fun k => b0 + w * Z.of_nat k)%Z (seq 0 (S n)) /\
     in_bin b0 w first /\ in_bin (b0 + w * Z.of_nat n) w last /\ midnight m first /\ b0 = (m + w * j)%Z) /\
  (forall b x, In (b, x) (aggregation_insol en ins w) ->
     x = fdiv (Fin (bin_energy b w ins en)) (Fin (bin_weight b w ins))).
Proof. exact aggregation_value. Qed.

(** A complete bin with non-negative insolation: the value lies between any bounds of the
    normalised energy, in particular it is their common value. *)
Theorem C21_bounds : forall en ins w first last, times en = times ins -> noinf (vals ins) -> noinf (vals en) -> (0 < w)%Z ->
  (exists l, times ins = first :: l) -> (exists l, times ins = l ++ [last]) -> sorted_index ins ->
forall b x lo hi, In (b, x) (aggregation_insol en ins w) ->
    complete_bin b w ins -> complete_bin b w en -> 0 < bin_weight b w ins ->
    (forall t q, In (t, Fin q) ins -> in_bin b w t -> 0 <= q) ->
    (forall t q, In (t, Fin q) en -> in_bin b w t -> lo <= q /\ q <= hi) ->
    exists v, x = Fin v /\ lo <= v /\ v <= hi.
Proof. exact aggregation_bounds. Qed.

(** If insolation is proportional to the expected energy the value is total measured over total
    expected energy. *)
Theorem C21_ratio : forall en ins w first last, times en = times ins -> noinf (vals ins) -> noinf (vals en) -> (0 < w)%Z ->
  (exists l, times ins = first :: l) -> (exists l, times ins = l ++ [last]) -> sorted_index ins ->
forall b x c (measured expected : Z -> Qc), In (b, x) (aggregation_insol en ins w) ->
    c <> 0 -> (forall t i, In (t, i) ins -> in_bin b w t -> i = Fin (c * expected t)) ->
    (forall t e, In (t, e) en -> in_bin b w t -> exists q, e = Fin q /\ q * expected t = measured t) ->
    let rows := filter (inside b w) (times ins) in
    qsum (map expected rows) <> 0 ->
    x = Fin (qsum (map measured rows) / qsum (map expected rows)).
Proof. exact aggregation_ratio. Qed.

(** Rows without energy keep their weight: the value is the mean of the known rows shrunk by
    their share of the insolation. *)
Theorem C21_missing : forall en ins w first last, times en = times ins -> noinf (vals ins) -> noinf (vals en) -> (0 < w)%Z ->
  (exists l, times ins = first :: l) -> (exists l, times ins = l ++ [last]) -> sorted_index ins ->
forall b x, In (b, x) (aggregation_insol en ins w) ->
    complete_bin b w ins -> 0 < bin_known b w ins en ->
    (forall t q, In (t, Fin q) ins -> in_bin b w t -> 0 <= q) ->
    exists v, x = Fin v /\
      let mean := bin_energy b w ins en / bin_known b w ins en in
      v * bin_weight b w ins = mean * bin_known b w ins en /\
      bin_known b w ins en <= bin_weight b w ins /\
      (0 <= mean -> v <= mean) /\
      (0 < mean -> (exists t q, In (t, NaN) en /\ In (t, Fin q) ins /\ in_bin b w t /\ 0 < q) -> v < mean).
Proof. exact aggregation_missing. Qed.

(** The scale of the insolation does not matter. *)
Theorem C21_rescaled : forall c en ins w, times en = times ins -> noinf (vals ins) -> noinf (vals en) -> (0 < w)%Z -> 0 < c ->
  aggregation_insol en (map_values (fun q => c * q) ins) w = aggregation_insol en ins w.
Proof. exact aggregation_rescaled. Qed.

Definition hour (h : Z) : Z := (h * 3600000000000)%Z.
Definition demo_ins : series := [(hour 30, fz 100); (hour 31, fz 300); (hour 55, fz 200); (hour 56, fz 200); (hour 80, fz 0)].
Definition demo_en : series := [(hour 30, fz 1); (hour 31, ff 1 2); (hour 55, fz 1); (hour 56, NaN); (hour 80, fz 1)].
Example C21_example :
  aggregation_insol demo_en demo_ins (hour 24) = [(hour 24, ff 5 8); (hour 48, ff 1 2); (hour 72, NaN)] /\
  aggregation_insol demo_en demo_ins (hour 7) =
    [(hour 24, fz 1); (hour 31, ff 1 2); (hour 38, NaN); (hour 45, NaN); (hour 52, ff 1 2); (hour 59, NaN); (hour 66, NaN);
     (hour 73, NaN); (hour 80, NaN)] /\
  0 < bin_known (hour 48) (hour 24) demo_ins demo_en /\ sorted_index demo_ins.
Proof. split; [fcompute |]. split; [fcompute |]. split; [reflexivity |]. repeat constructor. Qed.

Print Assumptions C21_value.
Print Assumptions C21_bounds.
Print Assumptions C21_ratio.
Print Assumptions C21_missing.
Print Assumptions C21_rescaled.
