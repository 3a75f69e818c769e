(** Specifications of order statistics, independent of the sorting code used by
    the model. *)

From Coq Require Import QArith Qcanon List ZArith Permutation Sorted.
From Verif.Base Require Import QcExtra.
Import ListNotations.
Open Scope Qc_scope.

(** [s] is the data [l] arranged in non-decreasing order. *)
Definition arranged (l s : list Qc) : Prop :=
  Permutation l s /\ Sorted (fun x y => x <= y) s.

(** [m] is the median of [l]: the middle value of the arranged data, or the mean
    of the two middle values. *)
Definition is_median (l : list Qc) (m : Qc) : Prop :=
  exists s, arranged l s /\
    ((exists k, length s = (2 * k + 1)%nat /\ m = nth k s 0) \/
     (exists k, length s = (2 * k + 2)%nat /\ m = (nth k s 0 + nth (k + 1) s 0) / qz 2)).

(** [v] is the [p]-percentile with linear interpolation: the position (n-1)p/100
    lies a fraction [t] of the way from the [k]-th to the next value. *)
Definition is_percentile (p : Qc) (l : list Qc) (v : Qc) : Prop :=
  exists s k t, arranged l s /\
    0 <= t /\ t < 1 /\
    qz (Z.of_nat (length s) - 1) * (p / qz 100) = qz (Z.of_nat k) + t /\
    (k < length s)%nat /\
    v = nth k s 0 + (nth (S k) s (nth k s 0) - nth k s 0) * t.

Definition is_min (l : list Qc) (m : Qc) : Prop := In m l /\ forall x, In x l -> m <= x.
Definition is_max (l : list Qc) (m : Qc) : Prop := In m l /\ forall x, In x l -> x <= m.
