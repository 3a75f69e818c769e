(** Specification of the whole way from normalized energy to the aggregated performance. *)

From Coq Require Import QArith Qcanon List ZArith Bool.
From Verif.Base Require Import QcExtra Fl TimeSeries Calendar Rolling.
From Verif.Spec Require Import Normalization.
Import ListNotations.
Open Scope list_scope.

(** The rows of a series at which a mask is true. *)
Definition kept_rows (m : mask) (s : series) : series := filter (fun r => existsb (fun x => (fst x =? fst r)%Z && snd x) m) s.

(** [b] starts a bin of width [w], counted from the midnight before the first row, that is not
    before the bin of the first row nor after that of the last. *)
Definition bin_of (w : Z) (rows : list Z) (b : Z) : Prop :=
  exists first last m j, hd_error rows = Some first /\ (exists l, rows = l ++ [last]) /\ midnight m first /\
    b = (m + w * j)%Z /\ (first < b + w)%Z /\ (b <= last)%Z.

(** Energy [a] and insolation [c] of the bins of the kept energy [e] and insolation [n]: the
    weighted mean and the sum. *)
Definition binned (w : Z) (e n a c : series) : Prop :=
  times c = times a /\ sorted_index a /\ (forall b, In b (times a) <-> bin_of w (times n) b) /\
  (noinf (vals e) -> noinf (vals n) ->
   (forall b x, In (b, x) a -> x = fdiv (Fin (bin_energy b w n e)) (Fin (bin_weight b w n))) /\
  (forall b y, In (b, y) c -> y = Fin (bin_weight b w n))).

(** A row for each step from the first to the last kept bin: the kept rows of [a], and missing
    values. *)
Definition regular_rows (w : Z) (M : mask) (a p : series) : Prop :=
  (forall b, In (b, true) M -> In b (times p)) /\
  (p = [] \/ exists b0 k, times p = map (fun j => b0 + w * Z.of_nat j)%Z (seq 0 (S k)) /\ In (b0, true) M /\ In (b0 + w * Z.of_nat k, true)%Z M) /\
  (forall b x, In (b, x) p -> (In (b, true) M -> In (b, x) a) /\ (~ In (b, true) M -> x = NaN)).

(** The width divides a day or is a number of days. *)
Definition dividing (w : Z) : Prop := exists k, (ns_day = k * w \/ w = k * ns_day)%Z.

(** For any width: the bins of width [w] counted from the midnight before the first kept row. If
    the frequency inferred from the kept rows is [w] and there are as many bins as kept rows, the
    bins take their values in order; else a bin has a value only if a kept row is at its start. *)
Definition rows_anew (infer : list Z -> option Z) (w : Z) (M : mask) (a p : series) : Prop :=
  let rows := kept_rows M a in
  sorted_index p /\ (forall b, In b (times p) <-> bin_of w (times rows) b) /\
  (infer (times rows) = Some w -> length rows = length p -> vals p = vals rows) /\
  (infer (times rows) <> Some w \/ length rows <> length p ->
   forall b x, In (b, x) p -> (In (b, true) M -> In (b, x) a) /\ (~ In (b, true) M -> x = NaN)).
