(** Specification of the clear-sky irradiance that an analysis computes. *)

From Coq Require Import QArith Qcanon List ZArith Bool.
From Verif.Base Require Import QcExtra Fl TimeSeries.
Import ListNotations.
Open Scope list_scope.

(** [t] follows [b] in the index. *)
Definition follows (idx : list Z) (b t : Z) : Prop := exists l l', idx = l ++ b :: t :: l'.

(** The whole minutes from the first time to the last. *)
Definition whole_minute (first last m : Z) : Prop := exists k, (0 <= k /\ m = first + 60000000000 * k /\ m <= last)%Z.

(** Simulated irradiance after [b] up to [t], the values that are not missing. *)
Definition values_in (raw : series) (b t : Z) : list Qc := finvals (vals (filter (fun r => (b <? fst r)%Z && (fst r <=? t)%Z) raw)).
Definition mean_in (raw : series) (b t : Z) (v : fl) : Prop :=
  (values_in raw b t = [] -> v = NaN) /\
  (values_in raw b t <> [] -> v = Fin (qsum (values_in raw b t) / qz (Z.of_nat (length (values_in raw b t))))%Qc).

(** There is simulated irradiance, missing or not, up to the first time and in each interval. *)
Definition covered (idx : list Z) (raw : series) : Prop :=
  (forall t, hd_error idx = Some t -> exists u v, In (u, v) raw /\ (u <= t)%Z) /\
  (forall b t, follows idx b t -> exists u v, In (u, v) raw /\ (b < u)%Z /\ (u <= t)%Z).

(** The mean of each interval that ends at a time of the index; the first one is missing. *)
Definition averaged (idx : list Z) (raw clear : series) : Prop :=
  times clear = idx /\
  forall t v, In (t, v) clear -> (hd_error idx = Some t -> v = NaN) /\ (forall b, follows idx b t -> mean_in raw b t v).
