(** Specification of seasonal components. *)

From Coq Require Import QArith Qcanon List ZArith Bool Arith.
From Verif.Base Require Import QcExtra Fl TimeSeries Calendar.
From Verif.Spec Require Import Stats.
Import ListNotations.
Open Scope Qc_scope.

(** The values on day [d] (from 1) of any year. *)
Definition day_values (s : series) (d : Z) : list Qc := finvals (map snd (filter (fun r => Z.eqb (ts_doy (fst r)) d) s)).
Definition median_or_missing (l : list Qc) (v : fl) : Prop := (l = [] /\ v = NaN) \/ exists m, v = Fin m /\ is_median l m.

(** The rows that take part: half a year (at most) is cut off at both ends so that at least a
    year is left; between 182 and 366 rows, nothing is left; from 122 to 181 rows, the ends are
    cut off as well, but not below that. *)
Definition middle (s : series) (e : Z) (k : series) : Prop :=
  exists pre post, s = pre ++ k ++ post /\ Z.of_nat (length pre) = e /\ Z.of_nat (length post) = e.
Definition analysed_part (s k : series) : Prop :=
  let n := Z.of_nat (length s) in
  (367 <= n /\ middle s (Z.min 180 ((n - 365) / 2)) k)%Z \/
  (182 <= n <= 366 /\ k = [])%Z \/
  (n <= 181 /\ middle s (Z.max 0 (n - (365 - n) / 2)) k)%Z.

Definition different_days (s : series) : Prop := NoDup (map (fun r => ts_day (fst r)) s).
