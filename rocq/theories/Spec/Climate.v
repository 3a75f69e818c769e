(** Specification of the clear-sky temperature. *)

From Coq Require Import QArith Qcanon List ZArith Bool.
From Verif.Base Require Import QcExtra Fl Calendar.
From Verif.Spec Require Import Theil.
Import ListNotations.
Open Scope list_scope.
Open Scope Qc_scope.

(** Share of the way around the earth east of the date line, and of the way from the north to the south pole. *)
Definition share_east (longitude : Qc) : Qc := (longitude + qz 180) / qz 360.
Definition share_south (latitude : Qc) : Qc := (qz 90 - latitude) / qz 180.
(** [i] is the border of [n] equal cells nearest to a share. *)
Definition at_border (n : Z) (share : Qc) (i : Z) : Prop := nearest_even (qz n * share) i.

(** Values of the cells at most [r] columns and rows away from [(i, j)]. *)
Definition square (data : list (list (list fl))) (i j : Z) (k : nat) (r : Z) : list Qc :=
  finvals (map (fun p => nth k (nth (snd p) (nth (fst p) data []) []) NaN)
    (filter (fun p => (Z.abs (Z.of_nat (fst p) - i) <=? r)%Z && (Z.abs (Z.of_nat (snd p) - j) <=? r)%Z)
      (list_prod (seq 0 (length data)) (seq 0 (length (nth 0%nat data [])))))).

(** Monthly value of a day (days since 1970-01-01). *)
Definition monthly (table : list Qc) (day : Z) : Qc := nth (Z.to_nat (d_month (civil_of_day day) - 1)) table 0.
(** Mean of the days around a day with given weights. *)
Definition smooth (weights : list Qc) (value : Z -> Qc) (day : Z) : Qc :=
  let n := length weights in
  qsum (map (fun i => nth i weights 0 * value (day - Z.of_nat n / 2 + Z.of_nat i)%Z) (seq 0 n)) / qsum weights.
(** Straight line between midnights. *)
Definition between_days (value : Z -> Qc) (t : Z) : Qc :=
  let d := (t / ns_day)%Z in value d + (value (d + 1)%Z - value d) * (qz (t mod ns_day) / qz ns_day).
(** [g] is the multiple of [f] nearest to [t], the later one of two. *)
Definition on_grid (f t g : Z) : Prop := (g mod f = 0)%Z /\ (2 * (t - g) < f)%Z /\ (2 * (g - t) <= f)%Z.
(** Whole minutes since midnight, in hours. *)
Definition clock (t : Z) : Qc := qz (t mod ns_day / (60 * 1000000000)) / qz 60.
(** Share of the daily cycle: sixteen o'clock solar time is the beginning. *)
Definition solar_phase (longitude utc_offset : Qc) (t : Z) : Qc :=
  (clock t - utc_offset + longitude / qz 15 + qz 8) / qz 24.
(** The estimate at [t] from the values of the months at the grid point [g]. *)
Definition clear_sky (turn : Qc -> Qc) (weights days nights : list Qc) (longitude utc_offset : Qc) (t g : Z) : Qc :=
  let d := between_days (smooth weights (monthly days)) g in
  let n := between_days (smooth weights (monthly nights)) g in
  (d + n) / qz 2 + (d - n) * qf 35 100 * turn (solar_phase longitude utc_offset t).
(** Value of month [k] in cell [(i, j)]; nothing outside of the grid. *)
Definition cell_value (data : list (list (list fl))) (i j : Z) (k : nat) : fl :=
  if ((0 <=? i) && (i <? Z.of_nat (length data)) && (0 <=? j) && (j <? Z.of_nat (length (nth 0%nat data []))))%Z
  then nth k (nth (Z.to_nat j) (nth (Z.to_nat i) data []) []) NaN else NaN.
(** [(i, j)] is the cell used for a place. *)
Definition cell_of (data : list (list (list fl))) (latitude longitude : Qc) (i j : Z) : Prop :=
  at_border (Z.of_nat (length data)) (share_east longitude) i /\ at_border (Z.of_nat (length (nth 0%nat data []))) (share_south latitude) j.
