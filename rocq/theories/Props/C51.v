(** C51: clear-sky temperature *)

From Coq Require Import QArith Qcanon List ZArith Bool Arith Lia Permutation Sorted.
From Verif.Base Require Import QcExtra ISort Quantile Fl TimeSeries Calendar Rolling.
From Verif.Spec Require Import Stats Theil Interp Seasonal Climate.
From Verif.Model Require Import Soiling ClearskyTemp.
From Verif.Proofs Require Import FlP SoilP13 ClimP ClimP2.
Import ListNotations.
Open Scope list_scope.
Open Scope Qc_scope.

(** With twelve known months the estimate at a time is, whatever the other times are, the mean of the smoothed day and night value at the nearest grid point and 35% of their difference times the cosine that starts at sixteen o'clock solar time. *)
Theorem C51_estimate : forall turn weights day night f utc_offset ts latitude longitude i j days nights,
  (0 < f)%Z -> (f | ns_day)%Z -> weights <> [] -> (forall w, In w weights -> 0 < w) -> ts <> [] -> StronglySorted Z.le ts ->
  qz (-180) <= longitude -> longitude < qz 180 -> cell_of day latitude longitude i j ->
  (forall k, (k < 12)%nat -> cell_value day i j k = Fin (nth k days 0)) -> (forall k, (k < 12)%nat -> cell_value night i j k = Fin (nth k nights 0)) ->
  exists s, get_clearsky_tamb turn weights day night f utc_offset ts latitude longitude = Ok s /\ times s = ts /\
    forall t v, In (t, v) s -> exists g, on_grid f t g /\ v = Fin (clear_sky turn weights days nights longitude utc_offset t g).
Proof. exact estimate_known. Qed.

(** Missing months, any frequency: an estimate is missing or between the least and the largest value of the cell. *)
Theorem C51_band : forall turn weights day night f utc_offset ts latitude longitude i j lo hi s,
  (0 < f)%Z -> (forall w, In w weights -> 0 < w) -> (forall x, -(1) <= turn x /\ turn x <= 1) -> StronglySorted Z.le ts ->
  qz (-180) <= longitude -> longitude < qz 180 -> cell_of day latitude longitude i j ->
  (forall k v, (k < 12)%nat -> cell_value day i j k = Fin v \/ cell_value night i j k = Fin v -> lo <= v /\ v <= hi) ->
  get_clearsky_tamb turn weights day night f utc_offset ts latitude longitude = Ok s ->
  times s = ts /\ forall t v, In (t, v) s -> v = NaN \/ exists q, v = Fin q /\ lo <= q /\ q <= hi.
Proof. exact estimate_band. Qed.

(** No day value or no night value in the cell: nothing but missing values. *)
Theorem C51_missing : forall turn weights day night f utc_offset ts latitude longitude i j s,
  (0 < f)%Z -> (forall w, In w weights -> 0 < w) -> StronglySorted Z.le ts ->
  qz (-180) <= longitude -> longitude < qz 180 -> cell_of day latitude longitude i j ->
  (forall k, (k < 12)%nat -> cell_value day i j k = NaN) \/ (forall k, (k < 12)%nat -> cell_value night i j k = NaN) ->
  get_clearsky_tamb turn weights day night f utc_offset ts latitude longitude = Ok s ->
  times s = ts /\ forall t v, In (t, v) s -> v = NaN.
Proof. exact estimate_missing. Qed.

(** Half a cell before the date line or the south pole there is no cell. *)
Theorem C51_edge : forall turn weights day night f utc_offset ts latitude longitude s,
  (0 < f)%Z -> (forall w, In w weights -> 0 < w) -> StronglySorted Z.le ts ->
  qz (-180) <= longitude -> longitude < qz 180 -> qz (-90) <= latitude -> latitude <= qz 90 ->
  let lons := qz (Z.of_nat (length day)) in let lats := qz (Z.of_nat (length (nth 0 day []))) in
  lons - qf 1 2 < lons * share_east longitude \/ lats - qf 1 2 < lats * share_south latitude ->
  get_clearsky_tamb turn weights day night f utc_offset ts latitude longitude = Ok s ->
  times s = ts /\ forall t v, In (t, v) s -> v = NaN.
Proof. exact estimate_edge. Qed.

(** The column of a longitude. *)
Theorem C51_column : forall lons longitude, (0 <= lons)%Z -> qz (-180) <= longitude -> longitude < qz 180 ->
  at_border lons (share_east longitude) (lon_index lons longitude) /\ (0 <= lon_index lons longitude <= lons)%Z /\
  (qz lons - qf 1 2 < qz lons * share_east longitude -> lon_index lons longitude = lons) /\
  (lon_index lons longitude = lons -> qz lons - qf 1 2 <= qz lons * share_east longitude).
Proof. exact pixel_column. Qed.

(** The row of a latitude. *)
Theorem C51_row : forall lats latitude, (0 <= lats)%Z -> qz (-90) <= latitude -> latitude <= qz 90 ->
  at_border lats (share_south latitude) (lat_index lats latitude) /\ (0 <= lat_index lats latitude <= lats)%Z /\
  (qz lats - qf 1 2 < qz lats * share_south latitude -> lat_index lats latitude = lats) /\
  (lat_index lats latitude = lats -> qz lats - qf 1 2 <= qz lats * share_south latitude).
Proof. exact pixel_row. Qed.

(** The value of a square of cells is the median of the known ones. *)
Theorem C51_pixel : forall data i j k r, noinf (map (fun p => nth k (nth (snd p) (nth (fst p) data []) []) NaN) (list_prod (seq 0 (length data)) (seq 0 (length (nth 0 data []))))) ->
  median_or_missing (square data i j k r) (get_pixel_value data i j k r).
Proof. exact pixel_value. Qed.

(** The daily cycle. *)
Theorem C51_temperature : forall turn hour n d offset,
  get_temperature turn hour (Fin n) (Fin d) offset = Fin ((d + n) / qz 2 + (d - n) * qf 35 100 * turn ((hour + offset + qz 8) / qz 24)).
Proof. exact temperature_spec. Qed.

(** At most 35% of the difference away from the mean. *)
Theorem C51_swing : forall lo hi d n v, -(1) <= v -> v <= 1 -> lo <= d -> d <= hi -> lo <= n -> n <= hi ->
  let t := (d + n) / qz 2 + (d - n) * qf 35 100 * v in
  qabs (t - (d + n) / qz 2) <= qf 35 100 * qabs (d - n) /\ lo <= t /\ t <= hi.
Proof. exact temperature_band. Qed.

(** No times. *)
Theorem C51_empty : forall turn weights day night freq utc_offset latitude longitude, get_clearsky_tamb turn weights day night freq utc_offset [] latitude longitude = Raise IndexError.
Proof. exact estimate_empty. Qed.

(** Two columns, one row; 20 by day and 10 by night, 32 and 12 in January; [turn] is a triangle wave. *)
Definition cell_with (jan other : Z) : list fl := fz jan :: repeat (fz other) 11.
Definition by_day : grid := [[repeat NaN 12]; [cell_with 32 20]].
Definition by_night : grid := [[repeat NaN 12]; [cell_with 12 10]].
Definition wave (x : Qc) : Qc := let y := x - qz (qfloor x) in if qle y (qf 1 2) then 1 - qz 4 * y else qz 4 * y - qz 3.
Definition hour : Z := 3600000000000%Z.
(** Sixteen o'clock and one minute to four on February 1, 1970 at Greenwich. *)
Definition two_times : list Z := [31 * ns_day + 3 * hour + 59 * 60000000000; 31 * ns_day + 16 * hour]%Z.
Example C51_cell : cell_of by_day (qz 45) 0 1 0 /\ (forall k, (k < 12)%nat -> cell_value by_day 1 0 k = Fin (nth k (qz 32 :: repeat (qz 20) 11) 0)) /\
  (forall k, (k < 12)%nat -> cell_value by_night 1 0 k = Fin (nth k (qz 12 :: repeat (qz 10) 11) 0)) /\
  (12 * hour | ns_day)%Z /\ StronglySorted Z.le two_times /\ cell_of by_day (qz 45) (qz (-90)) 0 0 /\ (forall k, (k < 12)%nat -> cell_value by_day 0 0 k = NaN).
Proof.
  assert (D : forall k, (k < 12)%nat -> In k (seq 0 12)) by (intros k L; apply in_seq; lia).
  assert (G : forall (a b : nat -> fl), (map a (seq 0 12) = map b (seq 0 12)) -> forall k, (k < 12)%nat -> a k = b k).
  { intros a b E k L. pose proof (table_nth a k) as A1. pose proof (table_nth b k) as A2. rewrite (proj2 (Nat.ltb_lt k 12) L) in A1, A2. rewrite <- A1, <- A2, E. reflexivity. }
  split; [split; [pose proof (round_even_spec (qz 2 * share_east 0)) as H|pose proof (round_even_spec (qz 1 * share_south (qz 45))) as H]; exact H|].
  split; [apply G; reflexivity|]. split; [apply G; reflexivity|]. split; [exists 2%Z; reflexivity|]. split; [repeat constructor; discriminate|].
  split; [split; [pose proof (round_even_spec (qz 2 * share_east (qz (-90)))) as H|pose proof (round_even_spec (qz 1 * share_south (qz 45))) as H]; exact H|]. apply G; reflexivity.
Qed.
Example C51_example : get_clearsky_tamb wave [1; 1] by_day by_night (12 * hour) 0 two_times (qz 45) 0 =
  Ok (combine two_times [ff 6367 480; ff 169 8]).
Proof. fcompute. Qed.
Example C51_date_line : get_clearsky_tamb wave [1; 1] by_day by_night (12 * hour) 0 two_times (qz 45) (qz 170) = Ok (map (fun t => (t, NaN)) two_times) /\
  qz 2 - qf 1 2 < qz 2 * share_east (qz 170).
Proof. split; [fcompute|reflexivity]. Qed.
Example C51_square : get_pixel_value by_day 0 0 0 1 = fz 32 /\ get_pixel_value by_day 0 0 0 0 = NaN.
Proof. split; fcompute. Qed.

Print Assumptions C51_estimate.
Print Assumptions C51_band.
Print Assumptions C51_missing.
Print Assumptions C51_edge.
Print Assumptions C51_column.
Print Assumptions C51_row.
Print Assumptions C51_pixel.
Print Assumptions C51_temperature.
Print Assumptions C51_swing.
Print Assumptions C51_empty.
