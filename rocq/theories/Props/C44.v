(** C44: monthly soiling rates *)

From Coq Require Import QArith Qcanon List ZArith Bool Arith Lia Permutation Sorted.
From Verif.Base Require Import QcExtra ISort Quantile Fl TimeSeries Calendar Rolling.
From Verif.Spec Require Import Stats Filters Theil Soiling.
From Verif.Model Require Import Soiling SoilingSummary.
From Verif.Proofs Require Import StatsP FiltersP2 SoilP SoilP2 SoilP4 SoilP5 SoilP8 SoilP9 SoilP10 SoilP11 SoilP12 SoilP13 SoilP14.
Import ListNotations.
Open Scope list_scope.
Open Scope Qc_scope.
From Verif.Spec Require Import SoilingTable SoilingSummary.
From Coq Require Import String.

(** One month: samples by overlap, their quantiles and range. *)
Theorem C44_month : forall u c reps ivs ds m, Forall2 (fun i d => has_days i (fun t => ts_month t = m) d) ivs ds ->
  let over := filter (fun p => (0 <? snd p)%Z) (combine ivs ds) in
  ((reps <= 0)%Z \/ over = [] -> month_row u c reps ivs m = Ok (Monthly m NaN NaN NaN 0)) /\
  ((0 < reps)%Z -> over <> [] -> forall bs, Forall2 (fun p b => i_slope_low (fst p) = Fin (fst b) /\ i_slope_high (fst p) = Fin (snd b)) over bs ->
     (c < - qz 100 \/ qz 100 < c -> month_row u c reps ivs m = Raise ValueError) /\
     (- qz 100 <= c -> c <= qz 100 -> exists ns md lo hi,
        month_row u c reps ivs m = Ok (Monthly m (Fin md) (Fin lo) (Fin hi) (List.length over)) /\
        Forall2 (fun p n => qz (snd p) / qz (zsum ds) * qz reps <= qz n /\ qz n < qz (snd p) / qz (zsum ds) * qz reps + 1 /\ (0 < n)%Z) over ns /\
        (reps <= zsum ns < reps + Z.of_nat (List.length over))%Z /\
        let rates := List.concat (map (fun k => samples u k (nth k bs (0, 0)) (nth k ns 0%Z)) (seq 0 (List.length over))) in
        Z.of_nat (List.length rates) = zsum ns /\
        is_median rates md /\ is_percentile (qz 50 - c / qz 2) rates lo /\ is_percentile (qz 50 + c / qz 2) rates hi /\ (0 <= c -> lo <= md /\ md <= hi) /\
        ((forall k, in_unit (u k)) -> (forall b, In b bs -> fst b <= snd b) -> forall x y, (forall b, In b bs -> x <= fst b /\ snd b <= y) ->
         (x <= md /\ md <= y) /\ (x <= lo /\ lo <= y) /\ (x <= hi /\ hi <= y)))).
Proof. exact month_spec. Qed.

(** The table has one such row for every month. *)
Theorem C44_table : forall u summary minimum limit reps c out, monthly_soiling_rates u summary minimum limit reps c = Ok out ->
  List.length out = 12%nat /\
  forall k, (k < 12)%nat -> exists row, nth_error out k = Some row /\ m_month row = (Z.of_nat k + 1)%Z /\
    month_row (u (S k)) c reps (filter (of_interest minimum limit) summary) (Z.of_nat k + 1) = Ok row.
Proof. exact monthly_spec. Qed.

Theorem C44_total : forall u summary minimum limit reps c,
  (forall i, In i summary -> of_interest minimum limit i = true -> exists low high, i_slope_low i = Fin low /\ i_slope_high i = Fin high) -> - qz 100 <= c -> c <= qz 100 ->
  exists out, monthly_soiling_rates u summary minimum limit reps c = Ok out.
Proof. exact monthly_total. Qed.

(** The intervals that take part. *)
Theorem C44_interest : forall minimum limit i slope low high, i_slope i = Fin slope -> i_slope_low i = Fin low -> i_slope_high i = Fin high ->
  (of_interest minimum (Fin limit) i = true <-> (minimum <= i_length i)%Z /\ i_valid i = true /\ slope <> 0 /\ qz 100 * qabs (high - low) <= limit * qabs slope).
Proof. exact interest_spec. Qed.

(** Days of an interval in a month; over the year they add up. *)
Theorem C44_days : forall i m, has_days i (fun t => ts_month t = m) (count_month_days (i_start i) (i_end i) m).
Proof. exact count_month_spec. Qed.

Theorem C44_all_days : forall i, exists n, has_days i (fun _ => True) n /\ zsum (map (fun m => count_month_days (i_start i) (i_end i) (Z.of_nat m)) (seq 1 12)) = n.
Proof. exact month_days_total. Qed.

Definition day (k : Z) : Z := (k * ns_day)%Z.
(** 1970-01-20 to 1970-02-09, and 1970-02-05 to 1970-03-06. *)
Definition winter : interval := Interval (day 19) (day 39) 20 0 (ff (-2) 1000) (ff (-3) 1000) (ff (-1) 1000) (fz 0) (fz 1) (fz 1) true.
Definition spring : interval := Interval (day 35) (day 64) 29 1 (ff (-2) 1000) (ff (-2) 1000) (ff (-2) 1000) (fz 0) (fz 1) (fz 1) true.
Definition middle : nat -> nat -> nat -> Qc := fun _ _ k => if Nat.even k then qf 1 2 else qf 1 4.
Example C44_example :
  map (fun m => count_month_days (i_start winter) (i_end winter) m) [1; 2; 3]%Z = [12; 9; 0]%Z /\
  map (fun m => count_month_days (i_start spring) (i_end spring) m) [1; 2; 3]%Z = [0; 24; 6]%Z /\
  month_samples 10 [9; 24]%Z = [3; 8]%Z /\
  match monthly_soiling_rates middle [winter; spring] 14 (fz 500) 10 (qz 100) with
  | Ok t => firstn 4 t = [Monthly 1 (ff (-9) 4000) (ff (-10) 4000) (ff (-8) 4000) 1; Monthly 2 (ff (-2) 1000) (ff (-10) 4000) (ff (-8) 4000) 2; Monthly 3 (ff (-2) 1000) (ff (-2) 1000) (ff (-2) 1000) 1; Monthly 4 NaN NaN NaN 0]
  | Raise _ => False end.
Proof. fcompute. Qed.
Example C44_hypotheses : Forall2 (fun i d => has_days i (fun t => ts_month t = 2%Z) d) [winter; spring] [9; 24]%Z /\
  Forall2 (fun p b => i_slope_low (fst p) = Fin (fst b) /\ i_slope_high (fst p) = Fin (snd b)) (filter (fun p => (0 <? snd p)%Z) (combine [winter; spring] [9; 24]%Z))
    [(qf (-3) 1000, qf (-1) 1000); (qf (-2) 1000, qf (-2) 1000)] /\ (forall k, in_unit (middle 2 k)).
Proof.
  assert (9%Z = count_month_days (i_start winter) (i_end winter) 2 /\ 24%Z = count_month_days (i_start spring) (i_end spring) 2) as [E1 E2] by fcompute.
  split; [rewrite E1, E2; constructor; [apply count_month_spec |]; constructor; [apply count_month_spec | constructor] |]. split.
  - repeat constructor.
  - intros k j. unfold middle. destruct (Nat.even j); split; vm_compute; discriminate.
Qed.

(** Not true: that an interval with a known horizontal slope takes part. *)
Theorem C44_flat_refuted : ~ (forall minimum limit i, 0 <= limit -> (minimum <= i_length i)%Z -> i_valid i = true -> i_slope i = fz 0 -> i_slope_low i = fz 0 -> i_slope_high i = fz 0 ->
  of_interest minimum (Fin limit) i = true).
Proof.
  intros H. specialize (H 14%Z (qz 500) (Interval 0 0 20 0 (fz 0) (fz 0) (fz 0) (fz 0) (fz 1) (fz 1) true)). cut (false = true); [discriminate |]. rewrite <- H; try reflexivity; try (cbn; lia). vm_compute. discriminate.
Qed.
Print Assumptions C44_flat_refuted.

Print Assumptions C44_month.
Print Assumptions C44_table.
Print Assumptions C44_total.
Print Assumptions C44_interest.
Print Assumptions C44_days.
Print Assumptions C44_all_days.
