(** C43: annual soiling ratios *)

From Coq Require Import QArith Qcanon List ZArith Bool Arith Lia Permutation Sorted.
From Verif.Base Require Import QcExtra ISort Quantile Fl TimeSeries Calendar Rolling.
From Verif.Spec Require Import Stats Filters Theil Soiling.
From Verif.Model Require Import Soiling SoilingSummary.
From Verif.Proofs Require Import StatsP FiltersP2 SoilP SoilP2 SoilP4 SoilP5 SoilP8 SoilP9 SoilP10 SoilP11 SoilP12 SoilP13 SoilP14.
Import ListNotations.
Open Scope list_scope.
Open Scope Qc_scope.
From Verif.Spec Require Import SoilingTable SoilingSummary.
From Coq Require Import String.

(** Every year with complete rows has a row of weighted means and their quantiles. *)
Theorem C43_annual : forall profiles insolation c, profiles <> [] -> (forall p, In p profiles -> sorted_index p /\ noinf (vals p)) -> noinf (vals insolation) ->
  - qz 100 <= c -> c <= qz 100 -> exists table, annual_soiling_ratios profiles insolation c = Ok table /\ StronglySorted Z.lt (map y_year table) /\
  (forall y, In y (map y_year table) <-> exists t, complete profiles t = true /\ ts_year t = y) /\
  forall row, In row table ->
    ((forall p, In p profiles -> qsum (map snd (year_rows profiles insolation (y_year row) p)) <> 0) ->
     exists qs m lo hi, Forall2 (fun p q => weighted_mean (year_rows profiles insolation (y_year row) p) q) profiles qs /\
       y_median row = Fin m /\ y_low row = Fin lo /\ y_high row = Fin hi /\ is_median qs m /\ is_percentile (qz 50 - c / qz 2) qs lo /\ is_percentile (qz 50 + c / qz 2) qs hi /\
       (0 <= c -> lo <= m /\ m <= hi) /\ (c = qz 100 -> is_min qs lo /\ is_max qs hi)) /\
    ((forall p, In p profiles -> qsum (map snd (year_rows profiles insolation (y_year row) p)) = 0 /\ forall r, In r (year_rows profiles insolation (y_year row) p) -> 0 <= snd r) ->
     y_median row = NaN /\ y_low row = NaN /\ y_high row = NaN).
Proof. exact annual_spec. Qed.

Theorem C43_errors : forall profiles insolation c, (profiles = [] \/ c < - qz 100 \/ qz 100 < c) -> annual_soiling_ratios profiles insolation c = Raise ValueError.
Proof. exact annual_errors. Qed.

(** A weighted mean lies between the values. *)
Theorem C43_mean : forall rows q lo hi, weighted_mean rows q -> 0 < qsum (map snd rows) -> (forall r, In r rows -> 0 <= snd r /\ lo <= fst r /\ fst r <= hi) -> lo <= q /\ q <= hi.
Proof. exact mean_between. Qed.

Definition day (k : Z) : Z := (k * ns_day)%Z.
(** Days 363 to 366 after 1970-01-01, in two years; the first day of the second profile is missing. *)
Definition profile_a : series := [(day 363, ff 9 10); (day 364, ff 8 10); (day 365, fz 1); (day 366, ff 9 10)].
Definition profile_b : series := [(day 363, NaN); (day 364, ff 7 10); (day 365, ff 95 100); (day 366, ff 85 100)].
Definition suns : series := [(day 363, fz 1); (day 364, fz 2); (day 365, fz 1); (day 366, fz 3)].
Example C43_example : annual_soiling_ratios [profile_a; profile_b] suns (qz 100) =
  Ok [Annual 1970 (ff 75 100) (ff 7 10) (ff 8 10); Annual 1971 (ff 36 40) (ff 35 40) (ff 37 40)].
Proof. fcompute. Qed.
Example C43_hypotheses : (forall p, In p [profile_a; profile_b] -> sorted_index p /\ noinf (vals p)) /\ noinf (vals suns) /\
  (forall p, In p [profile_a; profile_b] -> qsum (map snd (year_rows [profile_a; profile_b] suns 1971 p)) = qz 4) /\
  annual_soiling_ratios [profile_a] suns (qz 101) = Raise ValueError.
Proof.
  split.
  { intros p [<- | [<- | []]]; (split; [unfold sorted_index; cbn; repeat (constructor; [| repeat constructor]); constructor |]); intros x Hx; cbn in Hx; repeat (destruct Hx as [<- | Hx]; [split; discriminate |]); destruct Hx. }
  split; [intros x Hx; cbn in Hx; repeat (destruct Hx as [<- | Hx]; [split; discriminate |]); destruct Hx |].
  split; [intros p [<- | [<- | []]]; apply Qc_is_canon; vm_compute; reflexivity | vm_compute; reflexivity].
Qed.

Print Assumptions C43_annual.
Print Assumptions C43_errors.
Print Assumptions C43_mean.
