(** C50: periodicity of seasonal components *)

From Coq Require Import QArith Qcanon List ZArith Bool Arith Lia Permutation Sorted.
From Verif.Base Require Import QcExtra ISort Quantile Fl TimeSeries Calendar Rolling.
From Verif.Spec Require Import Stats Seasonal.
From Verif.Model Require Import Soiling CodsTools.
From Verif.Proofs Require Import CodsP4.
Import ListNotations.
Open Scope list_scope.
Open Scope Qc_scope.
Open Scope Z_scope.

(** Medians over the years of the analysed part; day 366 is missing. *)
Theorem C50_period : forall s out, noinf (vals s) -> different_days s ->
  exists k o, analysed_part s k /\ force_periodicity s out = Ok o /\ times o = out /\
  forall t v, In (t, v) o -> (ts_doy t = 366 /\ v = NaN) \/ (1 <= ts_doy t <= 365 /\ median_or_missing (day_values k (ts_doy t)) v).
Proof. exact force_periodicity_spec. Qed.

Theorem C50_periodic : forall s out o t u v w, force_periodicity s out = Ok o ->
  In (t, v) o -> In (u, w) o -> ts_doy t = ts_doy u -> v = w.
Proof. exact force_periodicity_periodic. Qed.

Theorem C50_repeats : forall s out, ~ different_days s -> force_periodicity s out = Raise ValueError.
Proof. exact force_periodicity_repeats. Qed.

(** A signal of about a year (182 to 366 rows) gives missing values only. *)
Theorem C50_year : forall s out o, noinf (vals s) -> (182 <= Z.of_nat (List.length s) <= 366) -> force_periodicity s out = Ok o ->
  forall t v, In (t, v) o -> v = NaN.
Proof. exact force_periodicity_year. Qed.

(** A sample: the median of the values [shift - 1] days earlier (cyclically, without day 366), scaled around 1. *)
Theorem C50_sample : forall s m shift, noinf (vals s) -> finvals (vals s) <> [] ->
  times (seasonal_sample s (Fin m) shift) = times s /\
  forall t v, In (t, v) (seasonal_sample s (Fin m) shift) ->
    let d := (ts_doy t - shift) mod 365 + 1 in
    1 <= d <= 365 /\
    exists x, median_or_missing (day_values s d) x /\
      v = match x with Fin y => Fin (m * (y - qsum (finvals (vals s)) / qz (Z.of_nat (List.length (finvals (vals s))))) + 1)%Qc | _ => NaN end.
Proof. exact seasonal_sample_spec. Qed.

(** The samples of all signals, in order. *)
Theorem C50_samples : forall signals nr draw,
  match seasonal_samples signals nr draw with
  | Ok l => signals <> [] /\ Forall different_days signals /\ List.length l = (List.length signals * nr)%nat /\
      forall i j s, (j < nr)%nat -> nth_error signals i = Some s ->
        nth_error l (i * nr + j) = Some (seasonal_sample s (fst (draw i j)) (snd (draw i j)))
  | Raise e => (signals = [] /\ e = IndexError) \/ (signals <> [] /\ e = ValueError /\ ~ Forall different_days signals)
  end.
Proof. exact seasonal_samples_spec. Qed.

(** From 1 January 2020 (a leap year): value = year * 1000 + day of the year. *)
Definition jan_2020 : Z := (day_of_civil (mkdate 2020 1 1) * ns_day)%Z.
Definition on_days (l : list Z) : series := map (fun d => let t := (jan_2020 + d * ns_day)%Z in (t, fz ((ts_year t - 2020) * 1000 + ts_doy t))) l.
Definition years_of_data (n : nat) : series := on_days (map Z.of_nat (seq 0 n)).
(** 1 and 2 January, 31 December of three years, with one day missing. *)
Definition some_data : series := on_days [0; 365; 366; 367; 730; 731; 1095]%Z.
Definition some_days : list Z := map (fun d => (jan_2020 + d * ns_day)%Z) [0; 1; 59; 365; 366; 367]%Z.
Definition outcome (s : series) (days : list Z) : list fl := match force_periodicity s days with Ok o => vals o | _ => [] end.
Example C50_example : outcome some_data some_days = [fz 1001; fz 1002; NaN; NaN; fz 1001; fz 1002] /\
  outcome (years_of_data 366) some_days = repeat NaN 6 /\
  outcome (years_of_data 367) some_days = [NaN; fz 2; fz 60; NaN; NaN; fz 2] /\
  force_periodicity [(0, fz 1); (1, fz 2)]%Z some_days = Raise ValueError.
Proof. fcompute. Qed.

(** The analysed part has half a year less on both sides. *)
Lemma middle_cut : forall (s : series) (e : nat), (2 * e <= List.length s)%nat -> middle s (Z.of_nat e) (firstn (List.length s - 2 * e) (skipn e s)).
Proof.
  intros s e H. exists (firstn e s), (skipn (List.length s - 2 * e) (skipn e s)). split; [rewrite !firstn_skipn; reflexivity|].
  rewrite firstn_length, !skipn_length. split; lia.
Qed.
Example C50_hypotheses : noinf (vals (years_of_data 913)) /\ different_days (years_of_data 913) /\
  analysed_part (years_of_data 913) (firstn 553 (skipn 180 (years_of_data 913))) /\ analysed_part some_data some_data /\
  ~ different_days [(0, fz 1); (1, fz 2)].
Proof.
  assert (L : forall n, List.length (years_of_data n) = n) by (intro n; unfold years_of_data, on_days; rewrite !map_length, seq_length; reflexivity).
  split; [|split; [|split; [|split]]].
  - intros x Hx. unfold vals, years_of_data, on_days in Hx. rewrite map_map in Hx. apply in_map_iff in Hx. destruct Hx as (i & <- & _). split; discriminate.
  - unfold different_days, years_of_data, on_days. rewrite !map_map. apply FinFun.Injective_map_NoDup; [|apply seq_NoDup].
    intros a b. cbn [fst]. unfold jan_2020, ts_day. rewrite <- !Z.mul_add_distr_r, !Z.div_mul by discriminate. lia.
  - left. rewrite L. split; [lia|]. change 553%nat with (913 - 2 * 180)%nat. rewrite <- (L 913%nat) at 3. apply (middle_cut (years_of_data 913) 180). rewrite L. lia.
  - right. right. split; [discriminate|]. exists [], []. split; [cbn [app]; rewrite app_nil_r; reflexivity|]. split; reflexivity.
  - intro N. unfold different_days in N. cbn in N. inversion N as [|? ? N1 _]. apply N1. left. reflexivity.
Qed.

(** Without a shift the sample is the next day's value. *)
Example C50_shift : vals (seasonal_sample (years_of_data 4) (fz 1) 0) = [ff 1 2; ff 3 2; ff 5 2; NaN] /\
  vals (seasonal_sample (years_of_data 4) (fz 2) 1) = [fz (-2); fz 0; fz 2; fz 4].
Proof. fcompute. Qed.

Print Assumptions C50_period.
Print Assumptions C50_periodic.
Print Assumptions C50_repeats.
Print Assumptions C50_year.
Print Assumptions C50_sample.
Print Assumptions C50_samples.
