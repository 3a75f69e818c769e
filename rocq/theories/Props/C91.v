(** C91: records at another time *)

From Coq Require Import QArith Qcanon List ZArith Bool Arith Lia Permutation Sorted.
From Verif.Base Require Import QcExtra ISort Quantile Fl TimeSeries Calendar Rolling.
From Verif.Spec Require Import Delay.
From Verif.Model Require Import Utilities Interpolation Energy Normalization Filters Clipping Availability.
From Verif.Proofs Require Import DelayP DelayP2.
Import ListNotations.
Open Scope list_scope.
Open Scope Qc_scope.
From Verif.Props Require C90.

(** Interpolating a later record gives the later result, for given times or a frequency. *)
Theorem C91_interpolate : forall d, forall tz tz' s t m, interpolate tz tz' (delayed d s) (target_delayed d t) m = then_delayed d (interpolate tz tz' s t m).
Proof. exact interpolate_delay. Qed.

(** Energies of a later record are the later energies, by any number of nanoseconds and with the same exceptions. *)
Theorem C91_energy : forall d, forall freq s target m pt, energy_from_power freq (delayed d s) target m pt = then_delayed d (energy_from_power freq s target m pt).
Proof. exact energy_delay. Qed.

(** PVWatts power. *)
Theorem C91_pvwatts : forall d, forall poa rated cell ref tref gamma,
  pvwatts_dc_power (delayed d poa) rated (option_map (delayed d) cell) ref tref gamma = delayed d (pvwatts_dc_power poa rated cell ref tref gamma).
Proof. exact pvwatts_delay. Qed.

(** Normalization, if frequencies are recognised at any time. *)
Theorem C91_normalize : forall d, forall infer pv_freq model_freq pv expected poa kind, (forall l, infer (all_delayed d l) = infer l) ->
  normalize_with_expected_power infer pv_freq model_freq (delayed d pv) (delayed d expected) (delayed d poa) kind =
  both_delayed d (normalize_with_expected_power infer pv_freq model_freq pv expected poa kind).
Proof. exact normalize_delay. Qed.

(** Daily values, later by whole days. *)
Theorem C91_days : forall d, (ns_day | d)%Z -> forall energy insolation w, aggregation_insol (delayed d energy) (delayed d insolation) w = delayed d (aggregation_insol energy insolation w).
Proof. exact aggregation_delay. Qed.

(** Filters. *)
Theorem C91_filters : forall d, forall low high lo hi threshold quantile sp k t0 s s',
  normalized_filter low high (delayed d s) = delayed d (normalized_filter low high s) /\
  poa_filter lo hi (delayed d s) = delayed d (poa_filter lo hi s) /\
  tcell_filter lo hi (delayed d s) = delayed d (tcell_filter lo hi s) /\
  csi_filter threshold (delayed d s) (delayed d s') = delayed d (csi_filter threshold s s') /\
  quantile_clip_filter quantile (delayed d s) = delayed d (quantile_clip_filter quantile s) /\
  insolation_filter quantile (delayed d s) = delayed d (insolation_filter quantile s) /\
  two_way_window_filter sp threshold (delayed d s) = delayed d (two_way_window_filter sp threshold s) /\
  hampel_filter sp t0 (delayed d s) = delayed d (hampel_filter sp t0 s) /\
  directional_tukey_filter sp k (delayed d s) = delayed d (directional_tukey_filter sp k s).
Proof. exact filters_delay. Qed.

(** The availability analysis: with the periods moved as well, nothing changes. *)
Theorem C91_availability : forall d, forall freq index n system rows meter expected low sizes limits q period period', (forall t, period' (t + d)%Z = period t) ->
  run freq (all_delayed d index) n system rows meter expected low sizes limits q period' = run freq index n system rows meter expected low sizes limits q period.
Proof. exact run_delay. Qed.

(** Half-hourly power over two days with a gap, and the same three hours or five days later. *)
Definition minute30 : Z := 1800000000000%Z.
Definition sample : series := combine (map (fun k => (minute30 * k)%Z) [20; 21; 22; 23; 30; 31; 33; 60; 61; 62; 63; 64]%Z)
  [fz 4; fz 6; NaN; fz 5; fz 2; fz 9; fz 3; fz 7; fz 7; NaN; fz 8; fz 1].
Definition some_light : series := on_values (fun v => if isnan v then fz 100 else fmul (fz 50) v) sample.
Definition five_days : Z := (5 * ns_day)%Z.
Definition three_hours : Z := (6 * minute30)%Z.
Definition always (l : list Z) : option Z := Some minute30.
Example C91_example :
  match energy_from_power None sample (Some (4 * minute30)%Z) (Some (qz (8 * minute30))) Instantaneous, energy_from_power None (delayed three_hours sample) (Some (4 * minute30)%Z) (Some (qz (8 * minute30))) Instantaneous with
  | Ok e, Ok e' => e' = delayed three_hours e /\ existsb (fun v => feq v (ff 291 28)) (vals e) = true /\ e' <> e
  | _, _ => False end.
Proof. vm_compute. repeat split; discriminate. Qed.
Example C91_normalize_example :
  match normalize_with_expected_power always None None (delayed three_hours sample) (delayed three_hours some_light) (delayed three_hours some_light) PvPower,
        normalize_with_expected_power always None None sample some_light some_light PvPower with
  | Ok (n', i'), Ok (n, i) => n' = delayed three_hours n /\ i' = delayed three_hours i /\ existsb (fun v => feq v (ff 1 50)) (vals n) = true
  | _, _ => False end.
Proof. vm_compute. auto. Qed.
Example C91_filters_example :
  let f := two_way_window_filter (ByTime (60 * minute30)) (ff 1 10) in
  map snd (f sample) <> map (fun _ => true) sample /\ times (map (fun r => (fst r, fz 0)) (f (delayed three_hours sample))) = all_delayed three_hours (times sample).
Proof. vm_compute. split; [discriminate|reflexivity]. Qed.
(** Energy by day: five days later is the same, three hours later is not. *)
Example C91_days_example : (ns_day | five_days)%Z /\ map snd (aggregation_insol sample some_light ns_day) = map snd (aggregation_insol (delayed five_days sample) (delayed five_days some_light) ns_day).
Proof. split; [exists 5%Z; reflexivity|vm_compute; reflexivity]. Qed.
Theorem C91_hours_refuted : exists d energy light, aggregation_insol (delayed d energy) (delayed d light) ns_day <> delayed d (aggregation_insol energy light ns_day).
Proof. exists three_hours, sample, some_light. vm_compute. discriminate. Qed.
(** The availability of C90's inverters does not depend on the day. *)
Example C91_availability_example :
  run (Some C90.hour) (all_delayed five_days C90.hours) 3 C90.system C90.inverters C90.meter C90.hoped None None None (qf 1 100, qf 99 100) (fun t => ((t - five_days) / ns_day)%Z) =
  run (Some C90.hour) C90.hours 3 C90.system C90.inverters C90.meter C90.hoped None None None (qf 1 100, qf 99 100) (fun t => (t / ns_day)%Z).
Proof. apply C91_availability. intros t. f_equal. ring. Qed.
Print Assumptions C91_hours_refuted.

Print Assumptions C91_interpolate.
Print Assumptions C91_energy.
Print Assumptions C91_pvwatts.
Print Assumptions C91_normalize.
Print Assumptions C91_days.
Print Assumptions C91_filters.
Print Assumptions C91_availability.
