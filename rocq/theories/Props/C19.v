(** C19: normalize_with_expected_power and normalize_with_pvwatts *)

From Coq Require Import QArith Qcanon List ZArith Bool Arith Lia Permutation Sorted.
From Verif.Base Require Import QcExtra ISort Quantile Fl TimeSeries Calendar Rolling.
From Verif.Spec Require Import Stats Interp Energy Filters Normalization.
From Verif.Model Require Import Interpolation Energy Filters Normalization.
From Verif.Proofs Require Import FiltersP NormP NormP2.
Import ListNotations.
Open Scope list_scope.
Open Scope Qc_scope.

(** The result at each time is measured energy over the energy of the expected power, next to
    the insolation; the model and the irradiance are first interpolated to the measured index
    exactly when the average step of the model is longer than that of the measured energy. *)
Theorem C19_ratio : forall infer pf mf pv model poa kind en ins,
  sorted_index pv -> freq_ok infer pf (times pv) ->
  normalize_with_expected_power infer pf mf pv model poa kind = Ok (en, ins) ->
  exists w e power poa' ee ii,
    (pf = Some w \/ pf = None /\ infer (times pv) = Some w) /\
    (kind = PvPower /\ energy_from_power pf pv (Some w) None RightLabeled = Ok e \/ kind = PvEnergy /\ e = pv) /\
    (let ef := match kind with PvPower => Some w | _ => pf end in
     (slower mf (times model) ef (times e) ->
        interpolate true true model (TIndex (times pv)) None = Ok power /\
        interpolate true true poa (TIndex (times pv)) None = Ok poa') /\
     (~ slower mf (times model) ef (times e) -> power = model /\ poa' = poa)) /\
    energy_from_power None power (Some w) None RightLabeled = Ok ee /\
    energy_from_power None poa' (Some w) None RightLabeled = Ok ii /\
    times en = times ins /\ StronglySorted Z.lt (times en) /\
    (forall t, In t (times en) <-> In t (times e) \/ In t (times ee) \/ In t (times ii)) /\
    (forall t x p q, In (t, x) en -> value_at e t p -> value_at ee t q -> x = fdiv p q) /\
    (forall t x, In (t, x) ins -> value_at ii t x).
Proof. exact normalize_spec. Qed.

(** Without a frequency, or with an unknown kind of input, nothing is returned. *)
Theorem C19_errors : forall infer pf mf pv model poa kind,
  (pf = None -> infer (times pv) = None ->
     normalize_with_expected_power infer pf mf pv model poa kind = Raise ValueError) /\
  normalize_with_expected_power infer pf mf pv model poa PvOther = Raise ValueError.
Proof. exact normalize_errors. Qed.

(** A model whose energy is the measured energy gives 1 where that energy is not zero, and NaN
    elsewhere. *)
Theorem C19_one : forall infer pf mf pv model poa kind en ins w e,
  sorted_index pv -> freq_ok infer pf (times pv) ->
  normalize_with_expected_power infer pf mf pv model poa kind = Ok (en, ins) ->
  (pf = Some w \/ pf = None /\ infer (times pv) = Some w) ->
  (kind = PvPower /\ energy_from_power pf pv (Some w) None RightLabeled = Ok e \/ kind = PvEnergy /\ e = pv) ->
  ~ slower mf (times model) (match kind with PvPower => Some w | _ => pf end) (times e) ->
  energy_from_power None model (Some w) None RightLabeled = Ok e ->
  forall t x, In (t, x) en ->
    (x = Fin 1 \/ x = NaN) /\ (x = Fin 1 <-> exists q, In (t, Fin q) e /\ q <> 0).
Proof. exact normalize_one. Qed.

(** In particular measured power normalised by itself. *)
Theorem C19_self : forall infer pf mf pv poa en ins,
  sorted_index pv -> freq_ok infer pf (times pv) -> mf = pf \/ mf = None ->
  normalize_with_expected_power infer pf mf pv pv poa PvPower = Ok (en, ins) ->
  exists w e, (pf = Some w \/ pf = None /\ infer (times pv) = Some w) /\
    energy_from_power pf pv (Some w) None RightLabeled = Ok e /\
    forall t x, In (t, x) en ->
      (x = Fin 1 \/ x = NaN) /\ (x = Fin 1 <-> exists q, In (t, Fin q) e /\ q <> 0).
Proof. exact normalize_self. Qed.

(** Multiplying measured by a and expected by b multiplies the result by a/b (so a = b changes
    nothing) and leaves the insolation alone. *)
Theorem C19_units : forall a b infer pf mf pv model poa kind,
  0 < a -> 0 < b ->
  normalize_with_expected_power infer pf mf (map_values (fun q => a * q) pv) (map_values (fun q => b * q) model) poa kind =
  match normalize_with_expected_power infer pf mf pv model poa kind with
  | Ok (en, ins) => Ok (map_values (fun q => a / b * q) en, ins)
  | Raise x => Raise x
  end.
Proof. exact normalize_units. Qed.

(** normalize_with_pvwatts: the measured energy over the energy of the PVWatts power. *)
Theorem C19_pvwatts : forall infer ef pf energy poa rated T ref tref gamma en ins,
  sorted_index energy -> sorted_index poa -> sorted_index T -> noinf (vals poa) -> noinf (vals T) -> ref <> 0 ->
  freq_ok infer ef (times energy) ->
  normalize_with_pvwatts infer ef pf energy poa (Fin rated) (Some T) (Fin ref) (Fin tref) (Some (Fin gamma)) = Ok (en, ins) ->
  exists w model power poa' ee ii,
    (ef = Some w \/ ef = None /\ infer (times energy) = Some w) /\
    sorted_index model /\
    (forall t x, In (t, x) model <-> (In t (times poa) \/ In t (times T)) /\
       exists g c, value_at poa t g /\ value_at T t c /\ x = pvwatts_value rated ref tref gamma g c) /\
    (slower pf (times model) ef (times energy) ->
       interpolate true true model (TIndex (times energy)) None = Ok power /\
       interpolate true true poa (TIndex (times energy)) None = Ok poa') /\
    (~ slower pf (times model) ef (times energy) -> power = model /\ poa' = poa) /\
    energy_from_power None power (Some w) None RightLabeled = Ok ee /\
    energy_from_power None poa' (Some w) None RightLabeled = Ok ii /\
    (forall t, In t (times en) <-> In t (times energy) \/ In t (times ee) \/ In t (times ii)) /\
    times en = times ins /\
    (forall t x p q, In (t, x) en -> value_at energy t p -> value_at ee t q -> x = fdiv p q) /\
    (forall t x, In (t, x) ins -> value_at ii t x).
Proof. exact pvwatts_ratio. Qed.

(** Scaling the rating by c divides the normalised energy by c. *)
Theorem C19_rating : forall c infer ef pf energy poa rated temp ref tref gamma, 0 < c ->
  normalize_with_pvwatts infer ef pf energy poa (Fin (c * rated)) temp ref tref gamma =
  match normalize_with_pvwatts infer ef pf energy poa (Fin rated) temp ref tref gamma with
  | Ok (en, ins) => Ok (map_values (fun q => 1 / c * q) en, ins)
  | Raise x => Raise x
  end.
Proof. exact pvwatts_rating. Qed.

Definition hour (h : Z) : Z := (h * 3600000000000)%Z.
Definition demo_pv : series := [(hour 0, fz 0); (hour 1, fz 100); (hour 2, fz 300); (hour 3, fz 0)].
Definition demo_model : series := [(hour 0, fz 0); (hour 1, fz 200); (hour 2, fz 300); (hour 3, fz 0)].
Definition demo_poa : series := [(hour 0, fz 0); (hour 1, fz 400); (hour 2, fz 800); (hour 3, fz 0)].
Example C19_example :
  normalize_with_expected_power (fun _ => Some (hour 1)) None None demo_pv demo_model demo_poa PvPower =
    Ok ([(hour 1, ff 1 2); (hour 2, fz 1); (hour 3, NaN)], [(hour 1, fz 400); (hour 2, fz 800); (hour 3, fz 0)]) /\
  normalize_with_expected_power (fun _ => Some (hour 1)) (Some (hour 1)) None demo_pv demo_pv demo_poa PvPower =
    Ok ([(hour 1, fz 1); (hour 2, fz 1); (hour 3, NaN)], [(hour 1, fz 400); (hour 2, fz 800); (hour 3, fz 0)]) /\
  freq_ok (fun _ => Some (hour 1)) None (times demo_pv) /\ sorted_index demo_pv.
Proof.
  split; [fcompute |]. split; [fcompute |]. split.
  - split; intros w E; [discriminate |]. injection E as <-. split; [reflexivity |]. split; [exists 0%Z; reflexivity | cbn; lia].
  - repeat constructor.
Qed.

(** A model every two hours is interpolated to the hourly index. *)
Definition coarse : series := [(hour 0, fz 0); (hour 2, fz 200); (hour 4, fz 400)].
Definition hourly : series := [(hour 0, fz 0); (hour 1, fz 50); (hour 2, fz 100); (hour 3, fz 150); (hour 4, fz 400)].
Example C19_slower : slower None (times coarse) None (times hourly) /\
  normalize_with_expected_power (fun _ => Some (hour 1)) None None hourly coarse coarse PvEnergy =
    Ok ([(hour 0, NaN); (hour 1, ff 1 2); (hour 2, ff 1 2); (hour 3, ff 1 2); (hour 4, fz 1)],
        [(hour 0, NaN); (hour 1, fz 100); (hour 2, fz 200); (hour 3, fz 300); (hour 4, fz 400)]).
Proof.
  split; [| fcompute]. exists (qz (hour 2)), (qz (hour 1)). split; [| split; [| reflexivity]].
  - split; [discriminate |]. exists (hour 0), (hour 4), [hour 2; hour 4], [hour 0; hour 2]. repeat split; discriminate.
  - split; [discriminate |]. exists (hour 0), (hour 4), [hour 1; hour 2; hour 3; hour 4], [hour 0; hour 1; hour 2; hour 3]. repeat split; discriminate.
Qed.

Print Assumptions C19_rating.

Print Assumptions C19_ratio.
Print Assumptions C19_errors.
Print Assumptions C19_one.
Print Assumptions C19_self.
Print Assumptions C19_units.
Print Assumptions C19_pvwatts.
