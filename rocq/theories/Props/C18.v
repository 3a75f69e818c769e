(** C18: pvwatts_dc_power *)

From Coq Require Import QArith Qcanon List ZArith Bool Arith Lia Permutation Sorted.
From Verif.Base Require Import QcExtra ISort Quantile Fl TimeSeries Calendar Rolling.
From Verif.Spec Require Import Stats Interp Energy Filters Normalization.
From Verif.Model Require Import Interpolation Energy Filters Normalization.
From Verif.Proofs Require Import FiltersP NormP.
Import ListNotations.
Open Scope list_scope.
Open Scope Qc_scope.

(** Row by row, on the common index or the union of the two: rating times irradiance over
    the reference, times one plus gamma per degree above the reference temperature. *)
Theorem C18_value : forall poa temp rated ref tref gamma t x,
  NoDup (times poa) -> NoDup (times temp) -> noinf (vals poa) -> noinf (vals temp) -> ref <> 0 ->
  (In (t, x) (pvwatts_dc_power poa (Fin rated) (Some temp) (Fin ref) (Fin tref) (Some (Fin gamma))) <->
   (In t (times poa) \/ In t (times temp)) /\
   exists g c, value_at poa t g /\ value_at temp t c /\ x = pvwatts_value rated ref tref gamma g c).
Proof. exact pvwatts_with_temperature. Qed.

(** Without a temperature or without a coefficient the temperature plays no role. *)
Theorem C18_plain : forall poa temp gamma rated ref tref, noinf (vals poa) -> ref <> 0 -> temp = None \/ gamma = None ->
  pvwatts_dc_power poa (Fin rated) temp (Fin ref) tref gamma = map_values (fun g => rated * g / ref) poa.
Proof. exact pvwatts_plain. Qed.

(** Linear in irradiance and in rating. *)
Theorem C18_linear : forall c rated poa temp ref tref gamma, noinf (vals poa) ->
  (forall T, temp = Some T -> noinf (vals T)) -> ref <> 0 ->
  let out := pvwatts_dc_power poa (Fin rated) temp (Fin ref) (Fin tref) (option_map Fin gamma) in
  pvwatts_dc_power (map_values (fun g => c * g) poa) (Fin rated) temp (Fin ref) (Fin tref) (option_map Fin gamma) =
    map_values (fun p => c * p) out /\
  pvwatts_dc_power poa (Fin (c * rated)) temp (Fin ref) (Fin tref) (option_map Fin gamma) =
    map_values (fun p => c * p) out.
Proof. exact pvwatts_scale. Qed.

(** At the reference conditions the power is the rating, and each degree changes it by
    exactly gamma times the power at the reference temperature. *)
Theorem C18_reference : forall rated ref tref gamma, ref <> 0 ->
  pvwatts_value rated ref tref gamma (Fin ref) (Fin tref) = Fin rated.
Proof. intros rated ref tref gamma H. cbn [pvwatts_value]. f_equal. field. exact H. Qed.

Theorem C18_per_degree : forall rated ref tref gamma g c d, ref <> 0 ->
  exists p q, pvwatts_value rated ref tref gamma (Fin g) (Fin c) = Fin p /\
    pvwatts_value rated ref tref gamma (Fin g) (Fin (c + d)) = Fin q /\
    q - p = gamma * d * (rated * g / ref).
Proof.
  intros rated ref tref gamma g c d H. eexists. eexists. split; [reflexivity |]. split; [reflexivity |]. field. exact H.
Qed.

Example C18_example :
  pvwatts_dc_power [(0%Z, fz 1000); (10%Z, fz 500); (20%Z, NaN)] (fz 200) (Some [(0%Z, fz 25); (10%Z, fz 35); (30%Z, fz 20)])
    (fz 1000) (fz 25) (Some (ff (-4) 1000)) = [(0%Z, fz 200); (10%Z, fz 96); (20%Z, NaN); (30%Z, NaN)] /\
  pvwatts_dc_power [(0%Z, fz 1000); (10%Z, fz 500)] (fz 200) (Some [(0%Z, fz 45); (10%Z, fz 35)])
    (fz 1000) (fz 25) None = [(0%Z, fz 200); (10%Z, fz 100)].
Proof. split; fcompute. Qed.

Print Assumptions C18_reference.
Print Assumptions C18_per_degree.

Print Assumptions C18_value.
Print Assumptions C18_plain.
Print Assumptions C18_linear.
