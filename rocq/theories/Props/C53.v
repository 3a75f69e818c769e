(** C53: a row survives exactly if it passes every configured filter *)

From Coq Require Import QArith Qcanon List ZArith Bool Arith Lia String Sorted.
From Verif.Base Require Import QcExtra ISort Quantile Fl TimeSeries Calendar Rolling.
From Verif.Spec Require Import FilterSets TrendRuns.
From Verif.Model Require Import Filters FilterDict TrendAnalysis.
From Verif.Proofs Require Import TrendP1 TrendP2.
Import ListNotations.
Open Scope list_scope.
Open Scope Qc_scope.

Section Claims.
Context {P W T O YK SK YR SR : Type}.
Local Notation env := (environment P W T O YK SK YR SR).
Local Notation st := (state P W T O YR SR).
Local Notation req := (@request YK SK).

(** The filter of the rows.  Success: the components are those of the configured filters in order, each applied to its data; the mask is on the union of all indexes and true exactly at the rows of the normalized energy that are true in each component and not excluded by hand; a missing value of the filter given by hand is False, also in the parameters afterwards.  Failure: the first filter that lacks something, is not given keyword arguments or raises, or a filter by hand that is no series or whose other index has duplicates; no mask is stored then. *)
Theorem C53_filter : forall (E : env) c energy (s : st),
  match filter_ E c energy s with
  | (s', Raise e) =>
    (components_fail E c energy s e /\ s' = s) \/
    (exists parts d idx, components_are E c energy s parts /\ common_index (times energy) parts idx /\ hand_fails (params_of s) idx e /\
       missing_excluded (params_of s) (contents d) /\ valid_keys d = valid_keys (c_params (s_completed s)) /\ s' = with_params s d)
  | (s', Ok _) =>
    exists parts d idx m stored, components_are E c energy s parts /\ common_index (times energy) parts idx /\ hand_ok (params_of s) /\ (forall e, ~ hand_fails (params_of s) idx e) /\
      missing_excluded (params_of s) (contents d) /\ valid_keys d = valid_keys (c_params (s_completed s)) /\
      mask_of idx (kept (times energy) parts (rows_by_hand (params_of s))) m /\ stored_parts idx parts (by_hand (params_of s)) stored /\
      s' = with_side c (with_params s d) (set_filter m stored)
  end.
Proof. exact filter_spec. Qed.

(** The filter of the aggregated rows. *)
Theorem C53_aggregated : forall (E : env) c aggregated insolation (s : st), d_insolation (side_of c s) = Present insolation ->
  match aggregated_filter E c aggregated s with
  | (s', Raise e) =>
    (aggregated_fail E aggregated insolation s e /\ s' = s) \/
    (exists parts d idx, aggregated_are E aggregated insolation s parts /\ common_index (times aggregated) parts idx /\ hand_fails (aggregated_params_of s) idx e /\
       missing_excluded (aggregated_params_of s) (contents d) /\ valid_keys d = valid_keys (c_params_aggregated (s_completed s)) /\ s' = with_params_aggregated s d)
  | (s', Ok _) =>
    exists parts d idx m stored, aggregated_are E aggregated insolation s parts /\ common_index (times aggregated) parts idx /\ hand_ok (aggregated_params_of s) /\ (forall e, ~ hand_fails (aggregated_params_of s) idx e) /\
      missing_excluded (aggregated_params_of s) (contents d) /\ valid_keys d = valid_keys (c_params_aggregated (s_completed s)) /\
      mask_of idx (kept (times aggregated) parts (rows_by_hand (aggregated_params_of s))) m /\ stored_parts idx parts (by_hand (aggregated_params_of s)) stored /\
      s' = with_side c (with_params_aggregated s d) (set_filter_aggregated m stored)
  end.
Proof. exact aggregated_filter_spec. Qed.

(** No filters: all rows. *)
Theorem C53_none : forall (E : env) energy (s : st), sorted_index energy -> (forall k, In k filter_order -> dget k (params_of s) = None) ->
  (dget "ad_hoc_filter" (params_of s) = None \/ dget "ad_hoc_filter" (params_of s) = Some NoValue) ->
  exists s', filter_ E Sensor energy s = (s', Ok tt) /\ s' = with_side Sensor s (set_filter (map (fun t => (t, true)) (times energy)) []).
Proof. exact filter_none. Qed.

Theorem C53_aggregated_none : forall (E : env) c aggregated insolation (s : st), sorted_index aggregated -> d_insolation (side_of c s) = Present insolation ->
  (forall k, In k aggregated_order -> dget k (aggregated_params_of s) = None) ->
  (dget "ad_hoc_filter" (aggregated_params_of s) = None \/ dget "ad_hoc_filter" (aggregated_params_of s) = Some NoValue) ->
  exists s', aggregated_filter E c aggregated s = (s', Ok tt) /\ s' = with_side c s (set_filter_aggregated (map (fun t => (t, true)) (times aggregated)) []).
Proof. exact aggregated_none. Qed.

(** More filters never add rows. *)
Theorem C53_more : forall (E : env) c energy (s : st) d s1 s2 m1 m2,
  (forall k v, dget k (params_of s) = Some v -> dget k (contents d) = Some v \/ (k = "ad_hoc_filter"%string /\ v = NoValue)) ->
  filter_ E c energy s = (s1, Ok tt) -> filter_ E c energy (with_params s d) = (s2, Ok tt) ->
  d_filter (side_of c s1) = Present m1 -> d_filter (side_of c s2) = Present m2 ->
  forall t, In (t, true) m2 -> In (t, true) m1.
Proof. exact filter_more. Qed.

Theorem C53_aggregated_more : forall (E : env) c aggregated insolation (s : st) d s1 s2 m1 m2, d_insolation (side_of c s) = Present insolation ->
  (forall k v, dget k (aggregated_params_of s) = Some v -> dget k (contents d) = Some v \/ (k = "ad_hoc_filter"%string /\ v = NoValue)) ->
  aggregated_filter E c aggregated s = (s1, Ok tt) -> aggregated_filter E c aggregated (with_params_aggregated s d) = (s2, Ok tt) ->
  d_filter_aggregated (side_of c s1) = Present m1 -> d_filter_aggregated (side_of c s2) = Present m2 ->
  forall t, In (t, true) m2 -> In (t, true) m1.
Proof. exact aggregated_more. Qed.

(** The default filters of sensor data: a row needs normalized energy above 0.01 and below infinity, irradiance between 200 and 1200, cell temperature between -50 and 110, and passing the clipping filter. *)
Theorem C53_default : forall (E : env) energy (s : st) s' poa cell power none clip,
  e_normalized E none = (fun x => Ok (normalized_filter (Some (ff 1 100)) None x)) ->
  e_poa E none = (fun x => Ok (poa_filter (fz 200) (fz 1200) x)) ->
  e_tcell E none = (fun x => Ok (tcell_filter (fz (-50)) (fz 110) x)) ->
  e_clip E none power = Ok clip ->
  contents (c_params (s_completed s)) = [("normalized_filter", Kwargs none); ("poa_filter", Kwargs none); ("tcell_filter", Kwargs none); ("clip_filter", Kwargs none); ("clearsky_filter", Kwargs none); ("ad_hoc_filter", NoValue)]%string ->
  i_poa (s_inputs s) = Some poa -> c_cell (s_completed s) = Some cell -> i_power (s_inputs s) = Present power ->
  sorted_index energy -> sorted_index poa -> sorted_index cell ->
  filter_ E Sensor energy s = (s', Ok tt) ->
  exists m, d_filter (s_sensor s') = Present m /\ forall t, In (t, true) m <->
    row_value energy t (fun v => fgt v (ff 1 100) = true /\ flt v PInf = true) /\
    row_value poa t (fun v => fgt v (fz 200) = true /\ flt v (fz 1200) = true) /\
    row_value cell t (fun v => fgt v (fz (-50)) = true /\ flt v (fz 110) = true) /\ holds clip t.
Proof. exact filter_default. Qed.

End Claims.

Definition above (n : nat) (s : series) : result mask := Ok (where_ (fun v => fgt v (fz (Z.of_nat n))) s).
Definition demo_env : environment nat unit unit unit unit unit nat nat :=
  Environment (fun _ => None) (fun _ => None) (fun _ x => x) tt tt (fun _ _ a _ => Ok a) (fun _ _ _ => Raise ValueError) (fun _ _ => Raise ValueError)
    above above above above (fun n _ s => above n s) (fun n s _ => above n s) above above above above
    (fun _ s => Ok (List.length s)) (fun _ s _ => Ok (List.length s)).
Definition demo_poa : series := [(2%Z, fz 7); (3%Z, fz 7); (4%Z, fz 7); (5%Z, fz 7); (6%Z, fz 7)].
Definition demo_energy : series := [(1%Z, fz 2); (2%Z, fz 2); (3%Z, NaN); (4%Z, fz 2); (5%Z, fz 2)].
Definition demo (params : list (string * setting nat)) : state nat unit unit unit nat nat :=
  State (Inputs Absent (Present demo_energy) (Some demo_poa) None None ns_day tt None None None Unset None)
        (Completed None None Unset Unset Unset (Validated valid_filter_params params) (Validated valid_filter_params_aggregated [])) empty_side empty_side.
Definition by_hand_demo : list (Z * option bool) := [(2%Z, None); (4%Z, Some true); (5%Z, Some false)].
Definition filter_of (params : list (string * setting nat)) : result (list (Z * bool)) :=
  match filter_ demo_env Sensor demo_energy (demo params) with
  | (s, Ok _) => match d_filter (s_sensor s) with Present m => Ok m | _ => Raise KeyError end
  | (_, Raise e) => Raise e end.
(** 1 has no irradiance, 2 a missing value by hand, 3 no energy, 5 is excluded by hand, 6 is no row. *)
Example C53_example :
  filter_of [("poa_filter", Kwargs 5%nat); ("ad_hoc_filter", AdHoc by_hand_demo); ("normalized_filter", Kwargs 1%nat)]%string =
    Ok [(1, false); (2, false); (3, false); (4, true); (5, false); (6, false)]%Z /\
  filter_of [("normalized_filter", Kwargs 1%nat); ("ad_hoc_filter", NoValue)]%string = Ok [(1, true); (2, true); (3, false); (4, true); (5, true)]%Z /\
  filter_of [] = Ok [(1, true); (2, true); (3, true); (4, true); (5, true)]%Z /\
  filter_of [("clip_filter", Kwargs 1%nat)]%string = Raise ValueError /\
  filter_of [("hour_angle_filter", Kwargs 1%nat)]%string = Raise ValueError /\
  filter_of [("sensor_clearsky_filter", Kwargs 1%nat)]%string = Raise AttributeError /\
  filter_of [("poa_filter", NoValue)]%string = Raise TypeError /\
  filter_of [("ad_hoc_filter", AdHoc [(7, None); (7, None)]%Z)]%string = Raise ValueError /\
  filter_of [("ad_hoc_filter", AdHoc [(7, None)]%Z)]%string = Ok [(1, true); (2, true); (3, true); (4, true); (5, true)]%Z.
Proof. repeat split; vm_compute; reflexivity. Qed.
Example C53_by_hand_example :
  contents (c_params (s_completed (fst (filter_ demo_env Sensor demo_energy (demo [("ad_hoc_filter"%string, AdHoc by_hand_demo)]))))) =
    [("ad_hoc_filter"%string, AdHoc [(2%Z, Some false); (4%Z, Some true); (5%Z, Some false)])].
Proof. vm_compute. reflexivity. Qed.
Example C53_hypotheses : sorted_index demo_energy /\ sorted_index demo_poa.
Proof. split; repeat constructor. Qed.

Print Assumptions C53_filter.
Print Assumptions C53_aggregated.
Print Assumptions C53_none.
Print Assumptions C53_aggregated_none.
Print Assumptions C53_more.
Print Assumptions C53_aggregated_more.
Print Assumptions C53_default.
