(** C52: filter parameter dictionaries only hold valid keys *)

From Coq Require Import QArith Qcanon List ZArith Bool Arith Lia String.
From Verif.Base Require Import QcExtra ISort Quantile Fl TimeSeries Calendar Rolling.
From Verif.Spec Require Import Dict.
From Verif.Model Require Import FilterDict.
From Verif.Proofs Require Import DictP.
Import ListNotations.
Open Scope list_scope.
Open Scope nat_scope.

(** Construction fails exactly if a key is not valid; otherwise the last value of each key counts. *)
Theorem C52_construct : forall (V : Type) valid (a : argument V) kwargs,
  (only valid (first_reading a ++ kwargs) -> exists d, construct valid a kwargs = Ok (Validated valid d) /\ put_all [] (first_reading a ++ kwargs) d) /\
  (~ only valid (first_reading a ++ kwargs) -> construct valid a kwargs = Raise KeyError).
Proof. exact @construct_spec. Qed.

(** Assignment of an item. *)
Theorem C52_set_item : forall (V : Type) k v (d : validated V), is_dict (contents d) ->
  (In k (valid_keys d) -> exists e, set_item k v d = Ok (Validated (valid_keys d) e) /\ put_all (contents d) [(k, v)] e) /\
  (~ In k (valid_keys d) -> set_item k v d = Raise KeyError).
Proof. exact @set_item_spec. Qed.

(** Update: checked with the first reading of its argument, done with the second. *)
Theorem C52_update : forall (V : Type) (a : argument V) kwargs (d : validated V), is_dict (contents d) ->
  (only (valid_keys d) (first_reading a ++ kwargs) -> exists e, update a kwargs d = Ok (Validated (valid_keys d) e) /\ put_all (contents d) (second_reading a ++ kwargs) e) /\
  (~ only (valid_keys d) (first_reading a ++ kwargs) -> update a kwargs d = Raise KeyError).
Proof. exact @update_spec. Qed.

(** Deletion of an item. *)
Theorem C52_delete : forall (V : Type) k (d : validated V),
  (In k (map fst (contents d)) -> exists e, delete k d = Ok (Validated (valid_keys d) e) /\ without k (contents d) e) /\
  (~ In k (map fst (contents d)) -> delete k d = Raise KeyError).
Proof. exact @delete_spec. Qed.

(** popitem takes the last item. *)
Theorem C52_pop_item : forall (V : Type) (d : validated V),
  (contents d = [] -> pop_item d = Raise KeyError) /\ (forall e p, contents d = e ++ [p] -> pop_item d = Ok (Validated (valid_keys d) e)).
Proof. exact @pop_item_spec. Qed.

(** Pickling gives the same object if all keys are valid and fails otherwise. *)
Theorem C52_pickle : forall (V : Type) (d : validated V), is_dict (contents d) ->
  (only (valid_keys d) (contents d) -> unpickled d = Ok d) /\ (~ only (valid_keys d) (contents d) -> unpickled d = Raise KeyError).
Proof. exact @unpickled_spec. Qed.

(** After construction and any operations that are checked, failing or not, the keys are valid and distinct, and pickling gives the same object. *)
Theorem C52_history : forall (V : Type) valid (a : argument V) kwargs (d : validated V) (os : list (operation V)), construct valid a kwargs = Ok d ->
  Forall (fun o => match o with SetDefault _ _ | InPlaceUnion _ => False | _ => True end) os ->
  is_dict (contents (history os d)) /\ only valid (contents (history os d)) /\ valid_keys (history os d) = valid /\ unpickled (history os d) = Ok (history os d).
Proof. exact @life. Qed.

(** A failing operation raises KeyError and changes nothing. *)
Theorem C52_rejected : forall (V : Type) (o : operation V) (d : validated V) e, operate o d = Raise e -> after o d = d /\ e = KeyError.
Proof. exact @failed_keeps. Qed.

(** Assignment of the whole attribute. *)
Theorem C52_assign : forall (V : Type) valid (new : option (dict V)) old,
  match new with
  | None => assign valid new = Raise ValueError /\ assigned valid new old = old
  | Some items => is_dict items -> (only valid items -> assigned valid new old = Validated valid items) /\ (~ only valid items -> assign valid new = Raise KeyError /\ assigned valid new old = old)
  end.
Proof. exact @assign_spec. Qed.

(** Initial parameters. *)
Theorem C52_initial : forall (V : Type) (empty none : V) (power_expected temperature_cell : bool), exists d,
  initial_params empty none power_expected temperature_cell = Ok (Validated valid_filter_params d) /\ sound (Validated valid_filter_params d) /\
  map fst d = (["normalized_filter"; "poa_filter"]%string ++ (if power_expected && negb temperature_cell then [] else ["tcell_filter"%string]) ++ ["clip_filter"; "clearsky_filter"; "ad_hoc_filter"]%string) /\
  (forall k v, In (k, v) d -> v = if string_dec k "ad_hoc_filter" then none else empty).
Proof. exact @initial_params_spec. Qed.

(** Initial parameters for aggregated data. *)
Theorem C52_initial_aggregated : forall (V : Type) (empty none : V),
  initial_params_aggregated empty none = Ok (Validated valid_filter_params_aggregated [("two_way_window_filter", empty); ("ad_hoc_filter", none)]%string).
Proof. exact @initial_params_aggregated_spec. Qed.

(** The parameters that can be set on a new analysis are exactly the filters it knows. *)
Theorem C52_accepted : forall (V : Type) (empty none v : V) (power_expected temperature_cell : bool) d k,
  initial_params empty none power_expected temperature_cell = Ok d ->
  (exists e, set_item k v d = Ok e) <->
  In k ["normalized_filter"; "poa_filter"; "tcell_filter"; "clip_filter"; "hour_angle_filter"; "clearsky_filter"; "sensor_clearsky_filter"; "ad_hoc_filter"]%string.
Proof. exact @accepted_keys. Qed.
Theorem C52_accepted_aggregated : forall (V : Type) (empty none v : V) d k, initial_params_aggregated empty none = Ok d ->
  (exists e, set_item k v d = Ok e) <->
  In k ["two_way_window_filter"; "insolation_filter"; "hampel_filter"; "directional_tukey_filter"; "ad_hoc_filter"]%string.
Proof. exact @accepted_keys_aggregated. Qed.

(** setdefault and in-place union do not check; the object cannot be unpickled then. *)
Theorem C52_bypassed : forall (V : Type) k v (d : validated V), is_dict (contents d) -> ~ In k (valid_keys d) -> ~ In k (map fst (contents d)) ->
  (exists e, set_default k v d = Ok e /\ in_place_union (Pairs [(k, v)]) d = Ok e /\ put_all (contents d) [(k, v)] (contents e) /\ ~ only (valid_keys e) (contents e) /\ unpickled e = Raise KeyError).
Proof. exact @bypassed. Qed.

(** Not every operation keeps the keys valid. *)
Theorem C52_always_valid_refuted : ~ forall (V : Type) valid (a : argument V) kwargs d os, construct valid a kwargs = Ok d -> only valid (contents (history os d)).
Proof. exact @always_valid_refuted. Qed.

(** An update from an iterator does not put its items. *)
Theorem C52_update_iterator_refuted : ~ forall (V : Type) (l kwargs : list (string * V)) d e, update (Once l) kwargs d = Ok e -> put_all (contents d) (l ++ kwargs) (contents e).
Proof. exact @update_iterator_refuted. Qed.

Definition two : validated nat := Validated ["a"; "b"; "c"]%string [("b", 1); ("a", 2)]%string.
Example C52_example :
  construct ["a"; "b"; "c"]%string (Pairs [("b", 0); ("a", 2)]%string) [("b", 1)]%string = Ok two /\
  construct ["a"; "b"]%string (Pairs [("b", 0); ("z", 2)]%string) [] = Raise KeyError /\
  history [Update (Pairs [("c", 3); ("z", 4)]%string) []; SetItem "b"%string 5; Update (Once [("a", 7)]%string) [("c", 6)]%string; Delete "z"%string; Pickle] two = Validated ["a"; "b"; "c"]%string [("b", 5); ("a", 2); ("c", 6)]%string /\
  pop_item two = Ok (Validated ["a"; "b"; "c"]%string [("b", 1)]%string).
Proof. repeat split. Qed.
Example C52_hypotheses : is_dict (contents two) /\ only (valid_keys two) (contents two) /\ ~ In "z"%string (valid_keys two) /\ ~ In "z"%string (map fst (contents two)).
Proof.
  split; [repeat constructor; cbn; intuition discriminate|]. split; [intros k [<-|[<-|[]]]; cbn; tauto|]. split; cbn; intuition discriminate.
Qed.
Example C52_default_example : initial_params 0 1 true false = Ok (Validated valid_filter_params [("normalized_filter", 0); ("poa_filter", 0); ("clip_filter", 0); ("clearsky_filter", 0); ("ad_hoc_filter", 1)]%string).
Proof. reflexivity. Qed.

Print Assumptions C52_construct.
Print Assumptions C52_set_item.
Print Assumptions C52_update.
Print Assumptions C52_delete.
Print Assumptions C52_pop_item.
Print Assumptions C52_pickle.
Print Assumptions C52_history.
Print Assumptions C52_rejected.
Print Assumptions C52_assign.
Print Assumptions C52_initial.
Print Assumptions C52_initial_aggregated.
Print Assumptions C52_accepted.
Print Assumptions C52_accepted_aggregated.
Print Assumptions C52_bypassed.
Print Assumptions C52_always_valid_refuted.
Print Assumptions C52_update_iterator_refuted.
