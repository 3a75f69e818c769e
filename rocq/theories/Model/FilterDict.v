(** rdtools/analysis_chains.py: ValidatedFilterDict, 1273-1297, and the filter parameters of
    TrendAnalysis, 157-230.  Keys are strings; values are of any type. *)

From Coq Require Import List ZArith Bool Arith String.
From Verif.Base Require Import Fl.
Import ListNotations.
Open Scope list_scope.

(** ** Python's dict (insertion order) *)
Definition dict (V : Type) : Type := list (string * V).
Fixpoint dset {V} (k : string) (v : V) (d : dict V) : dict V :=
  match d with
  | [] => [(k, v)]
  | p :: d' => if String.eqb (fst p) k then (fst p, v) :: d' else p :: dset k v d'
  end.
Definition dset_all {V} (items : list (string * V)) (d : dict V) : dict V := fold_left (fun d p => dset (fst p) (snd p) d) items d.
Fixpoint dget {V} (k : string) (d : dict V) : option V :=
  match d with [] => None | p :: d' => if String.eqb (fst p) k then Some (snd p) else dget k d' end.
Fixpoint ddel {V} (k : string) (d : dict V) : dict V :=
  match d with [] => [] | p :: d' => if String.eqb (fst p) k then d' else p :: ddel k d' end.
Definition dhas {V} (k : string) (d : dict V) : bool := match dget k d with Some _ => true | None => false end.
Definition keys {V} (d : dict V) : list string := map fst d.

(** The positional argument of [dict(...)] and [update(...)]: none, a mapping or a sequence of
    pairs, or an iterator, which yields its pairs once. *)
Inductive argument (V : Type) : Type := Nothing | Pairs (l : list (string * V)) | Once (l : list (string * V)).
Arguments Nothing {V}.
Arguments Pairs {V} l.
Arguments Once {V} l.
Definition first_reading {V} (a : argument V) : list (string * V) := match a with Nothing => [] | Pairs l => l | Once l => l end.
Definition second_reading {V} (a : argument V) : list (string * V) := match a with Nothing => [] | Pairs l => l | Once _ => [] end.

(** ** ValidatedFilterDict *)
Record validated (V : Type) : Type := Validated { valid_keys : list string; contents : dict V }.
Arguments Validated {V} _ _.
Arguments valid_keys {V} _.
Arguments contents {V} _.

Definition is_valid (valid : list string) (k : string) : bool := existsb (String.eqb k) valid.
Definition all_valid {V} (valid : list string) (d : list (string * V)) : bool := forallb (is_valid valid) (keys d).

(** 1274-1278 and 1291-1294. *)
Definition construct {V} (valid : list string) (a : argument V) (kwargs : list (string * V)) : result (validated V) :=
  let d := dset_all (first_reading a ++ kwargs) [] in
  if all_valid valid d then Ok (Validated valid d) else Raise KeyError.

(** 1280-1283. *)
Definition set_item {V} (k : string) (v : V) (d : validated V) : result (validated V) :=
  if is_valid (valid_keys d) k then Ok (Validated (valid_keys d) (dset k v (contents d))) else Raise KeyError.

(** 1285-1289: the argument is read for the check and once more for the update. *)
Definition update {V} (a : argument V) (kwargs : list (string * V)) (d : validated V) : result (validated V) :=
  if all_valid (valid_keys d) (dset_all (first_reading a ++ kwargs) [])
  then Ok (Validated (valid_keys d) (dset_all (second_reading a ++ kwargs) (contents d)))
  else Raise KeyError.

(** 1296-1297: what unpickling makes of [__reduce__]. *)
Definition unpickled {V} (d : validated V) : result (validated V) := construct (valid_keys d) (Pairs (contents d)) [].

(** Inherited operations. *)
Definition delete {V} (k : string) (d : validated V) : result (validated V) :=
  if dhas k (contents d) then Ok (Validated (valid_keys d) (ddel k (contents d))) else Raise KeyError.
Definition pop_item {V} (d : validated V) : result (validated V) :=
  match contents d with [] => Raise KeyError | _ => Ok (Validated (valid_keys d) (removelast (contents d))) end.
Definition clear {V} (d : validated V) : result (validated V) := Ok (Validated (valid_keys d) []).
Definition set_default {V} (k : string) (v : V) (d : validated V) : result (validated V) :=
  Ok (if dhas k (contents d) then d else Validated (valid_keys d) (dset k v (contents d))).
Definition in_place_union {V} (a : argument V) (d : validated V) : result (validated V) :=
  Ok (Validated (valid_keys d) (dset_all (first_reading a) (contents d))).

Inductive operation (V : Type) : Type :=
| SetItem (k : string) (v : V) | Update (a : argument V) (kwargs : list (string * V)) | Delete (k : string) | PopItem | Clear | Pickle
| SetDefault (k : string) (v : V) | InPlaceUnion (a : argument V).
Arguments SetItem {V} k v.
Arguments Update {V} a kwargs.
Arguments Delete {V} k.
Arguments PopItem {V}.
Arguments Clear {V}.
Arguments Pickle {V}.
Arguments SetDefault {V} k v.
Arguments InPlaceUnion {V} a.
Definition operate {V} (o : operation V) (d : validated V) : result (validated V) :=
  match o with
  | SetItem k v => set_item k v d
  | Update a kwargs => update a kwargs d
  | Delete k => delete k d
  | PopItem => pop_item d
  | Clear => clear d
  | Pickle => unpickled d
  | SetDefault k v => set_default k v d
  | InPlaceUnion a => in_place_union a d
  end.
(** A failing operation leaves the object as it was. *)
Definition after {V} (o : operation V) (d : validated V) : validated V := match operate o d with Ok d' => d' | Raise _ => d end.
Definition history {V} (os : list (operation V)) (d : validated V) : validated V := fold_left (fun d o => after o d) os d.

(** ** The attributes of TrendAnalysis *)
Definition valid_filter_params : list string :=
  ["normalized_filter"; "poa_filter"; "tcell_filter"; "clip_filter"; "hour_angle_filter"; "clearsky_filter"; "sensor_clearsky_filter"; "ad_hoc_filter"]%string.
Definition valid_filter_params_aggregated : list string :=
  ["two_way_window_filter"; "insolation_filter"; "hampel_filter"; "directional_tukey_filter"; "ad_hoc_filter"]%string.
(** 181-193; [empty] stands for [{}], [none] for None. *)
Definition default_filter_params {V} (empty none : V) : list (string * V) :=
  [("normalized_filter", empty); ("poa_filter", empty); ("tcell_filter", empty); ("clip_filter", empty); ("clearsky_filter", empty); ("ad_hoc_filter", none)]%string.
Definition default_filter_params_aggregated {V} (empty none : V) : list (string * V) := [("two_way_window_filter", empty); ("ad_hoc_filter", none)]%string.
(** 196-202. *)
Definition initial_params {V} (empty none : V) (power_expected temperature_cell : bool) : result (validated V) :=
  bind (construct valid_filter_params (Pairs (default_filter_params empty none)) []) (fun d =>
  if power_expected && negb temperature_cell then delete "tcell_filter"%string d else Ok d).
Definition initial_params_aggregated {V} (empty none : V) : result (validated V) :=
  construct valid_filter_params_aggregated (Pairs (default_filter_params_aggregated empty none)) [].
(** 208-215 and 221-230: assignment; [None] is anything that is not a dict. *)
Definition assign {V} (valid : list string) (new : option (dict V)) : result (validated V) :=
  match new with None => Raise ValueError | Some items => construct valid (Pairs items) [] end.
Definition assigned {V} (valid : list string) (new : option (dict V)) (old : validated V) : validated V :=
  match assign valid new with Ok d => d | Raise _ => old end.
