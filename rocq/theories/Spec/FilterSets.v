(** Specification of the combination of filters: which filters are used, what they need, and
    which rows are kept. *)

From Coq Require Import List ZArith Bool String Sorted.
From Verif.Base Require Import Fl TimeSeries Rolling.
From Verif.Model Require Import FilterDict TrendAnalysis.
Import ListNotations.
Open Scope list_scope.

(** ** Rows *)

(** The first row with a time is true. *)
Definition holds (m : mask) (t : Z) : Prop :=
  exists before after, m = before ++ (t, true) :: after /\ ~ In t (map fst before).
(** A row is kept: it is a row of the data, true in each component, and not excluded by hand. *)
Definition kept (rows : list Z) (parts : list (string * mask)) (by_hand : list (Z * option bool)) (t : Z) : Prop :=
  In t rows /\ (forall k m, In (k, m) parts -> holds m t) /\ (forall v, In (t, v) by_hand -> v = Some true).
(** The common index of the data and the components. *)
Definition common_index (rows : list Z) (parts : list (string * mask)) (idx : list Z) : Prop :=
  StronglySorted Z.lt idx /\ forall t, In t idx <-> In t rows \/ exists k m, In (k, m) parts /\ In t (map fst m).
(** A mask on an index that is true where a condition holds. *)
Definition mask_of (idx : list Z) (keep : Z -> Prop) (m : mask) : Prop :=
  map fst m = idx /\ forall t, In (t, true) m <-> In t idx /\ keep t.
(** The stored components: each on the common index, then the one given by hand. *)
Definition stored_parts (idx : list Z) (parts : list (string * mask)) (by_hand : option (list (Z * option bool))) (stored : list (string * mask)) : Prop :=
  exists l, stored = l ++ match by_hand with None => [] | Some a => [("ad_hoc_filter"%string, map (fun t => (t, negb (existsb (fun r => (fst r =? t)%Z && negb (match snd r with Some true => true | _ => false end)) a))) idx)] end /\
    Forall2 (fun p q => fst q = fst p /\ mask_of idx (holds (snd p)) (snd q)) parts l.

(** A row with a time has a value that is kept. *)
Definition row_value (s : series) (t : Z) (keep : fl -> Prop) : Prop := exists v, In (t, v) s /\ keep v.

Section Sets.
Context {P W T O YK SK YR SR : Type}.
Local Notation env := (environment P W T O YK SK YR SR).
Local Notation st := (state P W T O YR SR).

(** ** Which filters are used *)
Definition filter_order : list string :=
  ["normalized_filter"; "poa_filter"; "tcell_filter"; "clip_filter"; "hour_angle_filter"; "clearsky_filter"; "sensor_clearsky_filter"]%string.
Definition aggregated_order : list string := ["two_way_window_filter"; "insolation_filter"; "hampel_filter"; "directional_tukey_filter"]%string.
(** A filter is used if it is configured; the clear-sky filter is used in the clear-sky case. *)
Definition used (c : case) (params : dict (setting P)) (k : string) : Prop :=
  if String.eqb k "clearsky_filter" then c = Clearsky else dget k params <> None.

(** ** What a filter needs *)
Inductive lacks (c : case) (s : st) : string -> exn -> Prop :=
| lacks_poa : c = Sensor -> i_poa (s_inputs s) = None -> lacks c s "poa_filter" ValueError
| lacks_clear : c = Clearsky -> c_clear_poa (s_completed s) = Absent -> lacks c s "poa_filter" ValueError
| lacks_cell : c = Sensor -> c_cell (s_completed s) = None -> lacks c s "tcell_filter" ValueError
| lacks_clear_cell : c = Clearsky -> c_clear_cell (s_completed s) = Absent -> lacks c s "tcell_filter" ValueError
| lacks_power : i_power (s_inputs s) = Absent -> lacks c s "clip_filter" ValueError
| lacks_any_power : i_power (s_inputs s) = Unset -> lacks c s "clip_filter" AttributeError
| lacks_location : i_location (s_inputs s) = Unset -> lacks c s "hour_angle_filter" ValueError
| no_location : i_location (s_inputs s) = Absent -> lacks c s "hour_angle_filter" AttributeError
| lacks_measured k : In k ["clearsky_filter"; "sensor_clearsky_filter"]%string -> i_poa (s_inputs s) = None -> lacks c s k ValueError
| lacks_any_modelled k : In k ["clearsky_filter"; "sensor_clearsky_filter"]%string -> i_poa (s_inputs s) <> None ->
    c_clear_poa (s_completed s) = Unset -> lacks c s k AttributeError
| lacks_modelled k : In k ["clearsky_filter"; "sensor_clearsky_filter"]%string -> i_poa (s_inputs s) <> None ->
    c_clear_poa (s_completed s) = Absent -> lacks c s k ValueError.

(** ** What a filter is applied to *)
Inductive call (E : env) (c : case) (energy : series) (s : st) : string -> P -> result mask -> Prop :=
| call_normalized p : call E c energy s "normalized_filter" p (e_normalized E p energy)
| call_poa p poa : c = Sensor -> i_poa (s_inputs s) = Some poa -> call E c energy s "poa_filter" p (e_poa E p poa)
| call_clear_poa p poa : c = Clearsky -> c_clear_poa (s_completed s) = Present poa -> call E c energy s "poa_filter" p (e_poa E p poa)
| call_cell p cell : c = Sensor -> c_cell (s_completed s) = Some cell -> call E c energy s "tcell_filter" p (e_tcell E p cell)
| call_clear_cell p cell : c = Clearsky -> c_clear_cell (s_completed s) = Present cell -> call E c energy s "tcell_filter" p (e_tcell E p cell)
| call_clip p power : i_power (s_inputs s) = Present power -> call E c energy s "clip_filter" p (e_clip E p power)
| call_hour_angle p loc : i_location (s_inputs s) = Present loc -> call E c energy s "hour_angle_filter" p (e_hour_angle E p loc energy)
| call_clearsky k p poa clear : In k ["clearsky_filter"; "sensor_clearsky_filter"]%string -> i_poa (s_inputs s) = Some poa ->
    c_clear_poa (s_completed s) = Present clear -> call E c energy s k p (e_clearsky E p poa clear).
Inductive call_aggregated (E : env) (aggregated insolation : series) : string -> P -> result mask -> Prop :=
| call_two_way p : call_aggregated E aggregated insolation "two_way_window_filter" p (e_two_way E p aggregated)
| call_insolation p : call_aggregated E aggregated insolation "insolation_filter" p (e_insolation E p insolation)
| call_hampel p : call_aggregated E aggregated insolation "hampel_filter" p (e_hampel E p aggregated)
| call_tukey p : call_aggregated E aggregated insolation "directional_tukey_filter" p (e_tukey E p aggregated).

(** ** A used filter gives a component or fails *)
Definition gives (lack : string -> exn -> Prop) (run : string -> P -> result mask -> Prop) (params : dict (setting P)) (k : string) (m : mask) : Prop :=
  (forall e, ~ lack k e) /\ exists p, dget k params = Some (Kwargs p) /\ run k p (Ok m).
Definition fails (lack : string -> exn -> Prop) (run : string -> P -> result mask -> Prop) (params : dict (setting P)) (k : string) (e : exn) : Prop :=
  lack k e \/
  (forall e', ~ lack k e') /\
  ((dget k params = None /\ e = KeyError) \/
   (exists v, dget k params = Some v /\ (forall p, v <> Kwargs p) /\ e = TypeError) \/
   (exists p, dget k params = Some (Kwargs p) /\ run k p (Raise e))).
(** The components are those of the used filters, in order. *)
Inductive parts_of (use_ : string -> Prop) (give : string -> mask -> Prop) : list string -> list (string * mask) -> Prop :=
| no_parts : parts_of use_ give [] []
| part_used k m l r : use_ k -> give k m -> parts_of use_ give l r -> parts_of use_ give (k :: l) ((k, m) :: r)
| part_unused k l r : ~ use_ k -> parts_of use_ give l r -> parts_of use_ give (k :: l) r.
(** The first used filter that fails decides. *)
Definition parts_fail (use_ : string -> Prop) (give : string -> mask -> Prop) (fail : string -> exn -> Prop) (order : list string) (e : exn) : Prop :=
  exists before k after, order = before ++ k :: after /\ (exists r, parts_of use_ give before r) /\ use_ k /\ fail k e.

(** In the clear-sky case both clear-sky attributes must exist. *)
Definition readable (c : case) (s : st) : Prop :=
  c = Clearsky -> c_clear_poa (s_completed s) <> Unset /\ c_clear_cell (s_completed s) <> Unset.
Definition params_of (s : st) : dict (setting P) := contents (c_params (s_completed s)).
Definition aggregated_params_of (s : st) : dict (setting P) := contents (c_params_aggregated (s_completed s)).
Definition components_are (E : env) (c : case) (energy : series) (s : st) (parts : list (string * mask)) : Prop :=
  readable c s /\ parts_of (used c (params_of s)) (gives (lacks c s) (call E c energy s) (params_of s)) filter_order parts.
Definition components_fail (E : env) (c : case) (energy : series) (s : st) (e : exn) : Prop :=
  (~ readable c s /\ e = AttributeError) \/
  (readable c s /\ parts_fail (used c (params_of s)) (gives (lacks c s) (call E c energy s) (params_of s)) (fails (lacks c s) (call E c energy s) (params_of s)) filter_order e).
Definition never (k : string) (e : exn) : Prop := False.
Definition aggregated_are (E : env) (aggregated insolation : series) (s : st) (parts : list (string * mask)) : Prop :=
  parts_of (fun k => dget k (aggregated_params_of s) <> None) (gives never (call_aggregated E aggregated insolation) (aggregated_params_of s)) aggregated_order parts.
Definition aggregated_fail (E : env) (aggregated insolation : series) (s : st) (e : exn) : Prop :=
  parts_fail (fun k => dget k (aggregated_params_of s) <> None) (gives never (call_aggregated E aggregated insolation) (aggregated_params_of s))
    (fails never (call_aggregated E aggregated insolation) (aggregated_params_of s)) aggregated_order e.

(** ** The filter given by hand *)
Definition by_hand (d : dict (setting P)) : option (list (Z * option bool)) :=
  match dget "ad_hoc_filter" d with Some (AdHoc a) => Some a | _ => None end.
Definition rows_by_hand (d : dict (setting P)) : list (Z * option bool) := match by_hand d with Some a => a | None => [] end.
(** Its missing values become False, in the dictionary too; nothing else changes there. *)
Definition missing_excluded (d e : dict (setting P)) : Prop :=
  map fst e = map fst d /\ (forall k, k <> "ad_hoc_filter"%string -> dget k e = dget k d) /\
  match dget "ad_hoc_filter" d with
  | Some (AdHoc a) => exists b, dget "ad_hoc_filter" e = Some (AdHoc b) /\
      Forall2 (fun x y => fst y = fst x /\ snd y = match snd x with Some v => Some v | None => Some false end) a b
  | v => dget "ad_hoc_filter" e = v
  end.
(** It must be a series; one with another index must not have a time twice. *)
Definition hand_fails (d : dict (setting P)) (idx : list Z) (e : exn) : Prop :=
  match dget "ad_hoc_filter" d with
  | Some (Kwargs _) => e = AttributeError
  | Some (AdHoc a) => map fst a <> idx /\ ~ NoDup (map fst a) /\ e = ValueError
  | _ => False
  end.
Definition hand_ok (d : dict (setting P)) : Prop := forall p, dget "ad_hoc_filter" d <> Some (Kwargs p).

(** ** Objects that differ in one place *)
Definition with_params (s : st) (d : validated (setting P)) : st := State (s_inputs s) (set_params d (s_completed s)) (s_sensor s) (s_clear s).
Definition with_params_aggregated (s : st) (d : validated (setting P)) : st := State (s_inputs s) (set_params_aggregated d (s_completed s)) (s_sensor s) (s_clear s).
Definition with_side (c : case) (s : st) (f : side YR SR -> side YR SR) : st :=
  match c with
  | Sensor => State (s_inputs s) (s_completed s) (f (s_sensor s)) (s_clear s)
  | Clearsky => State (s_inputs s) (s_completed s) (s_sensor s) (f (s_clear s)) end.
End Sets.
