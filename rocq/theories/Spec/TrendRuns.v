(** What an analysis computes, without the object: each run is a function of the inputs and of
    the completed attributes. *)

From Coq Require Import QArith Qcanon List ZArith Bool String.
From Verif.Base Require Import QcExtra Fl TimeSeries Calendar Rolling.
From Verif.Model Require Import Normalization FilterDict TrendAnalysis.
Import ListNotations.
Open Scope list_scope.

Section Runs.
Context {P W T O YK SK YR SR : Type}.
Local Notation env := (environment P W T O YK SK YR SR).
Local Notation st := (state P W T O YR SR).

(** ** Completion: every attribute that an analysis may fill in, if it can be computed *)
Definition or_else {A} (o : option A) (d : option A) : option A := match o with Some a => Some a | None => d end.
Definition or_filled {A} (a : attr A) (d : attr A) : attr A := match a with Absent => d | x => x end.
Definition computed {A} (r : result A) : option A := match r with Ok a => Some a | Raise _ => None end.
Definition filled {A} (r : result A) : attr A := match r with Ok a => Present a | Raise _ => Absent end.
Definition exclude_missing (d : validated (setting P)) : validated (setting P) :=
  Validated (valid_keys d) (match dget "ad_hoc_filter" (contents d) with
    | Some (AdHoc a) => dset "ad_hoc_filter" (AdHoc (map (fun r => (fst r, Some match snd r with Some b => b | None => false end)) a)) (contents d)
    | _ => contents d end).

Definition the_model (E : env) (k : completed P T) : T := match c_model k with Some m => m | None => e_model E end.
Definition cell_value (E : env) (i : inputs W O) (k : completed P T) : option series :=
  or_else (c_cell k) (match i_expected i, i_ambient i, i_poa i with
                      | None, Some a, Some poa => computed (e_cell E (the_model E k) poa a (i_wind i))
                      | _, _, _ => None end).
Definition clear_poa_value (E : env) (i : inputs W O) (k : completed P T) : attr series := or_filled (c_clear_poa k) (filled (clearsky_poa E i)).
Definition clear_ambient_value (E : env) (i : inputs W O) (k : completed P T) : attr series :=
  or_filled (c_clear_ambient k) (match clear_poa_value E i k, i_location i with
                                 | Present p, Present loc => filled (e_ambient E loc (times p))
                                 | _, _ => Absent end).
Definition clear_cell_value (E : env) (i : inputs W O) (k : completed P T) : attr series :=
  or_filled (c_clear_cell k) (match clear_poa_value E i k, clear_ambient_value E i k with
                              | Present p, Present a => filled (e_cell E (the_model E k) p a (e_calm E))
                              | _, _ => Absent end).
Definition completion (E : env) (i : inputs W O) (k : completed P T) : completed P T :=
  Completed (Some (the_model E k)) (cell_value E i k) (clear_poa_value E i k) (clear_ambient_value E i k) (clear_cell_value E i k)
    (exclude_missing (c_params k)) (exclude_missing (c_params_aggregated k)).

(** ** A run *)
Record run : Type := Run { u_filter : mask; u_parts : list (string * mask); u_filter_aggregated : mask; u_parts_aggregated : list (string * mask);
                           u_performance : series; u_insolation : series }.
Definition combined (rows : list Z) (parts : list (string * mask)) (d : validated (setting P)) : result (mask * list (string * mask)) :=
  let cols := ("default"%string, map (fun t => (t, true)) rows) :: parts in
  bind (snd (ad_hoc (frame_index cols) d)) (fun extra => Ok (all_of (frame_index cols) (frame cols ++ extra), tl (frame cols) ++ extra)).
Definition object (i : inputs W O) (k : completed P T) (d : side YR SR) : st := State i k d d.
Definition processed (E : env) (c : case) (i : inputs W O) (k : completed P T) (energy insolation : series) : result run :=
  bind (components E c energy (object i k empty_side)) (fun parts =>
  bind (combined (times energy) parts (c_params k)) (fun f =>
  bind (select energy (fst f)) (fun e => bind (select insolation (fst f)) (fun n =>
  let a := aggregation_insol e n (i_width i) in
  let b := resample_day_sum n (i_width i) in
  bind (components_aggregated E c a (object i k (set_insolation b empty_side))) (fun parts' =>
  bind (combined (times a) parts' (c_params_aggregated k)) (fun g =>
  bind (select a (fst g)) (fun p => bind (select b (fst g)) (fun q =>
  Ok (Run (fst f) (snd f) (fst g) (snd g) (as_freq E p (i_width i)) (as_freq E q (i_width i))))))))))).

(** Normalized energy and insolation. *)
Definition sensor_data (E : env) (i : inputs W O) (k : completed P T) : result (series * series) :=
  bind (need ValueError (i_poa i)) (fun poa =>
  bind (if dhas "sensor_clearsky_filter" (contents (c_params k))
        then match c_clear_poa k with Unset => Raise AttributeError | Present _ => Ok tt | Absent => bind (clearsky_poa E i) (fun _ => Ok tt) end
        else Ok tt) (fun _ =>
  match i_expected i with
  | Some expected => expected_norm E i expected poa
  | None =>
    bind (match c_cell k with
          | Some c => Ok c
          | None => bind (need ValueError (i_ambient i)) (fun a => e_cell E (the_model E k) poa a (i_wind i)) end) (fun c =>
    pvwatts_norm E i poa c)
  end)).
Definition clearsky_data (E : env) (i : inputs W O) (k : completed P T) : result (series * series) :=
  bind (match c_clear_poa k with Unset => Raise AttributeError | Present p => Ok p | Absent => clearsky_poa E i end) (fun poa =>
  bind (match c_clear_cell k with
        | Unset => Raise AttributeError
        | Present c => Ok c
        | Absent =>
          bind (match c_clear_ambient k with
                | Unset => Raise AttributeError
                | Present a => Ok a
                | Absent => bind (match i_location i with Unset => Raise ValueError | a => use a end) (fun loc => e_ambient E loc (times poa)) end) (fun a =>
          e_cell E (the_model E k) poa a (e_calm E)) end) (fun c =>
  match i_expected i with
  | Some expected => expected_norm E i expected poa
  | None => pvwatts_norm E i poa c
  end)).
Definition data (E : env) (c : case) (i : inputs W O) (k : completed P T) : result (series * series) :=
  match c with Sensor => sensor_data E i k | Clearsky => clearsky_data E i k end.

(** The requested analyses. *)
Record request : Type := Request { q_case : case; q_names : list string; q_yoy : YK; q_srr : SK }.
Definition when {A} (b : bool) (r : result A) : result (option A) := if b then bind r (fun a => Ok (Some a)) else Ok None.
Definition results_of (E : env) (width : Z) (q : request) (u : run) : result (outcome YR SR) :=
  bind (when (requested "yoy_degradation" (q_names q)) (yoy_degradation E (q_yoy q) (u_performance u))) (fun y =>
  bind (when (requested "srr_soiling" (q_names q)) (srr_soiling E (q_srr q) width (u_performance u) (u_insolation u))) (fun r => Ok (Outcome y r))).
Definition run_of (E : env) (i : inputs W O) (k : completed P T) (q : request) : result (run * outcome YR SR) :=
  bind (data E (q_case q) i k) (fun n =>
  bind (processed E (q_case q) i k (fst n) (snd n)) (fun u =>
  bind (results_of E (i_width i) q u) (fun o => Ok (u, o)))).

(** A call of sensor_analysis or clearsky_analysis. *)
Definition analyse (E : env) (q : request) : method unit :=
  match q_case q with Sensor => sensor_analysis E (q_names q) (q_yoy q) (q_srr q) | Clearsky => clearsky_analysis E (q_names q) (q_yoy q) (q_srr q) end.
(** The object after several calls, each of which may fail. *)
Definition after_calls (E : env) (qs : list request) (s : st) : st := fold_left (fun s q => fst (analyse E q s)) qs s.
(** What a call gives on an object. *)
Definition gives_on (E : env) (s : st) (q : request) : result (run * outcome YR SR) := run_of E (s_inputs s) (completion E (s_inputs s) (s_completed s)) q.
Definition stored_side (u : run) (o : outcome YR SR) : side YR SR :=
  Side (Present (u_filter u)) (Present (u_parts u)) (Present (u_filter_aggregated u)) (Present (u_parts_aggregated u))
    (Present (u_performance u)) (Present (u_insolation u)) (Some o).
Definition other (c : case) : case := match c with Sensor => Clearsky | Clearsky => Sensor end.
End Runs.
