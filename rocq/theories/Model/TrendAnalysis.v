(** rdtools/analysis_chains.py: TrendAnalysis, 99-1074 (without the plots).

    A method is a function from the state of the object to the next state and a value or an
    exception; what was assigned before an exception stays assigned.

    Simplifications: indexes are strictly increasing and in one time zone; frequencies are fixed
    widths in nanoseconds; the frequency attribute of an index is a function of the index
    ([e_freq]); azimuth, tilt, albedo and solar position method are one value and no series; the
    two ad hoc filters are different objects; messages and warnings are not modelled, so that
    catching an AttributeError to raise another one has no effect.  pvlib, the filters with their
    keyword arguments, the clear-sky temperature, and the two final analyses are fields of
    [environment]; all but pvlib are modelled in Filters.v, Clipping.v, ClearskyTemp.v,
    YearOnYear.v and Soiling.v. *)

From Coq Require Import QArith Qcanon List ZArith Bool Arith String.
From Verif.Base Require Import QcExtra ISort Quantile Fl TimeSeries Calendar Rolling.
From Verif.Model Require Import Utilities Interpolation Energy Normalization FilterDict.
Import ListNotations.
Open Scope list_scope.

(** An attribute that may not exist, or may be None. *)
Inductive attr (A : Type) : Type := Unset | Absent | Present (a : A).
Arguments Unset {A}.
Arguments Absent {A}.
Arguments Present {A} a.
Definition attr_of {A} (o : option A) : attr A := match o with Some a => Present a | None => Absent end.

Record location : Type := Location { latitude : Qc; longitude : Qc }.
Inductive case : Type := Sensor | Clearsky.

Section Trend.
(** Keyword arguments of filters, wind speed, temperature model, orientation, keyword arguments
    and results of the two analyses. *)
Context {P W T O YK SK YR SR : Type}.

(** A value in the filter parameters: None, a dictionary of keyword arguments, a series of
    booleans and missing values. *)
Inductive setting : Type := NoValue | Kwargs (p : P) | AdHoc (a : list (Z * option bool)).

Record environment : Type := Environment {
  e_freq : list Z -> option Z;                                   (* index.freq *)
  e_infer : list Z -> option Z;                                  (* pd.infer_freq *)
  e_optimise : (fl -> fl) -> fl -> fl;                           (* scipy.optimize.minimize *)
  e_model : T;                                                   (* "open_rack_glass_polymer" *)
  e_calm : W;                                                    (* wind speed 0 *)
  e_cell : T -> series -> series -> W -> result series;          (* pvlib.temperature.sapm_cell *)
  e_clear_poa : location -> O -> list Z -> result series;        (* 340-358 *)
  e_ambient : location -> list Z -> result series;               (* get_clearsky_tamb *)
  e_normalized : P -> series -> result mask;                     (* filtering.* *)
  e_poa : P -> series -> result mask;
  e_tcell : P -> series -> result mask;
  e_clip : P -> series -> result mask;
  e_hour_angle : P -> location -> series -> result mask;
  e_clearsky : P -> series -> series -> result mask;
  e_two_way : P -> series -> result mask;
  e_insolation : P -> series -> result mask;
  e_hampel : P -> series -> result mask;
  e_tukey : P -> series -> result mask;
  e_yoy : YK -> series -> result YR;                             (* degradation_year_on_year *)
  e_srr : SK -> series -> series -> result SR }.                 (* soiling_srr *)

(** ** The object *)

(** Attributes that no analysis assigns. *)
Record inputs : Type := Inputs {
  i_power : attr series; i_energy : attr series; i_poa : option series; i_ambient : option series; i_gamma : option fl;
  i_width : Z; i_wind : W; i_expected : option series; i_rated : option fl; i_max_timedelta : option Qc;
  i_location : attr location; i_orientation : option O }.
(** Attributes that are completed by analyses. *)
Record completed : Type := Completed {
  c_model : option T; c_cell : option series; c_clear_poa : attr series; c_clear_ambient : attr series; c_clear_cell : attr series;
  c_params : validated setting; c_params_aggregated : validated setting }.
Record outcome : Type := Outcome { r_yoy : option YR; r_srr : option SR }.
(** The sensor_... or clearsky_... attributes and the entry of [results]. *)
Record side : Type := Side {
  d_filter : attr mask; d_components : attr (list (string * mask)); d_filter_aggregated : attr mask;
  d_components_aggregated : attr (list (string * mask)); d_performance : attr series; d_insolation : attr series;
  d_result : option outcome }.
Record state : Type := State { s_inputs : inputs; s_completed : completed; s_sensor : side; s_clear : side }.

Definition set_model (v : T) (c : completed) : completed := Completed (Some v) (c_cell c) (c_clear_poa c) (c_clear_ambient c) (c_clear_cell c) (c_params c) (c_params_aggregated c).
Definition set_cell (v : series) (c : completed) : completed := Completed (c_model c) (Some v) (c_clear_poa c) (c_clear_ambient c) (c_clear_cell c) (c_params c) (c_params_aggregated c).
Definition set_clear_poa (v : attr series) (c : completed) : completed := Completed (c_model c) (c_cell c) v (c_clear_ambient c) (c_clear_cell c) (c_params c) (c_params_aggregated c).
Definition set_clear_ambient (v : attr series) (c : completed) : completed := Completed (c_model c) (c_cell c) (c_clear_poa c) v (c_clear_cell c) (c_params c) (c_params_aggregated c).
Definition set_clear_cell (v : attr series) (c : completed) : completed := Completed (c_model c) (c_cell c) (c_clear_poa c) (c_clear_ambient c) v (c_params c) (c_params_aggregated c).
Definition set_params (v : validated setting) (c : completed) : completed := Completed (c_model c) (c_cell c) (c_clear_poa c) (c_clear_ambient c) (c_clear_cell c) v (c_params_aggregated c).
Definition set_params_aggregated (v : validated setting) (c : completed) : completed := Completed (c_model c) (c_cell c) (c_clear_poa c) (c_clear_ambient c) (c_clear_cell c) (c_params c) v.
Definition set_filter (m : mask) (parts : list (string * mask)) (d : side) : side := Side (Present m) (Present parts) (d_filter_aggregated d) (d_components_aggregated d) (d_performance d) (d_insolation d) (d_result d).
Definition set_filter_aggregated (m : mask) (parts : list (string * mask)) (d : side) : side := Side (d_filter d) (d_components d) (Present m) (Present parts) (d_performance d) (d_insolation d) (d_result d).
Definition set_performance (s : series) (d : side) : side := Side (d_filter d) (d_components d) (d_filter_aggregated d) (d_components_aggregated d) (Present s) (d_insolation d) (d_result d).
Definition set_insolation (s : series) (d : side) : side := Side (d_filter d) (d_components d) (d_filter_aggregated d) (d_components_aggregated d) (d_performance d) (Present s) (d_result d).
Definition set_result (r : outcome) (d : side) : side := Side (d_filter d) (d_components d) (d_filter_aggregated d) (d_components_aggregated d) (d_performance d) (d_insolation d) (Some r).
Definition side_of (c : case) (s : state) : side := match c with Sensor => s_sensor s | Clearsky => s_clear s end.

(** ** Methods *)
Definition method (A : Type) : Type := state -> state * result A.
Definition ret {A} (a : A) : method A := fun s => (s, Ok a).
Definition raise {A} (e : exn) : method A := fun s => (s, Raise e).
Definition next {A B} (m : method A) (k : A -> method B) : method B :=
  fun s => match m s with (s', Ok a) => k a s' | (s', Raise e) => (s', Raise e) end.
Definition ask {A} (f : state -> result A) : method A := fun s => (s, f s).
Definition complete (f : completed -> completed) : method unit := fun s => (State (s_inputs s) (f (s_completed s)) (s_sensor s) (s_clear s), Ok tt).
Definition store (c : case) (f : side -> side) : method unit :=
  fun s => (match c with
            | Sensor => State (s_inputs s) (s_completed s) (f (s_sensor s)) (s_clear s)
            | Clearsky => State (s_inputs s) (s_completed s) (s_sensor s) (f (s_clear s)) end, Ok tt).
(** Reading of an attribute. *)
Definition read {A} (a : attr A) : result (option A) := match a with Unset => Raise AttributeError | Absent => Ok None | Present v => Ok (Some v) end.
(** Use of the value of an attribute as an object. *)
Definition use {A} (a : attr A) : result A := match a with Present v => Ok v | _ => Raise AttributeError end.
Definition need {A} (e : exn) (o : option A) : result A := match o with Some a => Ok a | None => Raise e end.

(** ** Filters, 502-739 *)
Definition kwargs (v : setting) : result P := match v with Kwargs p => Ok p | _ => Raise TypeError end.
(** One configured filter: what it is applied to, then its keyword arguments. *)
Definition part {A} (params : dict setting) (k : string) (input : result A) (run : P -> A -> result mask) : result (list (string * mask)) :=
  match dget k params with
  | None => Ok []
  | Some v => bind input (fun x => bind (kwargs v) (fun p => bind (run p x) (fun m => Ok [(k, m)])))
  end.
Fixpoint all_parts (l : list (result (list (string * mask)))) : result (list (string * mask)) :=
  match l with [] => Ok [] | p :: l' => bind p (fun a => bind (all_parts l') (fun b => Ok (a ++ b))) end.

(** 527-538. *)
Definition call_clearsky_filter (E : environment) (s : state) (params : dict setting) (k : string) : result (list (string * mask)) :=
  bind (need ValueError (i_poa (s_inputs s))) (fun poa =>
  bind (read (c_clear_poa (s_completed s))) (fun c => bind (need ValueError c) (fun clear =>
  bind (need KeyError (dget k params)) (fun v => bind (kwargs v) (fun p =>
  bind (e_clearsky E p poa clear) (fun m => Ok [(k, m)])))))).

(** 547-608: the components; the results of the filters that are not configured are not used. *)
Definition components (E : environment) (c : case) (energy : series) (s : state) : result (list (string * mask)) :=
  let params := contents (c_params (s_completed s)) in
  let i := s_inputs s in
  bind (match c with Sensor => Ok (i_poa i, c_cell (s_completed s))                                       (* 549-554 *)
        | Clearsky => bind (read (c_clear_poa (s_completed s))) (fun p => bind (read (c_clear_cell (s_completed s))) (fun t => Ok (p, t))) end) (fun pt =>
  all_parts
    [part params "normalized_filter" (Ok energy) (e_normalized E);                                        (* 556-560 *)
     part params "poa_filter" (need ValueError (fst pt)) (e_poa E);                                       (* 561-565 *)
     part params "tcell_filter" (need ValueError (snd pt)) (e_tcell E);                                   (* 566-572 *)
     part params "clip_filter" (bind (read (i_power i)) (need ValueError)) (e_clip E);                    (* 573-583 *)
     part params "hour_angle_filter" (match i_location i with Unset => Raise ValueError | Absent => Raise AttributeError | Present l => Ok l end)
       (fun p l => e_hour_angle E p l energy);                                                            (* 584-598 *)
     match c with Sensor => Ok [] | Clearsky => call_clearsky_filter E s params "clearsky_filter" end;    (* 600-603 *)
     match dget "sensor_clearsky_filter" params with                                                      (* 605-608 *)
     | None => Ok [] | Some _ => call_clearsky_filter E s params "sensor_clearsky_filter" end])%string.

(** Columns on the union of the indexes, a missing value being False (612 and 701-703). *)
Definition mask_at (m : mask) (t : Z) : option bool := match find (fun r => (fst r =? t)%Z) m with Some r => Some (snd r) | None => None end.
Definition frame_index (cols : list (string * mask)) : list Z := zset (flat_map (fun c => map fst (snd c)) cols).
Definition on_index (idx : list Z) (m : mask) : mask := map (fun t => (t, match mask_at m t with Some b => b | None => false end)) idx.
Definition frame (cols : list (string * mask)) : list (string * mask) := map (fun c => (fst c, on_index (frame_index cols) (snd c))) cols.

(** 618-622 and 708-712, in place. *)
Definition without_missing (a : list (Z * option bool)) : list (Z * option bool) := map (fun r => (fst r, Some (match snd r with Some b => b | None => false end))) a.
(** 624-631 and 714-726; reindexing needs an index without duplicates. *)
Fixpoint has_duplicates (l : list Z) : bool := match l with [] => false | t :: l' => existsb (Z.eqb t) l' || has_duplicates l' end.
Definition ad_hoc_column (idx : list Z) (a : list (Z * option bool)) : result mask :=
  let b := without_missing a in
  if same_index idx (map fst b) then Ok (map (fun r => (fst r, match snd r with Some v => v | None => true end)) b)
  else if has_duplicates (map fst b) then Raise ValueError
  else Ok (map (fun t => (t, match find (fun r => (fst r =? t)%Z) b with Some (_, Some v) => v | _ => true end)) idx).
(** 615-633 and 705-728: the column, if there is one, and the parameters afterwards. *)
Definition ad_hoc (idx : list Z) (params : validated setting) : validated setting * result (list (string * mask)) :=
  match dget "ad_hoc_filter" (contents params) with
  | None | Some NoValue => (params, Ok [])
  | Some (Kwargs _) => (params, Raise AttributeError)
  | Some (AdHoc a) =>
    (Validated (valid_keys params) (dset "ad_hoc_filter" (AdHoc (without_missing a)) (contents params)),
     bind (ad_hoc_column idx a) (fun m => Ok [("ad_hoc_filter", m)]))
  end%string.
(** 635 and 730. *)
Definition all_of (idx : list Z) (cols : list (string * mask)) : mask :=
  map (fun t => (t, forallb (fun c => match mask_at (snd c) t with Some b => b | None => true end) cols)) idx.

(** 502-642. *)
Definition filter_ (E : environment) (c : case) (energy : series) : method unit :=
  next (ask (components E c energy)) (fun cols =>
  let fr := frame (("default", where_ (fun _ => true) energy) :: cols) in
  let idx := frame_index (("default", where_ (fun _ => true) energy) :: cols) in
  next (ask (fun s => Ok (ad_hoc idx (c_params (s_completed s))))) (fun a =>
  next (complete (set_params (fst a))) (fun _ =>
  next (ask (fun _ => snd a)) (fun extra =>
  store c (set_filter (all_of idx (fr ++ extra)) (tl fr ++ extra))))))%string.

(** 666-698. *)
Definition components_aggregated (E : environment) (c : case) (aggregated : series) (s : state) : result (list (string * mask)) :=
  let params := contents (c_params_aggregated (s_completed s)) in
  bind (read (d_insolation (side_of c s))) (fun insol =>                                                  (* 670-673 *)
  all_parts
    [part params "two_way_window_filter" (Ok aggregated) (e_two_way E);
     part params "insolation_filter" (need AttributeError insol) (e_insolation E);
     part params "hampel_filter" (Ok aggregated) (e_hampel E);
     part params "directional_tukey_filter" (Ok aggregated) (e_tukey E)])%string.
(** 644-739. *)
Definition aggregated_filter (E : environment) (c : case) (aggregated : series) : method unit :=
  next (ask (components_aggregated E c aggregated)) (fun cols =>
  let fr := frame (("default", where_ (fun _ => true) aggregated) :: cols) in
  let idx := frame_index (("default", where_ (fun _ => true) aggregated) :: cols) in
  next (ask (fun s => Ok (ad_hoc idx (c_params_aggregated (s_completed s))))) (fun a =>
  next (complete (set_params_aggregated (fst a))) (fun _ =>
  next (ask (fun _ => snd a)) (fun extra =>
  store c (set_filter_aggregated (all_of idx (fr ++ extra)) (tl fr ++ extra))))))%string.

(** ** Clear-sky irradiance and temperatures *)

(** 360-367: means of the minutes up to each time; the first mean is dropped. *)
Definition minute : Z := 60000000000%Z.
Definition minutes (idx : list Z) : list Z :=
  match idx with [] => [] | t0 :: _ => date_range t0 (List.last idx t0) minute end.
Fixpoint interval_means (before : option Z) (idx : list Z) (clear : series) : list (option fl) :=
  match idx with
  | [] => []
  | t :: idx' =>
    let rows := filter (fun r => (fst r <=? t)%Z && match before with Some b => (b <? fst r)%Z | None => true end) clear in
    (match rows with [] => None | _ => Some (fmean (vals rows)) end) :: interval_means (Some t) idx' clear
  end.
(** The means of the groups that are not empty must be as many as the times. *)
Definition aggregate_minutes (idx : list Z) (clear : series) : result series :=
  let means := flat_map (fun m => match m with Some v => [v] | None => [] end) (interval_means None idx clear) in
  if (List.length means =? List.length idx)%nat
  then Ok (combine idx (match means with [] => [] | _ :: l => NaN :: l end)) else Raise ValueError.

(** 307-379 with the arguments of 879 and 941.  [date_range] from and to nothing is a ValueError. *)
Definition clearsky_poa (E : environment) (i : inputs) : result series :=
  bind (need AttributeError (i_poa i)) (fun poa =>
  bind (match times poa with [] => Raise ValueError | _ => Ok tt end) (fun _ =>                            (* 327-331 *)
  bind (match i_location i with Unset => Raise ValueError | _ => Ok tt end) (fun _ =>                      (* 333-334 *)
  bind (need ValueError (i_orientation i)) (fun o =>                                                      (* 335-338 *)
  bind (use (i_location i)) (fun loc =>
  bind (e_clear_poa E loc o (minutes (times poa))) (fun raw =>                                            (* 340-358 *)
  bind (aggregate_minutes (times poa) raw) (fun clear =>                                                  (* 360-367 *)
  irradiance_rescale (e_optimise E) poa clear 100 Iterative (ff 1 1000000)))))))).                        (* 369-377 *)
Definition calc_clearsky_poa (E : environment) : method unit :=
  next (ask (fun s => clearsky_poa E (s_inputs s))) (fun clear => complete (set_clear_poa (Present clear))).

(** 381-432. *)
Definition calc_cell_temperature (E : environment) (poa ambient : series) (wind : W) : method series :=
  next (ask (fun s => Ok (match c_model (s_completed s) with Some m => m | None => e_model E end))) (fun m =>
  next (complete (set_model m)) (fun _ => ask (fun _ => e_cell E m poa ambient wind))).

(** 434-447. *)
Definition calc_clearsky_tamb (E : environment) : method unit :=
  next (ask (fun s =>
    bind (use (c_clear_poa (s_completed s))) (fun clear =>
    bind (match i_location (s_inputs s) with Unset => Raise ValueError | a => use a end) (fun loc =>
    e_ambient E loc (times clear))))) (fun a =>
  complete (set_clear_ambient (Present a))).

(** 449-500. *)
Definition is_finite (x : fl) : bool := match x with Fin _ => true | _ => false end.
Definition pvwatts_norm (E : environment) (i : inputs) (poa temperature_cell : series) : result (series * series) :=
  bind (read (i_energy i)) (fun en => bind (need AttributeError en) (fun energy =>
  let rated := match i_rated i with None => Fin 1%Qc | Some r => r end in
  bind (normalize_with_pvwatts (e_infer E) (e_freq E (times energy)) (e_freq E (times poa)) energy poa rated (Some temperature_cell)
          (fz 1000) (fz 25) (i_gamma i)) (fun r =>
  match i_rated i with
  | Some _ => Ok r
  | None =>
    let q := robust_quantile (qf 95 100) (filter is_finite (vals (fst r))) in
    Ok (on_values (fun x => fdiv x q) (fst r), snd r)
  end))).
Definition expected_norm (E : environment) (i : inputs) (expected poa : series) : result (series * series) :=
  bind (read (i_energy i)) (fun en => bind (need AttributeError en) (fun energy =>
  normalize_with_expected_power (e_infer E) (e_freq E (times energy)) (e_freq E (times expected)) energy expected poa PvEnergy)).

(** ** Preprocessing *)

(** [series[mask]]: the mask needs a value for each time. *)
Definition select (s : series) (m : mask) : result series :=
  if forallb (fun t => match mask_at m t with Some _ => true | None => false end) (times s)
  then Ok (filter (fun r => match mask_at m (fst r) with Some b => b | None => false end) s) else Raise PlainException.

(** [resample(width, origin='start_day').asfreq()]: rows that already have this frequency and as
    many bins as rows only get other labels. *)
Definition as_freq (E : environment) (s : series) (width : Z) : series :=
  match s with
  | [] => []
  | (t0, _) :: _ =>
    let labels := bin_starts t0 width (fst (List.last s (t0, NaN))) in
    if (match e_infer E (times s) with Some w => (w =? width)%Z | None => false end && (List.length s =? List.length labels)%nat)%bool
    then combine labels (vals s) else reindex s labels
  end.

(** 903-926 and 966-993. *)
Definition finish (E : environment) (c : case) (energy insolation : series) : method unit :=
  next (filter_ E c energy) (fun _ =>
  next (ask (fun s =>
    bind (use (d_filter (side_of c s))) (fun m =>
    bind (select energy m) (fun e => bind (select insolation m) (fun i =>
    let w := i_width (s_inputs s) in Ok (aggregation_insol e i w, resample_day_sum i w)))))) (fun a =>    (* 758-783 *)
  next (store c (set_insolation (snd a))) (fun _ =>
  next (aggregated_filter E c (fst a)) (fun _ =>
  next (ask (fun s => bind (use (d_filter_aggregated (side_of c s))) (select (fst a)))) (fun p =>
  next (store c (set_performance p)) (fun _ =>
  next (ask (fun s => bind (use (d_filter_aggregated (side_of c s))) (select (snd a)))) (fun i =>
  next (store c (set_insolation i)) (fun _ =>
  next (ask (fun s => Ok (i_width (s_inputs s)))) (fun w =>
  next (store c (set_performance (as_freq E p w))) (fun _ =>
  store c (set_insolation (as_freq E i w)))))))))))).

(** 865-926. *)
Definition sensor_preprocess (E : environment) : method unit :=
  next (ask (fun s => need ValueError (i_poa (s_inputs s)))) (fun poa =>                                  (* 871-874 *)
  next (fun s => if dhas "sensor_clearsky_filter"%string (contents (c_params (s_completed s)))            (* 876-884 *)
                 then match c_clear_poa (s_completed s) with
                      | Unset => (s, Raise AttributeError)
                      | Absent => calc_clearsky_poa E s
                      | Present _ => (s, Ok tt) end
                 else (s, Ok tt)) (fun _ =>
  next (fun s =>
    let i := s_inputs s in
    match i_expected i with
    | None =>                                                                                             (* 885-898 *)
      next (match c_cell (s_completed s) with
            | Some c => ret c
            | None =>
              match i_ambient i with
              | None => raise ValueError
              | Some a => next (calc_cell_temperature E poa a (i_wind i)) (fun c => next (complete (set_cell c)) (fun _ => ret c))
              end
            end) (fun c => ask (fun _ => pvwatts_norm E i poa c)) s
    | Some expected => (s, expected_norm E i expected poa)                                                (* 899-902 *)
    end) (fun n => finish E Sensor (fst n) (snd n)))).

(** 928-993. *)
Definition clearsky_preprocess (E : environment) : method unit :=
  next (fun s => match c_clear_poa (s_completed s) with                                                   (* 934-941 *)
                 | Unset => (s, Raise AttributeError)
                 | Absent => calc_clearsky_poa E s
                 | Present _ => (s, Ok tt) end) (fun _ =>
  next (ask (fun s => use (c_clear_poa (s_completed s)))) (fun poa =>
  next (fun s => match c_clear_cell (s_completed s) with                                                  (* 942-947 *)
                 | Unset => (s, Raise AttributeError)
                 | Present _ => (s, Ok tt)
                 | Absent =>
                   next (fun s => match c_clear_ambient (s_completed s) with
                                  | Unset => (s, Raise AttributeError)
                                  | Absent => calc_clearsky_tamb E s
                                  | Present _ => (s, Ok tt) end) (fun _ =>
                   next (ask (fun s => use (c_clear_ambient (s_completed s)))) (fun a =>
                   next (calc_cell_temperature E poa a (e_calm E)) (fun c => complete (set_clear_cell (Present c))))) s end) (fun _ =>
  next (ask (fun s =>
    let i := s_inputs s in
    match i_expected i with                                                                               (* 949-959 *)
    | None => bind (use (c_clear_cell (s_completed s))) (fun c => pvwatts_norm E i poa c)
    | Some expected => expected_norm E i expected poa
    end)) (fun n => finish E Clearsky (fst n) (snd n))))).

(** ** Analyses *)

(** 741-756. *)
Definition filter_check (s : series) : result unit :=
  let span := match s with [] => 0%Z | (t0, _) :: _ => (fst (List.last s (t0, NaN)) - t0)%Z end in
  if (span <? 730 * ns_day)%Z then Raise ValueError else Ok tt.
(** 785-818. *)
Definition yoy_degradation (E : environment) (k : YK) (s : series) : result YR := bind (filter_check s) (fun _ => e_yoy E k s).
(** 820-863; the frequency of both indexes is that of the aggregation. *)
Definition srr_soiling (E : environment) (k : SK) (width : Z) (s insolation : series) : result SR :=
  if (width =? ns_day)%Z then e_srr E k s insolation else Raise ValueError.

Definition requested (name : string) (analyses : list string) : bool := existsb (String.eqb name) analyses.
(** 995-1033 and 1035-1074 after the preprocessing. *)
Definition analyses_of (E : environment) (c : case) (analyses : list string) (yk : YK) (sk : SK) : method unit :=
  next (ask (fun s => use (d_performance (side_of c s)))) (fun p =>
  next (if requested "yoy_degradation" analyses then next (ask (fun _ => yoy_degradation E yk p)) (fun r => ret (Some r)) else ret None) (fun y =>
  next (if requested "srr_soiling" analyses
        then next (ask (fun s => bind (use (d_insolation (side_of c s))) (fun i => srr_soiling E sk (i_width (s_inputs s)) p i))) (fun r => ret (Some r))
        else ret None) (fun r =>
  store c (set_result (Outcome y r)))))%string.
Definition sensor_analysis (E : environment) (analyses : list string) (yk : YK) (sk : SK) : method unit :=
  next (sensor_preprocess E) (fun _ => analyses_of E Sensor analyses yk sk).
Definition clearsky_analysis (E : environment) (analyses : list string) (yk : YK) (sk : SK) : method unit :=
  next (clearsky_preprocess E) (fun _ => analyses_of E Clearsky analyses yk sk).

(** ** Construction and settings *)
Definition interpolated (o : option series) (idx : list Z) (max_timedelta : option Qc) : result (option series) :=
  match o with None => Ok None | Some s => bind (interpolate true true s (TIndex idx) max_timedelta) (fun r => Ok (Some r)) end.
Definition empty_side : side := Side Unset Unset Unset Unset Unset Unset None.

(** 99-202; [windspeed] is a number.  Any other [pv_input] leaves power and energy unset. *)
Definition construct_analysis (E : environment) (empty : P) (pv : series) (poa_global temperature_cell temperature_ambient : option series) (gamma_pdc : option fl)
    (aggregation_freq : Z) (pv_input : pv_kind) (windspeed : W) (power_expected : option series) (temperature_model : option T)
    (power_dc_rated : option fl) (interp_freq : option Z) (max_timedelta : option Qc) : result state :=
  bind (match interp_freq with None => Ok pv | Some w => interpolate true true pv (TFreq w) max_timedelta end) (fun pv =>
  let idx := times pv in
  bind (interpolated poa_global idx max_timedelta) (fun poa =>
  bind (interpolated temperature_cell idx max_timedelta) (fun cell =>
  bind (interpolated temperature_ambient idx max_timedelta) (fun ambient =>
  bind (interpolated power_expected idx max_timedelta) (fun expected =>
  bind (match pv_input with
        | PvPower => bind (energy_from_power (e_freq E idx) pv None max_timedelta RightLabeled) (fun e => Ok (Present pv, Present e))
        | PvEnergy => Ok (Absent, Present pv)
        | PvOther => Ok (Unset, Unset) end) (fun pe =>
  bind (initial_params (Kwargs empty) NoValue (match expected with Some _ => true | None => false end) (match cell with Some _ => true | None => false end)) (fun params =>
  bind (initial_params_aggregated (Kwargs empty) NoValue) (fun params_aggregated =>
  Ok (State (Inputs (fst pe) (snd pe) poa ambient gamma_pdc aggregation_freq windspeed expected power_dc_rated max_timedelta Unset None)
            (Completed temperature_model cell Unset Unset Unset params params_aggregated) empty_side empty_side))))))))).

(** 232-305. *)
Definition set_clearsky (loc : option location) (o : O) (poa cell ambient : option series) : method unit :=
  fun s =>
    let i := s_inputs s in
    let on_energy x := match x with None => Ok None | Some _ => bind (use (i_energy i)) (fun e => interpolated x (times e) (i_max_timedelta i)) end in
    match bind (on_energy poa) (fun p => bind (on_energy cell) (fun c => bind (on_energy ambient) (fun a => Ok (p, c, a)))) with
    | Raise e => (s, Raise e)
    | Ok (p, c, a) =>
      (State (Inputs (i_power i) (i_energy i) (i_poa i) (i_ambient i) (i_gamma i) (i_width i) (i_wind i) (i_expected i) (i_rated i)
                (i_max_timedelta i) (attr_of loc) (Some o))
             (set_clear_poa (attr_of p) (set_clear_cell (attr_of c) (set_clear_ambient (attr_of a) (s_completed s)))) (s_sensor s) (s_clear s), Ok tt)
    end.
End Trend.
Arguments setting : clear implicits.
Arguments environment : clear implicits.
Arguments inputs : clear implicits.
Arguments completed : clear implicits.
Arguments outcome : clear implicits.
Arguments side : clear implicits.
Arguments state : clear implicits.
