(** C54: results are recorded for completed analyses only and prerequisites are enforced *)

From Coq Require Import QArith Qcanon List ZArith Bool Arith Lia String Sorted.
From Verif.Base Require Import QcExtra ISort Quantile Fl TimeSeries Calendar Rolling.
From Verif.Spec Require Import FilterSets TrendRuns TrendCalls.
From Verif.Model Require Import Energy Normalization FilterDict TrendAnalysis.
From Verif.Proofs Require Import TrendP4 TrendP5 TrendP6.
Import ListNotations.
Open Scope list_scope.
Open Scope Qc_scope.

Section Claims.
Context {P W T O YK SK YR SR : Type}.
Local Notation env := (environment P W T O YK SK YR SR).
Local Notation st := (state P W T O YR SR).
Local Notation req := (@request YK SK).

(** One call: inputs and the other case stay; a failing call keeps the entry; a successful one replaces it by exactly the requested results of the stored performance and insolation. *)
Theorem C54_entry : forall (E : env) (q : req) (s s' : st) r, analyse E q s = (s', r) ->
  s_inputs s' = s_inputs s /\ side_of (other (q_case q)) s' = side_of (other (q_case q)) s /\
  (forall e, r = Raise e -> d_result (side_of (q_case q) s') = d_result (side_of (q_case q) s)) /\
  (r = Ok tt -> exists p i y z, d_performance (side_of (q_case q) s') = Present p /\ d_insolation (side_of (q_case q) s') = Present i /\
     d_result (side_of (q_case q) s') = Some (Outcome y z) /\ degradation_entry E q p y /\ soiling_entry E q (i_width (s_inputs s)) p i z).
Proof. exact call_entry. Qed.

(** After any sequence of calls the entry of a case is that of its last call that succeeds on the initial object. *)
Theorem C54_history : forall (E : env) c (qs : list req) (s : st), last_successful E c s qs (d_result (side_of c (after_calls E qs s))).
Proof. exact history_entry. Qed.

(** A call ends after any other calls as on the initial object, and with the same attributes if it succeeds. *)
Theorem C54_repeated : forall (E : env) (qs : list req) (q : req) (s : st),
  snd (analyse E q (after_calls E qs s)) = snd (analyse E q s) /\
  (snd (analyse E q s) = Ok tt -> side_of (q_case q) (fst (analyse E q (after_calls E qs s))) = side_of (q_case q) (fst (analyse E q s))).
Proof. exact call_repeated. Qed.

(** A call against a run of its steps as functions of the inputs and of the completed attributes. *)
Theorem C54_run : forall (E : env) (q : request) (s : st),
  match analyse E q s with (s', r) =>
    s_inputs s' = s_inputs s /\ completion E (s_inputs s) (s_completed s') = completion E (s_inputs s) (s_completed s) /\
    side_of (other (q_case q)) s' = side_of (other (q_case q)) s /\
    match gives_on E s q with
    | Ok (u, o) => r = Ok tt /\ side_of (q_case q) s' = stored_side u o
    | Raise e => r = Raise e /\ d_result (side_of (q_case q) s') = d_result (side_of (q_case q) s)
    end
  end.
Proof. exact analyse_run. Qed.

(** Which analyses are requested decides nothing else; degradation comes first and needs 730 days, soiling needs daily aggregation. *)
Theorem C54_request : forall (E : env) c names yk sk yk' sk' (s : st) s0, analyse E (Request c [] yk' sk') s = (s0, Ok tt) ->
  exists p i, d_performance (side_of c s0) = Present p /\ d_insolation (side_of c s0) = Present i /\ d_result (side_of c s0) = Some (Outcome None None) /\
  match analyse E (Request c names yk sk) s with
  | (s', Ok tt) => exists y z, side_of c s' = set_result (Outcome y z) (side_of c s0) /\
      degradation_entry E (Request c names yk sk) p y /\ soiling_entry E (Request c names yk sk) (i_width (s_inputs s)) p i z
  | (_, Raise e) =>
      degradation_fails E (Request c names yk sk) p e \/
      (exists y, degradation_entry E (Request c names yk sk) p y) /\ soiling_fails E (Request c names yk sk) (i_width (s_inputs s)) p i e
  end.
Proof. exact request_spec. Qed.

Theorem C54_request_fails : forall (E : env) c names yk sk yk' sk' (s : st) e, snd (analyse E (Request c [] yk' sk') s) = Raise e -> snd (analyse E (Request c names yk sk) s) = Raise e.
Proof. exact request_fails. Qed.

(** Missing prerequisites: the object is not changed. *)
Theorem C54_needs_poa : forall (E : env) (q : req) (s : st), q_case q = Sensor -> i_poa (s_inputs s) = None -> analyse E q s = (s, Raise ValueError).
Proof. exact needs_poa. Qed.

Theorem C54_needs_temperature : forall (E : env) (q : req) (s : st), q_case q = Sensor -> dget "sensor_clearsky_filter" (params_of s) = None ->
  i_expected (s_inputs s) = None -> c_cell (s_completed s) = None -> i_ambient (s_inputs s) = None -> analyse E q s = (s, Raise ValueError).
Proof. exact needs_temperature. Qed.

Theorem C54_needs_clearsky : forall (E : env) (q : req) (s : st), q_case q = Clearsky -> c_clear_poa (s_completed s) = Unset -> analyse E q s = (s, Raise AttributeError).
Proof. exact needs_clearsky. Qed.

Theorem C54_needs_clearsky_filter : forall (E : env) (q : req) (s : st), q_case q = Sensor -> i_poa (s_inputs s) <> None -> dget "sensor_clearsky_filter" (params_of s) <> None ->
  c_clear_poa (s_completed s) = Unset -> analyse E q s = (s, Raise AttributeError).
Proof. exact needs_clearsky_filter. Qed.

(** Missing prerequisites: the call fails. *)
Theorem C54_needs_measured : forall (E : env) (q : req) (s : st), i_poa (s_inputs s) = None -> snd (analyse E q s) <> Ok tt.
Proof. exact needs_measured. Qed.

Theorem C54_needs_power : forall (E : env) (q : req) (s : st), dget "clip_filter" (params_of s) <> None -> i_power (s_inputs s) = Absent \/ i_power (s_inputs s) = Unset -> snd (analyse E q s) <> Ok tt.
Proof. exact needs_power. Qed.

Theorem C54_needs_location : forall (E : env) (q : req) (s : st), dget "hour_angle_filter" (params_of s) <> None -> i_location (s_inputs s) = Absent \/ i_location (s_inputs s) = Unset -> snd (analyse E q s) <> Ok tt.
Proof. exact needs_location. Qed.

Theorem C54_needs_energy : forall (E : env) (q : req) (s : st), i_energy (s_inputs s) = Absent \/ i_energy (s_inputs s) = Unset -> snd (analyse E q s) <> Ok tt.
Proof. exact needs_energy. Qed.

Theorem C54_needs_clearsky_setting : forall (E : env) (q : req) (s : st), q_case q = Clearsky -> (forall p, dget "clearsky_filter" (params_of s) <> Some (Kwargs p)) -> snd (analyse E q s) <> Ok tt.
Proof. exact needs_clearsky_setting. Qed.

Theorem C54_needs_settings : forall (E : env) (q : req) (s : st) k v, In k filter_order -> k <> "clearsky_filter"%string -> dget k (params_of s) = Some v -> (forall p, v <> Kwargs p) -> snd (analyse E q s) <> Ok tt.
Proof. exact needs_settings. Qed.

(** set_clearsky keeps what is stored, and does not change sensor analyses without filters that use its arguments. *)
Theorem C54_set_clearsky : forall (E : env) (q : req) (s s' : st) loc o poa cell ambient r, set_clearsky loc o poa cell ambient s = (s', r) ->
  s_sensor s' = s_sensor s /\ s_clear s' = s_clear s /\ (forall e, r = Raise e -> s' = s) /\
  (q_case q = Sensor -> dget "sensor_clearsky_filter" (params_of s) = None -> dget "hour_angle_filter" (params_of s) = None ->
   snd (analyse E q s') = snd (analyse E q s) /\ (snd (analyse E q s) = Ok tt -> s_sensor (fst (analyse E q s')) = s_sensor (fst (analyse E q s)))).
Proof. exact set_clearsky_sensor. Qed.

End Claims.

Definition year : Z := (365 * ns_day)%Z.
Definition above (n : nat) (s : series) : result mask := Ok (where_ (fun v => fgt v (fz (Z.of_nat n))) s).
Definition demo_env : environment nat unit unit unit unit unit nat nat :=
  Environment (fun _ => Some year) (fun _ => Some year) (fun _ x => x) tt tt (fun _ _ a _ => Ok a) (fun _ _ _ => Raise ValueError) (fun _ _ => Raise ValueError)
    above above above above (fun n _ s => above n s) (fun n s _ => above n s) above above above above
    (fun _ s => Ok (List.length s)) (fun _ s _ => Ok (List.length s)).
Definition yearly (l : list fl) : series := combine (map (fun k => (Z.of_nat k * year)%Z) (seq 0 5)) l.
Definition demo (pv : list fl) (kind : pv_kind) : state nat unit unit unit nat nat :=
  match construct_analysis demo_env 0%nat (yearly pv) (Some (yearly [fz 8; fz 8; fz 8; fz 8])) None None None year kind tt (Some (yearly [fz 6; fz 6; fz 6; fz 6])) None None None None with
  | Ok s => s | Raise _ => State (Inputs Unset Unset None None None 0 tt None None None Unset None) (Completed None None Unset Unset Unset (Validated [] []) (Validated [] [])) empty_side empty_side end.
Definition ask_for (names : list string) : @request unit unit := Request Sensor names tt tt.
Definition good := ask_for ["yoy_degradation"; "something"]%string.
Definition both := ask_for ["yoy_degradation"; "srr_soiling"]%string.
Definition clear : @request unit unit := Request Clearsky ["yoy_degradation"]%string tt tt.
Definition long : state nat unit unit unit nat nat := demo [fz 5; fz 4; fz 4; fz 3] PvPower.
Example C54_example :
  snd (analyse demo_env good long) = Ok tt /\ snd (analyse demo_env both long) = Raise ValueError /\ snd (analyse demo_env clear long) = Raise AttributeError /\
  d_result (s_sensor (after_calls demo_env [both; good; clear; both] long)) = Some (Outcome (Some 3%nat) None) /\
  d_result (s_clear (after_calls demo_env [both; good; clear; both] long)) = None.
Proof. repeat split; vm_compute; reflexivity. Qed.
Example C54_failures :
  snd (analyse demo_env good (demo [fz 5; fz 4; fz 4] PvPower)) = Raise ValueError /\ snd (analyse demo_env (ask_for []) (demo [fz 5; fz 4; fz 4] PvPower)) = Ok tt /\
  snd (analyse demo_env good (demo [fz 5; fz 4; fz 4; fz 3] PvEnergy)) = Raise ValueError /\
  snd (analyse demo_env good (demo [fz 5; fz 4; fz 4; fz 3] PvOther)) = Raise AttributeError.
Proof. repeat split; vm_compute; reflexivity. Qed.

Print Assumptions C54_entry.
Print Assumptions C54_history.
Print Assumptions C54_repeated.
Print Assumptions C54_run.
Print Assumptions C54_request.
Print Assumptions C54_request_fails.
Print Assumptions C54_needs_poa.
Print Assumptions C54_needs_temperature.
Print Assumptions C54_needs_clearsky.
Print Assumptions C54_needs_clearsky_filter.
Print Assumptions C54_needs_measured.
Print Assumptions C54_needs_power.
Print Assumptions C54_needs_location.
Print Assumptions C54_needs_energy.
Print Assumptions C54_needs_clearsky_setting.
Print Assumptions C54_needs_settings.
Print Assumptions C54_set_clearsky.
