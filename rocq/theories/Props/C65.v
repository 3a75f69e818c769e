(** C65: results do not depend on the unit of power *)

From Coq Require Import QArith Qcanon List ZArith Bool Arith Lia String Sorted.
From Verif.Base Require Import QcExtra ISort Quantile Fl TimeSeries Calendar Rolling.
From Verif.Spec Require Import Interp Energy Normalization TrendRuns Units.
From Verif.Model Require Import Utilities Energy Normalization Filters Clipping ClipFeatures FilterDict TrendAnalysis.
From Verif.Proofs Require Import UnitP2.
Import ListNotations.
Open Scope list_scope.
Open Scope Qc_scope.

Section Claims.
Context {P W T O YK SK YR SR : Type}.
Local Notation env := (environment P W T O YK SK YR SR).
Local Notation st := (state P W T O YR SR).
Local Notation req := (@request YK SK).

(** Measured power or energy, expected power and rating in another unit: all calls on the two objects store the same filters, performance, insolation and results. *)
Theorem C65_whole : forall k, (0 < k)%Qc -> forall (E : env) (empty : P) pv poa cell ambient gamma width kind wind expected (model : option T) rated interp m (s s' : st) (qs : list req),
  construct_analysis E empty pv poa cell ambient gamma width kind wind expected model rated interp m = Ok s ->
  construct_analysis E empty (series_in k pv) poa cell ambient gamma width kind wind (option_map (series_in k) expected) model (option_map (number_in k) rated) interp m = Ok s' ->
  (forall p x, e_clip E p (series_in k x) = e_clip E p x) ->
  forall c, side_of c (after_calls E qs s') = side_of c (after_calls E qs s).
Proof. exact unit_whole. Qed.

(** The constructor gives the same object in the other unit, or the same exception. *)
Theorem C65_object : forall k, (0 < k)%Qc -> forall (E : env) (empty : P) pv poa cell ambient gamma width kind wind expected (model : option T) rated interp m,
  construct_analysis E empty (series_in k pv) poa cell ambient gamma width kind wind (option_map (series_in k) expected) model (option_map (number_in k) rated) interp m =
  rmap (@object_in P W T O YR SR k) (construct_analysis E empty pv poa cell ambient gamma width kind wind expected model rated interp m).
Proof. exact unit_object. Qed.

(** A call gives the same outcome and the same object in the other unit. *)
Theorem C65_call : forall k, (0 < k)%Qc -> forall (E : env) (q : req) (s : st), clips_alike E k (i_power (s_inputs s)) ->
  analyse E q (object_in k s) = (object_in k (fst (analyse E q s)), snd (analyse E q s)).
Proof. exact unit_call. Qed.

(** Several calls, some of which may fail. *)
Theorem C65_calls : forall k, (0 < k)%Qc -> forall (E : env) (qs : list req) (s : st), clips_alike E k (i_power (s_inputs s)) -> after_calls E qs (object_in k s) = object_in k (after_calls E qs s).
Proof. exact unit_calls. Qed.

(** Setting up clear-sky data. *)
Theorem C65_clearsky : forall k, (0 < k)%Qc -> forall loc o p c a (s : st), set_clearsky loc o p c a (object_in k s) = (object_in k (fst (set_clearsky loc o p c a s)), snd (set_clearsky loc o p c a s)).
Proof. exact unit_clearsky. Qed.

(** Without a rating the normalized energy is that of rating 1 divided by the robust 95 % quantile of its numbers, so that its own quantile is 1. *)
Theorem C65_unrated : forall (E : environment P W T O YK SK YR SR) (i : inputs W O) poa cell en ins, i_rated i = None -> pvwatts_norm E i poa cell = Ok (en, ins) ->
  exists energy en1, i_energy i = Present energy /\
    normalize_with_pvwatts (e_infer E) (e_freq E (times energy)) (e_freq E (times poa)) energy poa (Fin 1) (Some cell) (fz 1000) (fz 25) (i_gamma i) = Ok (en1, ins) /\
    en = map (fun r => (fst r, fdiv (snd r) (robust_quantile (qf 95 100) (numbers en1)))) en1 /\
    (forall q, robust_quantile (qf 95 100) (numbers en1) = Fin q -> 0 < q -> robust_quantile (qf 95 100) (numbers en) = Fin 1).
Proof. exact unrated. Qed.

(** With a rating (or an expected power) only the energy in another unit multiplies the normalized energy. *)
Theorem C65_rated : forall (E : environment P W T O YK SK YR SR) (i : inputs W O) poa cell c, 0 < c -> i_rated i <> None ->
  pvwatts_norm E (energy_only c i) poa cell = rmap (fun r => (series_in c (fst r), snd r)) (pvwatts_norm E i poa cell) /\
  (forall expected, expected_norm E (energy_only c i) expected poa = rmap (fun r => (series_in c (fst r), snd r)) (expected_norm E i expected poa)).
Proof. exact rated_energy. Qed.

(** The condition on the clipping filter holds for the quantile, the logic based and the learned filter. *)
Theorem C65_clip : forall c, 0 < c -> forall s,
  (forall q, quantile_clip_filter q (series_in c s) = quantile_clip_filter q s) /\
  (forall m cutoff roll, logic_clip_filter (series_in c s) m cutoff roll = logic_clip_filter s m cutoff roll) /\
  (forall predict m, xgboost_filter predict (series_in c s) m = xgboost_filter predict s m).
Proof. exact clip_models. Qed.

End Claims.

Definition hour (h : Z) : Z := (h * 3600000000000)%Z.
Definition above (n : nat) (s : series) : result mask := Ok (where_ (fun v => fgt v (fz (Z.of_nat n))) s).
Definition demo_env : environment nat unit unit unit unit unit nat (list fl) :=
  Environment (fun _ => Some (hour 6)) (fun _ => None) (fun _ x => x) tt tt (fun _ _ a _ => Ok a) (fun _ _ _ => Raise ValueError) (fun _ _ => Raise ValueError)
    above above above (fun _ s => Ok (quantile_clip_filter (qf 98 100) s)) (fun n _ s => above n s) (fun n s _ => above n s) above above above above
    (fun _ s => Ok (List.length s)) (fun _ s _ => Ok (vals s)).
Definition every (w : Z) (l : list fl) : series := combine (map (fun k => (Z.of_nat k * w)%Z) (seq 0 (List.length l))) l.
Definition power : series := every (hour 6) [fz 8; fz 8; fz 16; fz 40; NaN; fz 8; fz 16; fz 24; fz 8; fz 16].
Definition light : series := every (hour 6) (map (fun _ => fz 800) power).
Definition cool : series := every (hour 6) (map (fun _ => fz 25) power).
Definition build (c : Qc) (rated : option fl) : result (state nat unit unit unit nat (list fl)) :=
  construct_analysis demo_env 0%nat (series_in c power) (Some light) (Some cool) None None ns_day PvPower tt None None (option_map (number_in c) rated) None None.
Definition ask : @request unit unit := Request Sensor ["srr_soiling"%string] tt tt.
(** The outcome of a call with rating in kW ([c] = 1) or in W, or without. *)
Definition outcomes (c : Qc) (rated : option fl) : result (result unit * list bool * list Q) :=
  match build c rated with
  | Raise e => Raise e
  | Ok s => let r := analyse demo_env ask s in
            Ok (snd r, match d_filter (s_sensor (fst r)) with Present m => map snd m | _ => [] end,
                match d_result (s_sensor (fst r)) with Some o => match r_srr o with Some l => map (fun x => match x with Fin q => this q | _ => 0%Q end) l | None => [] end | None => [] end)
  end.
Definition kept_rows : list bool := [false; true; true; false; false; false; true; true; true; true].
Example C65_example :
  outcomes 1 None = Ok (Ok tt, kept_rows, [15 # 44; 25 # 44; 15 # 44]%Q) /\
  outcomes (qz 1000) None = Ok (Ok tt, kept_rows, [15 # 44; 25 # 44; 15 # 44]%Q) /\
  outcomes (qz 1000) (Some (fz 30)) = Ok (Ok tt, kept_rows, [1 # 2; 5 # 6; 1 # 2]%Q).
Proof. repeat split; vm_compute; reflexivity. Qed.
Example C65_hypotheses : (0 < qz 1000)%Qc /\ (forall p x, e_clip demo_env p (series_in (qz 1000) x) = e_clip demo_env p x) /\
  match build 1 None with Ok s => i_rated (s_inputs s) = None | Raise _ => False end.
Proof.
  split; [reflexivity|]. split.
  - intros p x. cbn [demo_env e_clip]. f_equal. apply (clip_models (qz 1000) eq_refl x).
  - vm_compute. reflexivity.
Qed.

Print Assumptions C65_whole.
Print Assumptions C65_object.
Print Assumptions C65_call.
Print Assumptions C65_calls.
Print Assumptions C65_clearsky.
Print Assumptions C65_unrated.
Print Assumptions C65_rated.
Print Assumptions C65_clip.
