(** A system whose measured power is a fixed share of the expected power. *)

From Coq Require Import QArith Qcanon List ZArith Bool.
From Verif.Base Require Import QcExtra Fl TimeSeries.
From Verif.Spec Require Import Normalization Energy.
Import ListNotations.
Open Scope Qc_scope.

(** [level] times every value. *)
Definition share (level : Qc) (s : series) : series := map (fun r => (fst r, fmul (Fin level) (snd r))) s.
(** The frequencies attached to and inferred from indexes describe them, and steps of [w] are
    recognised in three rows or more. *)
Definition recognises (infer freq : list Z -> option Z) (w : Z) : Prop :=
  (forall l, freq_ok infer (freq l) l) /\
  (forall l, regular w l -> (3 <= length l)%nat -> freq l = Some w \/ freq l = None /\ infer l = Some w).
(** At least three steps of [w]. *)
Definition three_steps (w : Z) (s : series) : Prop := (first_time s + 3 * w <= final_time s)%Z.
(** A limit on gaps, if given, of at least one step. *)
Definition at_least (w : Z) (limit : option Qc) : Prop := match limit with Some m => qz w <= m | None => True end.

(** [f t] times the value at [t]. *)
Definition shares (f : Z -> Qc) (s : series) : series := map (fun r => (fst r, fmul (Fin (f (fst r))) (snd r))) s.
(** No value is missing. *)
Definition all_known (s : series) : Prop := forall t v, In (t, v) s -> exists q, v = Fin q.

(** The PVWatts power of irradiance and cell temperature, row by row. *)
Definition pvwatts_of (rated gamma : Qc) (poa cell m : series) : Prop :=
  times m = times poa /\
  forall t v, In (t, v) m -> exists g c, In (t, Fin g) poa /\ In (t, Fin c) cell /\
    v = pvwatts_value rated (qz 1000) (qz 25) gamma (Fin g) (Fin c).
