(** A system that always delivers the same multiple of its modelled energy. *)

From Coq Require Import QArith Qcanon List ZArith Bool String.
From Verif.Base Require Import QcExtra Fl TimeSeries Calendar Rolling.
From Verif.Model Require Import Energy Normalization FilterDict TrendAnalysis YearOnYear.
From Verif.Spec Require Import Normalization FilterSets TrendRuns.
Import ListNotations.
Open Scope list_scope.
Open Scope Qc_scope.

(** Every value that is not missing is [c]. *)
Definition flat_at (c : Qc) (s : series) : Prop := forall t v, In (t, v) s -> v = Fin c \/ v = NaN.

(** Every draw has positions, and only positions, of the values. *)
Definition draws_ok (choice : nat -> list (list nat)) : Prop :=
  forall n, (0 < n)%nat -> choice n <> [] /\ forall d, In d (choice n) -> d <> [] /\ forall i, In i d -> (i < n)%nat.

(** No change per year, whatever is reported of it. *)
Definition no_change (o : yoy_out) : Prop :=
  yo_rate o = Fin 0 /\ (forall t v, In (t, v) (yo_values o) -> v = Fin 0) /\
  (forall lo hi, yo_ci o = Some (lo, hi) -> lo = Fin 0 /\ hi = Fin 0) /\
  (forall x, yo_exceedance o = Some x -> x = Fin 0).

(** Measured energy is [c] times the energy of the modelled power over the same steps; the model,
    whose index has the frequency of [index], has no longer steps than the energy. *)
Definition proportional (infer freq : list Z -> option Z) (c : Qc) (energy model index : series) : Prop :=
  sorted_index energy /\ freq_ok infer (freq (times energy)) (times energy) /\
  ~ slower (freq (times index)) (times model) (freq (times energy)) (times energy) /\
  exists w modelled, (freq (times energy) = Some w \/ freq (times energy) = None /\ infer (times energy) = Some w) /\
    energy_from_power None model (Some w) None RightLabeled = Ok modelled /\
    energy = map (fun r => (fst r, fmul (Fin c) (snd r))) modelled.

Section Analyses.
Context {P W T O YK SK YR SR : Type}.
Local Notation env := (environment P W T O YK SK YR SR).

(** The normalized filter keeps no row without a value. *)
Definition excludes_missing (E : env) (energy : series) : Prop :=
  forall p m t, e_normalized E p energy = Ok m -> In (t, NaN) energy -> ~ holds m t.

(** Irradiance and cell temperature of a case. *)
Definition given {A} (a : attr A) : option A := match a with Present x => Some x | _ => None end.
Definition irradiance_of (c : case) (i : inputs W O) (k : completed P T) : option series :=
  match c with Sensor => i_poa i | Clearsky => given (c_clear_poa k) end.
Definition temperature_of (c : case) (k : completed P T) : option series :=
  match c with Sensor => c_cell k | Clearsky => given (c_clear_cell k) end.
(** The modelled power and the series whose index gives its frequency: what the user expects, or
    PVWatts of irradiance and cell temperature. *)
Definition model_of (c : case) (i : inputs W O) (k : completed P T) (model index : series) : Prop :=
  match i_expected i with
  | Some x => model = x /\ index = x
  | None => exists poa cell, irradiance_of c i k = Some poa /\ temperature_of c k = Some cell /\ index = poa /\
      model = pvwatts_dc_power poa (match i_rated i with Some r => r | None => Fin 1 end) (Some cell) (fz 1000) (fz 25) (i_gamma i)
  end.
(** Where the level ends up: without expected power and without a rating it becomes 1. *)
Definition level_of (i : inputs W O) (c : Qc) : Qc :=
  match i_expected i, i_rated i with None, None => 1 | _, _ => c end.
End Analyses.
