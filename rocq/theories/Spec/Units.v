(** Power, energy, expected power and rating in another unit. *)

From Coq Require Import QArith Qcanon List ZArith.
From Verif.Base Require Import QcExtra Quantile Fl TimeSeries.
From Verif.Model Require Import TrendAnalysis.
Import ListNotations.
Open Scope Qc_scope.

(** [c] of the new units are one old unit. *)
Definition number_in (c : Qc) (x : fl) : fl := match x with Fin q => Fin (c * q) | e => e end.
Definition series_in (c : Qc) (s : series) : series := map (fun r => (fst r, number_in c (snd r))) s.
Definition attr_in (c : Qc) (a : attr series) : attr series := match a with Present s => Present (series_in c s) | e => e end.

Section Units.
Context {P W T O YK SK YR SR : Type}.
Definition inputs_in (c : Qc) (i : inputs W O) : inputs W O :=
  Inputs (attr_in c (i_power i)) (attr_in c (i_energy i)) (i_poa i) (i_ambient i) (i_gamma i) (i_width i) (i_wind i)
    (option_map (series_in c) (i_expected i)) (option_map (number_in c) (i_rated i)) (i_max_timedelta i) (i_location i) (i_orientation i).
(** The energy alone. *)
Definition energy_only (c : Qc) (i : inputs W O) : inputs W O :=
  Inputs (i_power i) (attr_in c (i_energy i)) (i_poa i) (i_ambient i) (i_gamma i) (i_width i) (i_wind i) (i_expected i) (i_rated i) (i_max_timedelta i) (i_location i) (i_orientation i).
(** All the rest of the object stays. *)
Definition object_in (c : Qc) (s : state P W T O YR SR) : state P W T O YR SR :=
  State (inputs_in c (s_inputs s)) (s_completed s) (s_sensor s) (s_clear s).

(** The clipping filter finds the same rows in this power in both units. *)
Definition clips_alike (E : environment P W T O YK SK YR SR) (c : Qc) (power : attr series) : Prop :=
  forall p s, power = Present s -> e_clip E p (series_in c s) = e_clip E p s.
End Units.

(** The numbers among the values. *)
Definition numbers (s : series) : list fl := filter (fun x => match x with Fin _ => true | _ => false end) (vals s).
