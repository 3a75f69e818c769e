(** A system whose output fades by the same amount from bin to bin. *)

From Coq Require Import QArith Qcanon List ZArith Bool String.
From Verif.Base Require Import QcExtra Fl TimeSeries Calendar Rolling.
From Verif.Model Require Import Energy Normalization FilterDict TrendAnalysis YearOnYear.
From Verif.Spec Require Import Normalization FilterSets TrendRuns YoY Steady.
Import ListNotations.
Open Scope list_scope.
Open Scope Qc_scope.

(** Measured energy is the [f t]-fold of the energy of the modelled power over the same step. *)
Definition follows_model (infer freq : list Z -> option Z) (f : Z -> Qc) (energy model index : series) : Prop :=
  sorted_index energy /\ freq_ok infer (freq (times energy)) (times energy) /\
  ~ slower (freq (times index)) (times model) (freq (times energy)) (times energy) /\
  exists w modelled, (freq (times energy) = Some w \/ freq (times energy) = None /\ infer (times energy) = Some w) /\
    energy_from_power None model (Some w) None RightLabeled = Ok modelled /\
    energy = map (fun r => (fst r, fmul (Fin (f (fst r))) (snd r))) modelled.

(** Within a bin of width [w], counted from the midnight before any of the rows, [f] is [a] and [slope]
    times the start of the bin; it is positive. *)
Definition fades (w : Z) (a slope : Qc) (f : Z -> Qc) (rows : list Z) : Prop :=
  forall t, In t rows -> 0 < f t /\
    forall u m j, In u rows -> midnight m u -> inside (m + w * j) w t = true -> f t = a + slope * qz (m + w * j).
(** For widths that divide a day: the start of the bin is the time rounded down. *)
Definition fading (w : Z) (a slope : Qc) (t : Z) : Qc := a + slope * qz (w * (t / w)).

(** The performance [k (a + slope b)] at [b] where it is known. *)
Definition on_fading_line (k a slope : Qc) (p : series) : Prop :=
  forall b v, In (b, v) p -> v = NaN \/ (v = Fin (k * (a + slope * qz b)) /\ 0 < a + slope * qz b).

(** The same change for every pair, and all that is reported of it. *)
Definition one_change (x : Qc) (m : umethod) (o : yoy_out) : Prop :=
  yo_rate o = Fin x /\ (forall t v, In (t, v) (yo_values o) -> v = Fin x) /\
  (m = Simple -> (forall lo hi, yo_ci o = Some (lo, hi) -> lo = Fin x /\ hi = Fin x) /\ (forall e, yo_exceedance o = Some e -> e = Fin x)).

(** The scale is known if an expected power or a rating is given. *)
Definition scale_of {W O} (i : inputs W O) (k : Qc) : Prop :=
  0 < k /\ match i_expected i, i_rated i with None, None => True | _, _ => k = 1 end.

(** What the performance is divided by: with recentering a value between two of the first year. *)
Definition first_year_level (recenter : bool) (p : series) (rho : Qc) : Prop :=
  if recenter then exists first t x u y, (exists v, In (first, v) p) /\ (forall b v, In (b, v) p -> first <= b)%Z /\
    In (t, Fin x) p /\ (t <= first + days 364)%Z /\ x <= rho /\ In (u, Fin y) p /\ (u <= first + days 364)%Z /\ rho <= y
  else rho = 1.
