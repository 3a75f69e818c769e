(** Specifications for normalisation, rescaling and insolation-weighted aggregation. *)

From Coq Require Import QArith Qcanon List ZArith Bool Sorted.
From Verif.Base Require Import QcExtra Fl TimeSeries Calendar.
From Verif.Spec Require Import Stats.
Import ListNotations.
Open Scope Qc_scope.

(** ** PVWatts *)

(** Power of one row; missing irradiance or temperature gives a missing power. *)
Definition pvwatts_value (rated ref tref gamma : Qc) (g c : fl) : fl :=
  match g, c with
  | Fin g, Fin c => Fin (rated * g / ref * (1 + gamma * (c - tref)))
  | _, _ => NaN
  end.

(** ** Average step *)

(** [avg_step freq l a]: [a] is the average step of the index [l]: the width of the
    frequency it carries, or the mean of the steps.  An index with neither has none. *)
Definition avg_step (freq : option Z) (l : list Z) (a : Qc) : Prop :=
  l <> [] /\
  match freq with
  | Some w => a = qz w
  | None => exists x y l' m, l = x :: l' /\ l = m ++ [y] /\ l' <> [] /\
                             a * qz (Z.of_nat (length l')) = qz (y - x)
  end.

Definition slower (freq1 : option Z) (l1 : list Z) (freq2 : option Z) (l2 : list Z) : Prop :=
  exists a b, avg_step freq1 l1 a /\ avg_step freq2 l2 b /\ b < a.

(** Rows every [w] nanoseconds. *)
Definition regular (w : Z) (l : list Z) : Prop :=
  exists t0, l = map (fun k => t0 + w * Z.of_nat k)%Z (seq 0 (length l)).

(** The frequency of an index describes it. *)
Definition freq_ok (infer : list Z -> option Z) (freq : option Z) (l : list Z) : Prop :=
  (forall w, freq = Some w -> (0 < w)%Z /\ regular w l) /\
  (forall w, infer l = Some w -> (0 < w)%Z /\ regular w l /\ (3 <= length l)%nat).

(** ** Rescaling *)

(** The optimiser [optimise] returns a point where the objective is as small as
    possible. *)
Definition minimises (optimise : (fl -> fl) -> fl -> fl) (objective : fl -> fl) (guess : fl) : Prop :=
  exists x, optimise objective guess = Fin x /\ forall y, fle (objective (Fin x)) (objective (Fin y)) = true.

(** Factors tried one after another: each but the last differs from its predecessor by
    more than the threshold. *)
Definition far (threshold a b : fl) : Prop := fgt (fabs (fsub a b)) threshold = true.

(** [tried next threshold prev f fs]: [fs] continues the sequence [prev, f]. *)
Inductive tried (next : fl -> fl) (threshold : fl) : fl -> fl -> list fl -> Prop :=
| tried_stop : forall prev f, tried next threshold prev f []
| tried_more : forall prev f fs, far threshold f prev -> tried next threshold f (next f) fs ->
    tried next threshold prev f (next f :: fs).

(** Measured irradiance within 20 % of [g] times the simulated one. *)
Definition near_at (g irr sim : Qc) : Prop :=
  g * sim <> 0 /\ qf 8 10 <= irr / (g * sim) /\ irr / (g * sim) <= qf 12 10.

(** A clear row at factor [g]. *)
Definition clear_at (g irr sim : Qc) : Prop := near_at g irr sim /\ qz 200 < irr.

(** [picked P rows ps]: [ps] are the rows that are complete and satisfy [P], in order. *)
Inductive picked (P : Qc -> Qc -> Prop) : list (fl * fl) -> list (Qc * Qc) -> Prop :=
| picked_nil : picked P [] []
| picked_keep : forall i s rows ps, P i s -> picked P rows ps -> picked P ((Fin i, Fin s) :: rows) ((i, s) :: ps)
| picked_skip : forall r rows ps, (forall i s, r = (Fin i, Fin s) -> ~ P i s) -> picked P rows ps ->
    picked P (r :: rows) ps.

(** Mean squared difference between [x] times the simulated and the measured values. *)
Definition mean_sq (ps : list (Qc * Qc)) (x : Qc) : Qc :=
  qsum (map (fun p => (x * snd p - fst p) * (x * snd p - fst p)) ps) / qz (Z.of_nat (length ps)).

(** ** Aggregation *)

Definition in_bin (b w t : Z) : Prop := (b <= t < b + w)%Z.
Definition inside (b w t : Z) : bool := (b <=? t)%Z && (t <? b + w)%Z.

(** A missing value counts as nothing. *)
Definition present (x : fl) : Qc := match x with Fin q => q | _ => 0 end.

(** Insolation in the bin starting at [b]; energy-weighted insolation; and the insolation of
    the rows whose energy is known. *)
Definition bin_weight (b w : Z) (ins : series) : Qc :=
  qsum (map (fun r => if inside b w (fst r) then present (snd r) else 0) ins).
Definition bin_energy (b w : Z) (ins en : series) : Qc :=
  qsum (map (fun p => if inside b w (fst (fst p)) then present (snd (fst p)) * present (snd (snd p)) else 0)
            (combine ins en)).
Definition bin_known (b w : Z) (ins en : series) : Qc :=
  qsum (map (fun p => if inside b w (fst (fst p)) && notnan (snd (snd p)) then present (snd (fst p)) else 0)
            (combine ins en)).

(** Midnight of the day of [t]. *)
Definition midnight (m t : Z) : Prop := (exists d, m = ns_day * d)%Z /\ (m <= t < m + ns_day)%Z.
