(** Specification of energy over an interval. *)

From Coq Require Import QArith Qcanon List ZArith Bool.
From Verif.Base Require Import QcExtra Fl Segments.
From Verif.Spec Require Import Stats Interp.
Import ListNotations.
Open Scope Qc_scope.

(** Rows with a value. *)
Fixpoint points (s : series) : list (Z * Qc) :=
  match s with
  | [] => []
  | (t, Fin q) :: s' => (t, q) :: points s'
  | _ :: s' => points s'
  end.

Definition hours (ns : Z) : Qc := qz ns / qz 3600000000000.

(** Length of the common part of [(a, b]] and [(lo, hi]]. *)
Definition overlap (a b lo hi : Z) : Z := Z.max 0 (Z.min b hi - Z.max a lo).

(** Two consecutive rows with a value, no more than [limit] apart. *)
Definition close (limit : Qc) (pr : (Z * Qc) * (Z * Qc)) : bool :=
  qle (qz (fst (snd pr) - fst (fst pr))) limit.
Definition steps_used (s : series) (limit : Qc) : list ((Z * Qc) * (Z * Qc)) :=
  filter (close limit) (consec (points s)).

(** Rectangles: a value applies to the time since the previous row with a value. *)
Definition rect_part (lo hi : Z) (pr : (Z * Qc) * (Z * Qc)) : Qc :=
  snd (snd pr) * hours (overlap (fst (fst pr)) (fst (snd pr)) lo hi).
Definition rect_energy (s : series) (limit : Qc) (lo hi : Z) : Qc :=
  qsum (map (rect_part lo hi) (steps_used s limit)).
(** Some of the interval is covered. *)
Definition rect_covered (s : series) (limit : Qc) (lo hi : Z) : Prop :=
  exists pr, In pr (steps_used s limit) /\ (0 < overlap (fst (fst pr)) (fst (snd pr)) lo hi)%Z.

(** [t] lies in a step between consecutive rows, with or without values, longer than
    [limit]. *)
Definition in_long_step (s : series) (limit : Qc) (t : Z) : Prop :=
  exists a b, In (a, b) (consec (times s)) /\ (a < t <= b)%Z /\ limit < qz (b - a).

(** ** Trapezoids *)

(** The last value is held until [stop]. *)
Definition held (s : series) (stop : Z) : list (Z * Qc) :=
  points s ++
  match rev (points s) with
  | (t, q) :: _ => if (t <? stop)%Z then [(stop, q)] else []
  | [] => []
  end.
Definition last_time (s : series) : Z := match rev (points s) with (t, _) :: _ => t | [] => 0%Z end.

(** The value at [t] itself is used: it is the first row, or the step before it is not
    too long. *)
Definition trusted (s : series) (limit : Qc) (t : Z) : bool :=
  match s with (t0, Fin _) :: _ => (t0 =? t)%Z | _ => false end ||
  existsb (fun pr => (fst (snd pr) =? t)%Z) (steps_used s limit).

(** The next row or end of a target interval after [t]. *)
Definition next_cut (s : series) (t0 width t : Z) : Z :=
  let label := (t0 + width * ((t - t0) / width + 1))%Z in
  match find (fun r => (t <? fst r)%Z) s with Some r => Z.min (fst r) label | None => label end.

Definition trap_from (s : series) (limit : Qc) (t0 width : Z) (pr : (Z * Qc) * (Z * Qc)) : Z :=
  if trusted s limit (fst (fst pr)) then fst (fst pr) else next_cut s t0 width (fst (fst pr)).
Definition trap_used (s : series) (limit : Qc) (stop : Z) : list ((Z * Qc) * (Z * Qc)) :=
  filter (fun pr => close limit pr || (last_time s <=? fst (fst pr))%Z) (consec (held s stop)).

(** Area under the chord over the part of [(from, b]] inside [(lo, hi]]. *)
Definition trap_part (from lo hi : Z) (pr : (Z * Qc) * (Z * Qc)) : Qc :=
  let x := Z.max from lo in let y := Z.min (fst (snd pr)) hi in
  let chord := on_chord (fst (fst pr)) (snd (fst pr)) (fst (snd pr)) (snd (snd pr)) in
  if (x <? y)%Z then (chord y + chord x) / qz 2 * hours (y - x) else 0.
Definition trap_energy (s : series) (limit : Qc) (t0 width stop lo hi : Z) : Qc :=
  qsum (map (fun pr => trap_part (trap_from s limit t0 width pr) lo hi pr) (trap_used s limit stop)).
Definition trap_covered (s : series) (limit : Qc) (t0 width stop lo hi : Z) : Prop :=
  exists pr, In pr (trap_used s limit stop) /\
    (0 < overlap (trap_from s limit t0 width pr) (fst (snd pr)) lo hi)%Z.

(** ** Results *)

Definition first_time (s : series) : Z := hd 0%Z (times s).
Definition final_time (s : series) : Z := List.last (times s) 0%Z.

(** The limit: the given one, or the median step. *)
Definition the_limit (max : option Qc) (med : Qc) : Qc := match max with Some m => m | None => med end.

(** A value is NaN at the end of a long step or when nothing is covered. *)
Definition reported (long covered : Prop) (energy : Qc) (v : fl) : Prop :=
  (long -> v = NaN) /\ (~ covered -> v = NaN) /\ (~ long -> covered -> v = Fin energy).

(** Interpolated power exists at both ends of the interval ending at [t] and is [q] at
    its end. *)
Definition both_ends (power : series) (width : Z) (limit : Qc) (t : Z) (q : Qc) : Prop :=
  qz width <= limit /\ interp power limit t (Fin q) /\ exists q', interp power limit (t - width) (Fin q').

(** Times first, first + width, … up to the last row. *)
Definition on_grid (power : series) (width t : Z) : Prop :=
  exists k, (0 <= k)%Z /\ t = (first_time power + width * k)%Z /\ (t <= final_time power)%Z.

(** Every row has a value and no step is longer than [limit]. *)
Definition no_gaps (s : series) (limit : Qc) : Prop :=
  (forall v, In v (vals s) -> v <> NaN) /\ forall g, In g (gaps_between (times s)) -> g <= limit.

(** Power times time over all steps. *)
Definition total_energy (s : series) : Qc :=
  qsum (map (fun pr => snd (snd pr) * hours (fst (snd pr) - fst (fst pr))) (consec (points s))).

(** The first of t0, t0 + width, … at or after [last]. *)
Definition end_of_bins (t0 width last : Z) : Z := (t0 + width * - (- (last - t0) / width))%Z.

(** The same outcome with another series. *)
Definition rmap {A B : Type} (f : A -> B) (r : result A) : result B :=
  match r with Ok o => Ok (f o) | Raise e => Raise e end.

(** The row at [g] changed to [q]. *)
Definition set_value (s : series) (g : Z) (q : Qc) : series :=
  map (fun r => if (fst r =? g)%Z then (g, Fin q) else r) s.
