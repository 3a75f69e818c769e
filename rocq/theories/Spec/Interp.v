(** Specification of gap-limited linear interpolation. *)

From Coq Require Import QArith Qcanon List ZArith.
From Verif.Base Require Import QcExtra Fl.
From Verif.Spec Require Import Stats.
Import ListNotations.
Open Scope Qc_scope.

(** [(t1, v1)] and [(t2, v2)] are neighbouring available rows around [t]. *)
Definition bracket (s : series) (t1 : Z) (v1 : Qc) (t2 : Z) (v2 : Qc) (t : Z) : Prop :=
  In (t1, Fin v1) s /\ In (t2, Fin v2) s /\ (t1 < t < t2)%Z /\
  forall u w, In (u, Fin w) s -> (u <= t1 \/ t2 <= u)%Z.

(** The straight line through two points. *)
Definition on_chord (t1 : Z) (v1 : Qc) (t2 : Z) (v2 : Qc) (t : Z) : Qc :=
  v1 + (v2 - v1) * (qz (t - t1) / qz (t2 - t1)).

(** [interp s limit t v]: [v] is the interpolated value at [t]. *)
Inductive interp (s : series) (limit : Qc) (t : Z) : fl -> Prop :=
| interp_point : forall q, In (t, Fin q) s -> interp s limit t (Fin q)
| interp_between : forall t1 v1 t2 v2,
    bracket s t1 v1 t2 v2 t -> (qz (t2 - t1) <= limit) ->
    interp s limit t (Fin (on_chord t1 v1 t2 v2 t))
| interp_gap : forall t1 v1 t2 v2,
    bracket s t1 v1 t2 v2 t -> (limit < qz (t2 - t1)) -> interp s limit t NaN
| interp_before : (forall u w, In (u, Fin w) s -> (t < u)%Z) -> interp s limit t NaN
| interp_after : (forall u w, In (u, Fin w) s -> (u < t)%Z) -> interp s limit t NaN.

(** Steps between consecutive times. *)
Fixpoint gaps_between (l : list Z) : list Qc :=
  match l with
  | a :: ((b :: _) as l') => qz (b - a) :: gaps_between l'
  | _ => []
  end.

(** The limit on the distance of the two neighbours: the given one, or twice the
    median step between available rows. *)
Definition limit_for (s : series) (max : option Qc) (limit : Qc) : Prop :=
  match max with
  | Some m => limit = m
  | None => exists med, is_median (gaps_between (times (filter (fun r => notnan (snd r)) s))) med /\
                        limit = qz 2 * med
  end.

(** The same series with its (finite) values transformed. *)
Definition map_values (f : Qc -> Qc) (s : series) : series :=
  map (fun r => (fst r, match snd r with Fin q => Fin (f q) | e => e end)) s.
