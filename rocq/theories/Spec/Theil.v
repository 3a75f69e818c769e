(** Theil-Sen fits: the median of the slopes through all pairs of points. *)

From Coq Require Import QArith Qcanon List ZArith Bool.
From Verif.Base Require Import QcExtra.
Import ListNotations.
Open Scope list_scope.
Open Scope Qc_scope.

(** Slopes of the chords, one for each pair of points with increasing abscissa. *)
Definition chords (pts : list (Z * Qc)) : list Qc :=
  map (fun pr => (snd (snd pr) - snd (fst pr)) / qz (fst (snd pr) - fst (fst pr)))
      (filter (fun pr => (fst (fst pr) <? fst (snd pr))%Z) (list_prod pts pts)).

(** [r] is the integer nearest to [x], the even one of two. *)
Definition nearest_even (x : Qc) (r : Z) : Prop :=
  x - qf 1 2 <= qz r /\ qz r <= x + qf 1 2 /\ (qz r = x - qf 1 2 \/ qz r = x + qf 1 2 -> Z.Even r).
