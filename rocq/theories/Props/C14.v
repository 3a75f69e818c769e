(** C14: interpolation ignores missing rows and stays between neighbours. *)

From Coq Require Import QArith Qcanon List ZArith Bool Sorted Lia.
From Verif.Base Require Import QcExtra ISort Quantile Fl Calendar TimeSeries.
From Verif.Spec Require Import Stats Interp.
From Verif.Model Require Import Interpolation.
From Verif.Proofs Require Import StatsP InterpP.
From Verif.Props Require Import C13.
Import ListNotations.
Open Scope Qc_scope.

(** Only the rows with a value matter. *)
Theorem C14_missing_rows : forall tz tz' s1 s2 target m,
  filter (fun r => notnan (snd r)) s1 = filter (fun r => notnan (snd r)) s2 ->
  interpolate tz tz' s1 (TIndex target) m = interpolate tz tz' s2 (TIndex target) m.
Proof. exact interpolate_same. Qed.

(** Every value reported lies between two source values around it. *)
Theorem C14_between : forall tz s target m out limit t q, sorted_index s -> noinf (vals s) ->
  limit_for s m limit ->
  (m = None -> (2 <= length (filter (fun r => notnan (snd r)) s))%nat) -> 0 <= limit ->
  interpolate tz tz s (TIndex target) m = Ok out -> In (t, Fin q) out ->
  exists t1 v1 t2 v2, In (t1, Fin v1) s /\ In (t2, Fin v2) s /\ (t1 <= t <= t2)%Z /\
    ((v1 <= q /\ q <= v2) \/ (v2 <= q /\ q <= v1)).
Proof. exact interpolate_between. Qed.

(** A complete source interpolated onto its own index is returned. *)
Theorem C14_own_index : forall tz s m out limit, sorted_index s -> noinf (vals s) ->
  limit_for s m limit ->
  (m = None -> (2 <= length (filter (fun r => notnan (snd r)) s))%nat) -> 0 <= limit ->
  (forall v, In v (vals s) -> v <> NaN) ->
  interpolate tz tz s (TIndex (times s)) m = Ok out -> out = s.
Proof. exact interpolate_onto_itself. Qed.

(** Scaling and shifting the source scales and shifts the output. *)
Theorem C14_affine : forall tz a b s target m out limit, sorted_index s -> noinf (vals s) ->
  limit_for s m limit ->
  (m = None -> (2 <= length (filter (fun r => notnan (snd r)) s))%nat) -> 0 <= limit ->
  interpolate tz tz s (TIndex target) m = Ok out ->
  interpolate tz tz (map_values (fun q => a * q + b) s) (TIndex target) m =
    Ok (map_values (fun q => a * q + b) out).
Proof. exact interpolate_values_affine. Qed.

(** A larger limit keeps every value reported with the smaller one. *)
Theorem C14_larger_limit : forall tz s target m1 m2 out1 out2 t q, sorted_index s -> noinf (vals s) ->
  0 <= m1 -> m1 <= m2 ->
  interpolate tz tz s (TIndex target) (Some m1) = Ok out1 ->
  interpolate tz tz s (TIndex target) (Some m2) = Ok out2 ->
  In (t, Fin q) out1 -> In (t, Fin q) out2.
Proof. exact interpolate_grow. Qed.

Print Assumptions C14_missing_rows.
Print Assumptions C14_between.
Print Assumptions C14_own_index.
Print Assumptions C14_affine.
Print Assumptions C14_larger_limit.

Example C14_example :
  interpolate true true c13_series (TIndex c13_target) (Some (qz 30)) =
  interpolate true true [(0%Z, fz 1); (10%Z, fz 2); (20%Z, fz 4); (30%Z, NaN); (40%Z, NaN); (50%Z, fz 7)]
    (TIndex c13_target) (Some (qz 30)) /\
  interpolate true true (map_values (fun q => qz 3 * q + qz (-1)) c13_series) (TIndex [12%Z; 30%Z]) (Some (qz 20)) =
    Ok [(12%Z, Fin (qf 31 5)); (30%Z, NaN)] /\
  interpolate true true c13_series (TIndex [30%Z]) (Some (qz 30)) = Ok [(30%Z, fz 5)].
Proof. split; [| split]; vm_compute; reflexivity. Qed.
