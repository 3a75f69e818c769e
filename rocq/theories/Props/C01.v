(** C01: percentile confidence intervals. *)

From Coq Require Import QArith Qcanon List ZArith.
From Verif.Base Require Import QcExtra Fl.
From Verif.Spec Require Import Stats.
From Verif.Model Require Import Bootstrap.
From Verif.Proofs Require Import StatsP.
Import ListNotations.
Open Scope Qc_scope.

(** The interval brackets the median of the estimates. *)
Theorem C01_ci_ordered : forall c l m, l <> [] -> 0 <= c -> c <= qz 100 -> is_median l m ->
  exists lo hi, percentile_ci c (map Fin l) = Ok (Fin lo, Fin hi) /\ lo <= m /\ m <= hi.
Proof. exact ci_ordered. Qed.

(** A larger confidence level gives an interval containing the smaller one. *)
Theorem C01_ci_nested : forall c c' l lo hi lo' hi',
  l <> [] -> 0 <= c -> c <= c' -> c' <= qz 100 ->
  percentile_ci c (map Fin l) = Ok (Fin lo, Fin hi) ->
  percentile_ci c' (map Fin l) = Ok (Fin lo', Fin hi') ->
  lo' <= lo /\ hi <= hi'.
Proof. exact ci_nested. Qed.

(** At level 100 the interval is exactly [minimum, maximum]. *)
Theorem C01_ci_full : forall l, l <> [] ->
  exists lo hi, percentile_ci (qz 100) (map Fin l) = Ok (Fin lo, Fin hi) /\
    is_min l lo /\ is_max l hi.
Proof. exact ci_full. Qed.

(** The ends are the 50-c/2 and 50+c/2 percentiles with linear interpolation. *)
Theorem C01_ci_percentiles : forall c l, l <> [] -> 0 <= c -> c <= qz 100 ->
  exists lo hi, percentile_ci c (map Fin l) = Ok (Fin lo, Fin hi) /\
    is_percentile (qz 50 - c / qz 2) l lo /\ is_percentile (qz 50 + c / qz 2) l hi.
Proof. exact ci_percentiles. Qed.

(** A level above 100 or below -100 is rejected. *)
Theorem C01_ci_rejected : forall c l, (qz 100 < c \/ c < - qz 100) ->
  percentile_ci c l = Raise ValueError.
Proof. exact ci_rejected. Qed.

(** The exceedance level is the (100-e)-percentile and decreases in e. *)
Theorem C01_exceedance_antitone : forall e e' l,
  l <> [] -> 0 <= e -> e <= e' -> e' <= qz 100 ->
  exists v v', exceedance e (map Fin l) = Ok (Fin v) /\ exceedance e' (map Fin l) = Ok (Fin v') /\
    v' <= v /\ is_percentile (qz 100 - e) l v.
Proof. exact exceedance_antitone. Qed.

Print Assumptions C01_ci_ordered.
Print Assumptions C01_ci_nested.
Print Assumptions C01_ci_full.
Print Assumptions C01_ci_percentiles.
Print Assumptions C01_ci_rejected.
Print Assumptions C01_exceedance_antitone.

(** Five estimates, 50 % interval: the 25 and 75 percentiles. *)
Example C01_example :
  percentile_ci (qz 50) (map Fin [qz 3; qz 1; qz 2; qz 10; qz 5]) = Ok (fz 2, fz 5) /\
  exceedance (qz 95) (map Fin [qz 3; qz 1; qz 2; qz 10; qz 5]) = Ok (ff 6 5) /\
  is_median [qz 3; qz 1; qz 2; qz 10; qz 5] (qz 3).
Proof.
  split; [fcompute |]. split; [fcompute |].
  exact (qmedian_spec [qz 3; qz 1; qz 2; qz 10; qz 5] ltac:(discriminate)).
Qed.
