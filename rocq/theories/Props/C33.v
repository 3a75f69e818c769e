(** C33: hour_angle_filter and dispatch by name. *)

From Coq Require Import QArith Qcanon List ZArith Bool Arith Lia Permutation Sorted String.
From Verif.Base Require Import QcExtra ISort Quantile Fl TimeSeries Rolling.
From Verif.Spec Require Import Stats Interp Filters.
From Verif.Model Require Import Utilities Filters.
From Verif.Proofs Require Import StatsP FlP FiltersP FiltersP2 FiltersP3.
Import ListNotations.
Open Scope list_scope.
Open Scope Qc_scope.

Theorem C33_mask : forall angle low high s,
  mask_is (fun _ t _ => (below (Fin low) (angle t) \/ angle t = Fin low) /\ (below (angle t) (Fin high) \/ angle t = Fin high)) s
    (hour_angle_filter angle (Fin low) (Fin high) s).
Proof. exact hour_angle_spec. Qed.

Theorem C33_widen : forall angle low high low' high' s i t, low' <= low -> high <= high' ->
  nth_error (hour_angle_filter angle (Fin low) (Fin high) s) i = Some (t, true) ->
  nth_error (hour_angle_filter angle (Fin low') (Fin high') s) i = Some (t, true).
Proof. exact hour_angle_widen. Qed.

Theorem C33_dispatch : forall model a b c,
  (clearsky_filter "csi" a b = a /\ clearsky_filter "pvlib" a b = b /\
   (model <> "csi"%string -> model <> "pvlib"%string -> clearsky_filter model a b = Raise ValueError)) /\
  (clip_filter "quantile" a b c = a /\ clip_filter "xgboost" a b c = b /\ clip_filter "logic" a b c = c /\
   (model <> "quantile"%string -> model <> "xgboost"%string -> model <> "logic"%string -> clip_filter model a b c = Raise ValueError)).
Proof. exact dispatch. Qed.

(** Fifteen degrees an hour from noon at 12. *)
Definition angle_of (t : Z) : fl := fz (15 * (t - 12)).
Example C33_example :
  hour_angle_filter angle_of (fz (-30)) (fz 30) [(9%Z, fz 1); (10%Z, NaN); (12%Z, fz 2); (14%Z, fz 3); (15%Z, fz 1)] =
    [(9%Z, false); (10%Z, true); (12%Z, true); (14%Z, true); (15%Z, false)] /\
  clip_filter "Logic" (Ok []) (Ok []) (Ok []) = Raise ValueError.
Proof. vm_compute. auto. Qed.

Print Assumptions C33_mask.
Print Assumptions C33_widen.
Print Assumptions C33_dispatch.
