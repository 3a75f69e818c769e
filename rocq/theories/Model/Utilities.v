(** Model of /repo/rdtools/utilities.py. *)

From Coq Require Import QArith Qcanon List ZArith Bool.
From Verif.Base Require Import QcExtra Fl.
Import ListNotations.
Open Scope Qc_scope.

(** [fillna(0)] on one value. *)
Definition fillna0 (x : fl) : fl := if isnan x then Fin 0 else x.

(** utilities.py:24, 50, 76: [small = x.astype(float).fillna(0).quantile(q) / 1000]. *)
Definition robust_small (q : Qc) (x : list fl) : fl :=
  fdiv (fquantile q (map fillna0 x)) (fz 1000).

(** [x[x > small]]; a NaN never passes. *)
Definition robust_keep (q : Qc) (x : list fl) : list fl :=
  filter (fun v => fgt v (robust_small q x)) x.

(** utilities.py:4-27. *)
Definition robust_quantile (q : Qc) (x : list fl) : fl := fquantile q (robust_keep q x).

(** utilities.py:30-53. *)
Definition robust_median (q : Qc) (x : list fl) : fl := fmedian (robust_keep q x).

(** utilities.py:56-79. *)
Definition robust_mean (q : Qc) (x : list fl) : fl := fmean (robust_keep q x).

(** Default quantile 0.99 of [robust_median] and [robust_mean]. *)
Definition q99 : Qc := qf 99 100.
