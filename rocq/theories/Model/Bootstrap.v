(** Model of /repo/rdtools/bootstrap.py.

    The random block starts drawn by [arch.bootstrap.CircularBlockBootstrap] are
    an argument; the way the starts are expanded to positions is arch's
    [update_indices] (arch 4.x/5.x/6.x): ceil(n/L) starts, each followed by the
    offsets 0..L-1, modulo n, cut to n positions. *)

From Coq Require Import QArith Qcanon List ZArith Bool.
From Verif.Base Require Import QcExtra Fl.
Import ListNotations.
Open Scope Qc_scope.

(** bootstrap.py:19, 48-55: the two accepted decompositions. *)
Inductive decomposition : Type := Multiplicative | Additive | OtherDecomposition.

(** Positions used by one circular block bootstrap replicate. *)
Definition block_positions (n L : nat) (starts : list nat) : list nat :=
  firstn n (flat_map (fun s => map (fun o => (s + o) mod n)%nat (seq 0 L)) starts).

(** bootstrap.py:48-51: [signal / model_fit] or [signal - model_fit] (the two
    series have the same index). *)
Definition residual (d : decomposition) (x m : fl) : fl :=
  match d with Multiplicative => fdiv x m | _ => fsub x m end.

(** bootstrap.py:64-69. *)
Definition recombine (d : decomposition) (m r : fl) : fl :=
  match d with Multiplicative => fmul m r | _ => fadd m r end.

Definition map2 {A B C} (f : A -> B -> C) (l1 : list A) (l2 : list B) : list C :=
  map (fun p => f (fst p) (snd p)) (combine l1 l2).

(** One column of the frame built at bootstrap.py:58-69. *)
Definition bootstrap_column (d : decomposition) (L : nat) (signal model_fit : list fl)
    (starts : list nat) : list fl :=
  let residuals := map2 (residual d) signal model_fit in
  let idx := block_positions (length signal) L starts in
  map2 (recombine d) model_fit (map (fun i => nth i residuals NaN) idx).

(** bootstrap.py:17-71, [_make_time_series_bootstrap_samples]; [all_starts] has
    one list of block starts per replicate. *)
Definition make_samples (d : decomposition) (L : nat) (signal model_fit : list fl)
    (all_starts : list (list nat)) : result (list (list fl)) :=
  match d with
  | OtherDecomposition => Raise ValueError
  | _ => Ok (map (bootstrap_column d L signal model_fit) all_starts)
  end.

(** Ends of a percentile confidence interval, bootstrap.py:112-113,
    degradation.py:311-312 and 449-450, soiling.py:670-672. *)
Definition percentile_ci (confidence_level : Qc) (metrics : list fl) : result (fl * fl) :=
  let half_ci := confidence_level / qz 2 in
  bind (np_percentile (qz 50 - half_ci) metrics) (fun lo =>
  bind (np_percentile (qz 50 + half_ci) metrics) (fun hi => Ok (lo, hi))).

(** bootstrap.py:116, degradation.py:314: [np.percentile(m, 100 - exceedance_prob)]. *)
Definition exceedance (exceedance_prob : Qc) (metrics : list fl) : result fl :=
  np_percentile (qz 100 - exceedance_prob) metrics.

(** Apply a fallible function to every column. *)
Fixpoint mapM {A B} (f : A -> result B) (l : list A) : result (list B) :=
  match l with
  | [] => Ok []
  | x :: l' => bind (f x) (fun y => bind (mapM f l') (fun ys => Ok (y :: ys)))
  end.

(** bootstrap.py:74-118, [_construct_confidence_intervals]. *)
Definition construct_ci {A} (fit : A -> result fl) (exceedance_prob confidence_level : Qc)
    (samples : list A) : result ((fl * fl) * fl * list fl) :=
  bind (mapM fit samples) (fun metrics =>
  bind (percentile_ci confidence_level metrics) (fun ci =>
  bind (exceedance exceedance_prob metrics) (fun ex => Ok (ci, ex, metrics)))).
