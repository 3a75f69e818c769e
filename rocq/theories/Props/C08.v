(** C08: circular block bootstrap samples. *)

From Coq Require Import QArith Qcanon List ZArith Bool Permutation Sorted Lia.
From Verif.Base Require Import QcExtra ISort Quantile Fl Calendar.
From Verif.Spec Require Import Stats Time YoY.
From Verif.Model Require Import Utilities Bootstrap YearOnYear.
From Verif.Proofs Require Import StatsP FlP YoYP YoYP2 BootP.
From Verif.Props Require Import YoYDemo.
Import ListNotations.
Open Scope Qc_scope.

(** Sample [k] at position [i] is the model at [i] times the residual at a position of
    the block containing [i]; [L] is the block length, [all] the block starts drawn
    (enough of them to cover the signal). *)
Theorem C08_multiplicative : forall L signal fit all k i samples,
  length fit = length signal ->
  make_samples Multiplicative L signal fit all = Ok samples ->
  (forall st, In st all -> (length signal <= length st * L)%nat) ->
  length samples = length all /\
  ((k < length all)%nat ->
   length (nth k samples []) = length signal /\
   ((i < length signal)%nat ->
    exists j, j = ((nth (i / L) (nth k all []) 0 + i mod L) mod length signal)%nat /\
    (j < length signal)%nat /\
    nth i (nth k samples []) NaN =
    fmul (nth i fit NaN) (fdiv (nth j signal NaN) (nth j fit NaN)))).
Proof. exact samples_mult. Qed.

Theorem C08_additive : forall L signal fit all k i samples,
  length fit = length signal ->
  make_samples Additive L signal fit all = Ok samples ->
  (forall st, In st all -> (length signal <= length st * L)%nat) ->
  length samples = length all /\
  ((k < length all)%nat ->
   length (nth k samples []) = length signal /\
   ((i < length signal)%nat ->
    exists j, j = ((nth (i / L) (nth k all []) 0 + i mod L) mod length signal)%nat /\
    (j < length signal)%nat /\
    nth i (nth k samples []) NaN =
    fadd (nth i fit NaN) (fsub (nth j signal NaN) (nth j fit NaN)))).
Proof. exact samples_add. Qed.

(** A perfect model reproduces the signal whatever is drawn. *)
Theorem C08_exact_fit : forall d L signal all samples,
  make_samples d L (map Fin signal) (map Fin signal) all = Ok samples ->
  (d = Multiplicative -> ~ In 0 signal) ->
  (forall st, In st all -> (length signal <= length st * L)%nat) ->
  forall s, In s samples -> s = map Fin signal.
Proof. exact samples_exact. Qed.

Theorem C08_other_decomposition : forall L signal fit all,
  make_samples OtherDecomposition L signal fit all = Raise ValueError.
Proof. exact samples_other. Qed.

Print Assumptions C08_multiplicative.
Print Assumptions C08_additive.
Print Assumptions C08_exact_fit.
Print Assumptions C08_other_decomposition.

(** Block length 2, five points, a block wrapping around the end. *)
Example C08_example :
  make_samples Additive 2 (map fz [10; 20; 30; 40; 50]%Z) (map fz [11; 19; 33; 36; 50]%Z) [[4; 2; 0]]%nat
  = Ok [map fz [11; 18; 30; 40; 49]%Z].
Proof. fcompute. Qed.
