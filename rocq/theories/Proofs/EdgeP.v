(** Proofs about empty and incomplete inputs of several functions. *)

From Coq Require Import QArith Qcanon List ZArith Bool Arith Lia.
From Verif.Base Require Import QcExtra ISort Quantile Fl TimeSeries.
From Verif.Model Require Import Interpolation Regression Soiling.
From Verif.Proofs Require Import FlP RegressionP.
Import ListNotations.
Open Scope list_scope.
Open Scope Qc_scope.

Lemma interpolate_frame_errors : forall index cols target m w tz tz',
  interpolate_frame true false index cols (TIndex target) m = Raise ValueError /\
  interpolate_frame false true index cols (TIndex target) m = Raise ValueError /\
  interpolate_frame tz tz' index cols TOther m = Raise UnboundLocalError /\
  interpolate_frame tz tz' [] cols (TFreq w) m = Raise ValueError /\
  interpolate_frame tz tz index [] (TIndex target) m = Raise ValueError /\
  (index <> [] -> interpolate_frame tz tz' index [] (TFreq w) m = Raise ValueError).
Proof.
  intros. unfold interpolate_frame. cbn [target_index bind]. do 4 (split; [reflexivity |]). split.
  - destruct tz; reflexivity.
  - intros H. destruct index; [contradiction |]. cbn [bind]. destruct tz; reflexivity.
Qed.

Lemma theil_fit_missing : forall margin l t v, In (t, v) l -> (forall q, v <> Fin q) -> theil_fit margin l = (NaN, NaN, NaN, NaN).
Proof.
  intros margin l t v H N. unfold theil_fit. destruct (forallb (fun p => isfin (snd p)) l) eqn:E; [| reflexivity].
  rewrite forallb_forall in E. specialize (E _ H). cbn [snd] in E. destruct v; try discriminate E. elim (N q eq_refl).
Qed.

Lemma percentiles_none : forall c e, srr_percentiles [] c e =
  Raise (if qle (- qz 100) c && qle c (qz 100) && qle 0 e && qle e (qz 100) then IndexError else ValueError).
Proof.
  intros c e. unfold srr_percentiles, np_percentile.
  assert (H : forall a b : bool, (a = true <-> b = true) -> a = b) by (intros [] [] K; try reflexivity; [symmetry |]; apply K; reflexivity).
  assert (D : c / qz 2 * qz 2 = c) by (field; discriminate).
  change (qle 0 (qz 50) && qle (qz 50) (qz 100)) with true. cbn [bind].
  replace (qle 0 (qz 50 - c / qz 2)) with (qle c (qz 100)) by (apply H; rewrite !qle_spec; split; intros; qlra).
  replace (qle (qz 50 - c / qz 2) (qz 100)) with (qle (- qz 100) c) by (apply H; rewrite !qle_spec; split; intros; qlra).
  replace (qle 0 (qz 50 + c / qz 2)) with (qle (- qz 100) c) by (apply H; rewrite !qle_spec; split; intros; qlra).
  replace (qle (qz 50 + c / qz 2) (qz 100)) with (qle c (qz 100)) by (apply H; rewrite !qle_spec; split; intros; qlra).
  replace (qle 0 (qz 100 - e)) with (qle e (qz 100)) by (apply H; rewrite !qle_spec; split; intros; qlra).
  replace (qle (qz 100 - e) (qz 100)) with (qle 0 e) by (apply H; rewrite !qle_spec; split; intros; qlra).
  destruct (qle (- qz 100) c), (qle c (qz 100)), (qle 0 e), (qle e (qz 100)); reflexivity.
Qed.

Lemma ols_empty : forall draws cl, degradation_ols draws cl [] = Raise IndexError.
Proof. reflexivity. Qed.
