(** C66: what the classifier of the clipping filter is shown, and what follows for the mask *)

From Coq Require Import QArith Qcanon List ZArith Bool Arith Lia Permutation Sorted.
From Verif.Base Require Import QcExtra ISort Quantile Fl TimeSeries Calendar Rolling.
From Verif.Spec Require Import Stats Filters Normalization Clipping ClipFeatures.
From Verif.Model Require Import Utilities Interpolation Normalization Clipping ClipFeatures.
From Verif.Proofs Require Import ClipP4 ClipFeatP3 ClipFeatP4.
Import ListNotations.
Open Scope list_scope.
Open Scope Qc_scope.

(** The data at their most frequent step, or their means of five minutes if that step is shorter, give the rows; the classifier is asked about exactly these, in order, and its answers decide the mask. *)
Theorem C66_filter : forall predict s m w, sorted_index s -> noinf (vals s) -> (10 < length s)%nat -> m <> OtherMounting ->
  is_mode (gaps (times s)) w -> let freq := (w / 60000000000)%Z in (1 <= freq)%Z ->
  exists r u frame mask, interpolate true true s (TFreq (60000000000 * freq)%Z) None = Ok r /\ shown_series freq r u /\ frame_shown freq m u frame /\
    xgboost_filter predict s m = Ok mask /\
    mask_is (fun _ t v => ~ learned_clipped (freq <? 5)%Z (map (fun x => (fst x, predict (snd x))) frame) s t v) s mask.
Proof. exact filter_frame. Qed.

(** The rows given to the classifier, for any regular series and step. *)
Theorem C66_frame : forall freq m regular, sorted_index regular -> noinf (vals regular) -> regular <> [] ->
  exists s, shown_series freq regular s /\ frame_shown freq m s (model_frame freq m regular) /\ sorted_index s.
Proof. exact shown_frame. Qed.

(** Bounds of the sixteen numbers. *)
Theorem C66_bounds : forall freq m s i t row, nth_error (times s) i = Some t -> shown freq s i -> numbers_shown freq m s i t row -> Forall2 within row (bounds_shown freq).
Proof. exact shown_bounds. Qed.

(** A row is shown only if enough rows are before and after it and the data are not constant. *)
Theorem C66_needs : forall freq s i, shown freq s i ->
  (back (reach_of freq) <= i /\ i + on (reach_of freq) < length s)%nat /\ exists x y, In x (finvals (vals s)) /\ In y (finvals (vals s)) /\ x < y.
Proof. exact shown_needs. Qed.

(** If no row is shown, nothing is removed. *)
Theorem C66_nothing : forall predict s m w, sorted_index s -> noinf (vals s) -> (10 < length s)%nat -> m <> OtherMounting ->
  is_mode (gaps (times s)) w -> let freq := (w / 60000000000)%Z in (1 <= freq)%Z ->
  exists r u, interpolate true true s (TFreq (60000000000 * freq)%Z) None = Ok r /\ shown_series freq r u /\
    ((forall i, ~ shown freq u i) -> xgboost_filter predict s m = Ok (map (fun t => (t, true)) (times s))).
Proof. exact nothing_shown. Qed.

(** Another unit or another zero of the data gives the same mask, whatever the classifier. *)
Theorem C66_affine : forall a b, 0 < a -> forall predict s m, xgboost_filter predict (on_values (affine a b) s) m = xgboost_filter predict s m.
Proof. exact filter_a66. Qed.

Definition at_quarter (k : Z) (v : Z) : Z * fl := ((36000000000000 + 900000000000 * k)%Z, fz v).
Definition clip_day : series :=
  [at_quarter 0 0; at_quarter 1 30; at_quarter 2 60; at_quarter 3 90; at_quarter 4 100; at_quarter 5 100;
   at_quarter 6 100; at_quarter 7 99; at_quarter 8 70; at_quarter 9 40; at_quarter 10 20].
Definition rational (x : fl) : Q := match x with Fin q => this q | _ => 0%Q end.

(** Quarter hours: the first two and the last two rows are never shown. *)
Example C66_rows : map (fun r => ((fst r - 36000000000000) / 900000000000)%Z) (model_frame 15 Tracking clip_day) = [2; 3; 4; 5; 6; 7; 8]%Z.
Proof. vm_compute. reflexivity. Qed.
Example C66_numbers : option_map (fun r => map rational (snd r)) (nth_error (model_frame 15 Tracking clip_day) 2) =
  Some [1 # 10; 0; 2 # 15; 1 # 30; 15; 1; 1; 29 # 30; 1; 100000 # 100001; 0; 7 # 300; 2 # 15; 1 # 10; 0; 3 # 10]%Q.
Proof. vm_compute. reflexivity. Qed.
(** A classifier that looks for a small range and a value near the highest of its day. *)
Definition flat_top (row : list fl) : bool := flt (nth 10 row NaN) (fz 2) && fgt (nth 9 row NaN) (ff 9 10).
Example C66_mask : xgboost_filter flat_top clip_day Tracking =
  Ok (combine (times clip_day) [true; true; true; true; false; false; false; true; true; true; true]).
Proof. vm_compute. reflexivity. Qed.
(** The same in another unit, with another zero. *)
Example C66_unit : xgboost_filter flat_top (on_values (affine (qz 1000) (qz 7)) clip_day) Tracking = xgboost_filter flat_top clip_day Tracking.
Proof. apply C66_affine. reflexivity. Qed.
(** Constant data. *)
Example C66_constant : xgboost_filter (fun _ => true) (on_values (fun _ => fz 100) clip_day) Fixed = Ok (map (fun t => (t, true)) (times clip_day)).
Proof. vm_compute. reflexivity. Qed.
(** The hypotheses. *)
Example C66_hypotheses : sorted_index clip_day /\ noinf (vals clip_day) /\ (10 < length clip_day)%nat /\
  is_mode (gaps (times clip_day)) 900000000000 /\ (900000000000 / 60000000000 = 15)%Z /\ shown 15 clip_day 4.
Proof.
  split; [repeat (constructor; [| repeat (constructor; [reflexivity |]); constructor]); constructor |].
  split; [intros x Hx; repeat (destruct Hx as [<- | Hx]; [split; discriminate |]); destruct Hx |].
  split; [repeat constructor |]. split.
  - split; [left; reflexivity |]. intros y Hy. right. repeat (destruct Hy as [<- | Hy]; [split; [reflexivity | discriminate] |]). destruct Hy.
  - split; [reflexivity |]. split; [cbn; lia |]. split.
    + intros j Hj. cbn in Hj. destruct j as [| [| [| [| [| [| [| j]]]]]]]; try lia; eexists; reflexivity.
    + exists (qz 0), 4%nat, (qz 100). split; [| split; [cbn; lia | split; [reflexivity | reflexivity]]].
      split; [left; reflexivity |]. intros x Hx. repeat (destruct Hx as [<- | Hx]; [discriminate |]). destruct Hx.
Qed.

Print Assumptions C66_filter.
Print Assumptions C66_frame.
Print Assumptions C66_bounds.
Print Assumptions C66_needs.
Print Assumptions C66_nothing.
Print Assumptions C66_affine.
