(** C32: xgboost_clip_filter *)

From Coq Require Import QArith Qcanon List ZArith Bool Arith Lia Permutation Sorted.
From Verif.Base Require Import QcExtra ISort Quantile Fl TimeSeries Calendar Rolling.
From Verif.Spec Require Import Stats Filters Normalization Clipping.
From Verif.Model Require Import Interpolation Normalization Clipping.
From Verif.Proofs Require Import ClipP ClipP2 ClipP3 ClipP4.
Import ListNotations.
Open Scope list_scope.
Open Scope Qc_scope.

(** The input checks. *)
Theorem C32_errors : forall classify s m,
  (m = OtherMounting -> xgboost_clip_filter classify s m = Raise ValueError) /\
  (m <> OtherMounting -> ~ StronglySorted Z.le (times s) -> xgboost_clip_filter classify s m = Raise IndexError) /\
  (m <> OtherMounting -> StronglySorted Z.le (times s) -> (length s <= 10)%nat -> xgboost_clip_filter classify s m = Raise PlainException).
Proof. exact xgb_errors. Qed.

(** Whatever the predictions, a row is removed exactly when the post-processing says so. *)
Theorem C32_removed : forall classify s m w, sorted_index s -> noinf (vals s) -> (10 < length s)%nat -> m <> OtherMounting ->
  is_mode (gaps (times s)) w -> let freq := (w / 60000000000)%Z in (1 <= freq)%Z ->
  exists r, interpolate true true s (TFreq (minutes freq)) None = Ok r /\
    let P := classify r m freq in
    xgboost_clip_filter classify s m = Ok (xgboost_post freq P s) /\
    (StronglySorted Z.lt (map fst P) -> 
     exists mask, xgboost_clip_filter classify s m = Ok mask /\ mask_is (fun _ t v => ~ learned_clipped (freq <? 5)%Z P s t v) s mask).
Proof. exact xgb_spec. Qed.

(** A removed value is present, at least a tenth up the range of the data, at least 90 % (95 %)
    up the range of its day, and something was predicted somewhere. *)
Theorem C32_bounds : forall fine P s t v, learned_clipped fine P s t v ->
  exists x lo hi, v = Fin x /\ is_min (finvals (vals s)) lo /\ is_max (finvals (vals s)) hi /\
    qf 1 10 * (hi - lo) <= x - lo /\
    (forall y, In (Fin y) (on_day t s) -> (if fine then qf 9 10 else qf 95 100) * (y - lo) <= x - lo) /\
    (exists u w, In (u, w) s /\ latest P u true).
Proof. exact learned_bounds. Qed.

(** With the same predictions, the mask does not change under affine changes of the data. *)
Theorem C32_affine : forall a b, 0 < a -> forall classify s m r r', 
    let freq := (mode (steps (times s)) / 60000000000)%Z in
    interpolate true true s (TFreq (minutes freq)) None = Ok r ->
    interpolate true true (on_values (affine a b) s) (TFreq (minutes freq)) None = Ok r' ->
    classify r' m freq = classify r m freq ->
    xgboost_clip_filter classify (on_values (affine a b) s) m = xgboost_clip_filter classify s m.
Proof. exact xgb_affine. Qed.

Definition at_quarter (k : Z) (v : Z) : Z * fl := ((36000000000000 + 900000000000 * k)%Z, fz v).
Definition clip_day : series :=
  [at_quarter 0 10; at_quarter 1 30; at_quarter 2 60; at_quarter 3 90; at_quarter 4 100; at_quarter 5 100;
   at_quarter 6 100; at_quarter 7 99; at_quarter 8 70; at_quarter 9 40; at_quarter 10 20; (45900000000000%Z, NaN)].

Definition two_days : series := clip_day ++ map (fun r => (fst r + ns_day, snd r)%Z) clip_day.
(** A positive prediction on the first day, from 11:00 to 11:45. *)
Definition flag_first : list (Z * bool) := [(39600000000000%Z, true); (42300000000000%Z, false)].

(** Rows flagged on the first day only; the same values are removed on the second day. *)
Example C32_inherited :
  xgboost_clip_filter (fun _ _ _ => flag_first) two_days Fixed =
    Ok (combine (times two_days) [true; true; true; true; false; false; false; true; true; true; true; true;
                                  true; true; true; true; false; false; false; true; true; true; true; true]).
Proof. vm_compute. reflexivity. Qed.

(** Not true: that a day without a positive prediction keeps all its rows. *)
Theorem C32_own_day_refuted : ~ (forall P s m mask t, xgboost_clip_filter (fun _ _ _ => P) s m = Ok mask ->
  StronglySorted Z.lt (map fst P) -> (forall u, (u / ns_day = t / ns_day)%Z -> ~ latest P u true) -> In t (times s) -> In (t, true) mask).
Proof.
  intros H. specialize (H flag_first two_days Fixed _ 126000000000000%Z C32_inherited).
  match type of H with _ -> _ -> _ -> ?G => assert G as K end.
  { apply H.
    - repeat constructor.
    - intros u Hu (i & w & Hn & Hle & Ha). change (126000000000000 / ns_day)%Z with 1%Z in Hu.
      assert (ns_day <= u)%Z as Bu.
      { pose proof (Z.div_mod u ns_day ltac:(discriminate)) as D. pose proof (Z.mod_pos_bound u ns_day ltac:(reflexivity)). lia. }
      destruct i as [| [| [| i]]]; [| discriminate | discriminate | discriminate].
      specialize (Ha 1%nat 42300000000000%Z false ltac:(lia) eq_refl). assert (42300000000000 < ns_day)%Z by reflexivity. lia.
    - apply nth_error_In with (n := 16%nat). vm_compute. reflexivity. }
  vm_compute in K. repeat (destruct K as [K | K]; [discriminate K |]). contradiction.
Qed.
Print Assumptions C32_own_day_refuted.

(** Without a positive prediction, or for missing values, nothing is removed. *)
Theorem C32_none : forall fine P s t v, (forall u, ~ latest P u true) \/ v = NaN -> ~ learned_clipped fine P s t v.
Proof.
  intros fine P s t v H K. destruct (learned_bounds fine P s t v K) as (x & lo & hi & -> & _ & _ & _ & _ & u & w & _ & Hl).
  destruct H as [H | H]; [exact (H u Hl) | discriminate].
Qed.
Print Assumptions C32_none.

Print Assumptions C32_errors.
Print Assumptions C32_removed.
Print Assumptions C32_bounds.
Print Assumptions C32_affine.
