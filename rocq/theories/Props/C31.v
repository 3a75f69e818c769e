(** C31: logic_clip_filter *)

From Coq Require Import QArith Qcanon List ZArith Bool Arith Lia Permutation Sorted.
From Verif.Base Require Import QcExtra ISort Quantile Fl TimeSeries Calendar Rolling.
From Verif.Spec Require Import Stats Filters Normalization Clipping.
From Verif.Model Require Import Interpolation Normalization Clipping.
From Verif.Proofs Require Import ClipP ClipP2 ClipP3.
Import ListNotations.
Open Scope list_scope.
Open Scope Qc_scope.

(** The input checks. *)
Theorem C31_errors : forall s m cutoff roll,
  (m = OtherMounting -> logic_clip_filter s m cutoff roll = Raise ValueError) /\
  (m <> OtherMounting -> ~ StronglySorted Z.le (times s) -> logic_clip_filter s m cutoff roll = Raise IndexError) /\
  (m <> OtherMounting -> StronglySorted Z.le (times s) -> (length s <= 10)%nat -> logic_clip_filter s m cutoff roll = Raise PlainException).
Proof. exact logic_clip_errors. Qed.

(** Every row gets a flag, false exactly when it is at a level of the flagged values of its day
    or above the overall threshold. *)
Theorem C31_mask : forall s m cutoff roll n freq, sorted_index s -> noinf (vals s) -> (10 < length s)%nat -> m <> OtherMounting ->
  is_mode (gaps (times s)) freq -> stretch m freq roll n -> (1 <= n)%nat ->
  let coarse := (minutes 10 <=? freq)%Z in
  exists D c f cl mask, flagged (regular_form freq) s n cutoff D /\
    without (fun t _ => steady (finvals (on_day t s))) s c /\
    without (fun t _ => ~ latest D t true) s f /\
    chosen (level_clipped coarse f) s cl /\
    logic_clip_filter s m (Fin cutoff) roll = Ok mask /\
    mask_is (fun i t v => ~ level_clipped coarse f t v /\ ~ overall_clipped c cl i t) s mask.
Proof. exact logic_clip_spec. Qed.

(** The rows flagged are those in a flat stretch. *)
Theorem C31_detection : forall s m cutoff roll n freq, sorted_index s -> noinf (vals s) -> (2 <= length s)%nat ->
  is_mode (gaps (times s)) freq -> stretch m freq roll n -> (1 <= n)%nat ->
  exists D, detect s m (Fin cutoff) roll = Ok D /\ flagged (regular_form freq) s n cutoff D /\ StronglySorted Z.lt (map fst D).
Proof. exact detect_spec. Qed.

(** Missing values are never removed. *)
Theorem C31_missing : forall s m cutoff roll mask t, logic_clip_filter s m cutoff roll = Ok mask -> sorted_index s ->
  In (t, NaN) s -> In (t, true) mask /\ ~ In (t, false) mask.
Proof. exact logic_clip_missing. Qed.

(** Without flagged rows nothing is removed. *)
Theorem C31_none : forall s m cutoff roll mask D, logic_clip_filter s m cutoff roll = Ok mask -> sorted_index s ->
  detect s m cutoff roll = Ok D -> (forall t, ~ In (t, true) D) -> forall t b, In (t, b) mask -> b = true.
Proof. exact logic_clip_none. Qed.

(** The mask does not depend on the unit of the data. *)
Theorem C31_scale : forall k, 0 < k -> forall s m cutoff roll,
    logic_clip_filter (on_values (fmul (Fin k)) s) m cutoff roll = logic_clip_filter s m cutoff roll.
Proof. exact logic_clip_scale. Qed.

Definition at_quarter (k : Z) (v : Z) : Z * fl := ((36000000000000 + 900000000000 * k)%Z, fz v).
Definition clip_day : series :=
  [at_quarter 0 10; at_quarter 1 30; at_quarter 2 60; at_quarter 3 90; at_quarter 4 100; at_quarter 5 100;
   at_quarter 6 100; at_quarter 7 99; at_quarter 8 70; at_quarter 9 40; at_quarter 10 20; (45900000000000%Z, NaN)].

(** A plateau of three rows and a row next to it. *)
Example C31_example :
  logic_clip_filter clip_day Fixed (ff 2 10) None =
    Ok (combine (times clip_day) [true; true; true; true; false; false; false; true; true; true; true; true]) /\
  detect clip_day Fixed (ff 2 10) None =
    Ok (combine (times clip_day) [false; false; false; false; true; true; true; false; false; false; false; false]) /\
  (10 < length clip_day)%nat.
Proof. split; [vm_compute; reflexivity |]. split; [vm_compute; reflexivity |]. cbn. lia. Qed.

Example C31_hypotheses : sorted_index clip_day /\ noinf (vals clip_day) /\ is_mode (gaps (times clip_day)) 900000000000 /\
  stretch Fixed 900000000000 None 3.
Proof.
  split; [repeat constructor; repeat (apply Forall_cons; [reflexivity |]); apply Forall_nil |]. split.
  - intros x Hx. cbn in Hx. decompose [or] Hx; subst; try contradiction; split; discriminate.
  - split; [| reflexivity]. split; [left; reflexivity |]. intros y Hy. right. cbn in Hy. decompose [or] Hy; subst; try contradiction; split; (reflexivity || discriminate).
Qed.

Print Assumptions C31_errors.
Print Assumptions C31_mask.
Print Assumptions C31_detection.
Print Assumptions C31_missing.
Print Assumptions C31_none.
Print Assumptions C31_scale.
