(** C28: directional_tukey_filter. *)

From Coq Require Import QArith Qcanon List ZArith Bool Arith Lia Permutation Sorted.
From Verif.Base Require Import QcExtra ISort Quantile Fl TimeSeries Rolling.
From Verif.Spec Require Import Stats Interp Filters.
From Verif.Model Require Import Utilities Filters.
From Verif.Proofs Require Import StatsP FlP FiltersP FiltersP2 FiltersP3.
Import ListNotations.
Open Scope list_scope.
Open Scope Qc_scope.

Theorem C28_mask : forall sp k s, noinf (vals s) ->
  mask_is (fun i _ _ => inside_fences (next_span sp) s k i \/ inside_fences (last_span sp) s k i) s
    (directional_tukey_filter sp k s).
Proof. exact tukey_spec. Qed.

Theorem C28_mono : forall sp k k' s i t, noinf (vals s) -> k <= k' ->
  nth_error (directional_tukey_filter sp k s) i = Some (t, true) -> nth_error (directional_tukey_filter sp k' s) i = Some (t, true).
Proof. exact tukey_mono. Qed.

Theorem C28_affine : forall sp k a b s, 0 < a ->
  directional_tukey_filter sp k (map_values (fun q => a * q + b) s) = directional_tukey_filter sp k s.
Proof. exact tukey_affine. Qed.

(** The docstring (filtering.py:1038-1039, 1051-1053) puts the lower fence k interquartile ranges below the
    first quartile.  A point far inside it is dropped however large k is. *)
Definition dip : series :=
  [(0%Z, fz 10); (1%Z, fz 12); (2%Z, fz 11); (3%Z, fz 13); (4%Z, fz 10); (5%Z, fz 6); (6%Z, fz 12); (7%Z, fz 11); (8%Z, fz 13); (9%Z, fz 10); (10%Z, fz 12)].
Definition documented_fences (W : within) (s : series) (k : Qc) (i : nat) : Prop :=
  exists l p25 p75 d, distances W 5 s 0 l /\ is_percentile (qz 25) l p25 /\ is_percentile (qz 75) l p75 /\
    distance W 5 s i d /\ p25 - k * (p75 - p25) < d /\ d < p75 + k * (p75 - p25).
Theorem C28_documented_fences_refuted : exists sp k s i t, noinf (vals s) /\
  documented_fences (last_span sp) s k i /\ nth_error (directional_tukey_filter sp k s) i = Some (t, false).
Proof.
  exists (ByRows 4), (qz 100), dip, 5%nat, 5%Z.
  assert (noinf (vals dip)) as HI by (intros v Hv; repeat (destruct Hv as [<- | Hv]; [split; discriminate |]); destruct Hv).
  split; [exact HI |]. split; [| vm_compute; reflexivity].
  set (D := zip_with fsub dip (rolling_median (in_back (ByRows 4)) 5 dip)).
  exists (finvals (vals D)). eexists. eexists. exists (qz (-5)).
  split; [apply distances_dif; [exact (in_back_iff (ByRows 4)) | lia | exact HI] |].
  split; [apply (qpercentile_spec (qz 25)); discriminate |]. split; [apply (qpercentile_spec (qz 75)); discriminate |].
  split; [| split; vm_compute; reflexivity].
  destruct (dif_row (in_back (ByRows 4)) (last_span (ByRows 4)) (in_back_iff (ByRows 4)) 5 dip 5 5%Z (fz 6) ltac:(lia) HI eq_refl) as (x & E & H).
  fold D in E. assert (x = Fin (qz (-5))) as ->.
  { vm_compute in E. injection E as <-. reflexivity. }
  destruct H as [(d & Ed & Hd) | [Ed _]]; [| discriminate]. assert (d = qz (-5)) as <- by congruence. exact Hd.
Qed.

Example C28_example :
  map snd (directional_tukey_filter (ByRows 4) (qf 3 2) dip) = [true; true; true; true; true; false; true; true; true; true; true] /\
  map snd (directional_tukey_filter (ByRows 4) (qz 100) dip) = [true; true; true; true; true; false; true; true; true; true; true] /\
  map snd (directional_tukey_filter (ByRows 4) (qf 3 2) (map_values (fun q => - q) dip)) = [true; true; true; true; true; false; true; true; true; true; true] /\
  map snd (directional_tukey_filter (ByRows 4) (qz 100) (map_values (fun q => - q) dip)) = [true; true; true; true; true; true; true; true; true; true; true].
Proof. vm_compute. auto. Qed.

Print Assumptions C28_mask.
Print Assumptions C28_mono.
Print Assumptions C28_affine.
Print Assumptions C28_documented_fences_refuted.
