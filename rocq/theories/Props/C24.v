(** C24: csi_filter. *)

From Coq Require Import QArith Qcanon List ZArith Bool Arith Lia Permutation Sorted.
From Verif.Base Require Import QcExtra ISort Quantile Fl TimeSeries Rolling.
From Verif.Spec Require Import Stats Interp Filters.
From Verif.Model Require Import Utilities Filters.
From Verif.Proofs Require Import StatsP FlP FiltersP FiltersP2 FiltersP3.
Import ListNotations.
Open Scope list_scope.
Open Scope Qc_scope.

(** The mask has the common index, or the sorted union of the two; a value missing at a
    time is NaN. *)
Theorem C24_mask : forall thr a b, NoDup (times a) -> NoDup (times b) ->
  (times a = times b -> map fst (csi_filter (Fin thr) a b) = times a) /\
  (times a <> times b -> StronglySorted Z.lt (map fst (csi_filter (Fin thr) a b)) /\
     forall t, In t (map fst (csi_filter (Fin thr) a b)) <-> In t (times a) \/ In t (times b)) /\
  forall t x va vb, In (t, x) (csi_filter (Fin thr) a b) -> value_at a t va -> value_at b t vb ->
    (x = true <-> index_near_one thr va vb).
Proof. exact csi_spec. Qed.

Theorem C24_scale : forall thr k a b, 0 < k ->
  csi_filter (Fin thr) (map (fun r => (fst r, fscale k (snd r))) a) (map (fun r => (fst r, fscale k (snd r))) b) =
  csi_filter (Fin thr) a b.
Proof. exact csi_scale. Qed.

(** Never for a missing or infinite measurement, a missing or a zero clear-sky value. *)
Theorem C24_rejected : forall thr va vb, va = NaN \/ va = PInf \/ va = NInf \/ vb = NaN \/ vb = Fin 0 ->
  ~ index_near_one thr va vb.
Proof.
  intros thr va vb H (m & -> & [(c & -> & N & _) | ([-> | ->] & _)]);
    destruct H as [H | [H | [H | [H | H]]]]; try discriminate. apply N. congruence.
Qed.

(** With the default threshold an infinite clear-sky value is rejected too, but not with a
    threshold of 1 or more. *)
Theorem C24_infinite : forall thr m v, v = PInf \/ v = NInf ->
  (index_near_one thr (Fin m) v <-> 1 <= thr).
Proof.
  intros thr m v Hv. split.
  - intros (q & _ & [(c & E & _) | (_ & A & B)]); [destruct Hv; subst v; discriminate | qlra].
  - intros K. exists m. split; [reflexivity |]. right. split; [exact Hv |]. split; qlra.
Qed.

Definition measured : series := [(0%Z, fz 800); (10%Z, fz 500); (20%Z, NaN); (30%Z, fz 100); (40%Z, fz 690)].
Definition modelled : series := [(0%Z, fz 900); (10%Z, fz 900); (20%Z, fz 900); (30%Z, fz 0); (50%Z, fz 600)].
Example C24_example :
  csi_filter (ff 15 100) measured modelled =
    [(0%Z, true); (10%Z, false); (20%Z, false); (30%Z, false); (40%Z, false); (50%Z, false)] /\
  csi_filter (fz 1) [(0%Z, fz 5)] [(0%Z, PInf)] = [(0%Z, true)].
Proof. vm_compute. auto. Qed.

Print Assumptions C24_mask.
Print Assumptions C24_scale.
Print Assumptions C24_rejected.
Print Assumptions C24_infinite.
