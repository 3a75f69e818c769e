(** Proofs about the bounds of the numbers shown to the classifier, and about rows never shown. *)

From Coq Require Import QArith Qcanon List ZArith Bool Arith Lia Lqa Sorted Permutation.
From Verif.Base Require Import QcExtra ISort Quantile Fl TimeSeries Calendar Rolling.
From Verif.Spec Require Import Stats Energy Filters Normalization Clipping ClipFeatures.
From Verif.Model Require Import Utilities Interpolation Normalization Clipping ClipFeatures.
From Verif.Proofs Require Import StatsP FlP NormP ClipP ClipP4 ClipFeatP ClipFeatP2 ClipFeatP3.
Import ListNotations.
Open Scope Qc_scope.

Definition between (p q x : Qc) : Prop := p <= x /\ x <= q.

Lemma average_between : forall p q l, l <> [] -> (forall x, In x l -> between p q x) -> between p q (average l).
Proof.
  intros p q l Hne H. unfold average. set (n := qz (Z.of_nat (length l))).
  assert (0 < n) as Pn by (apply qz_pos; destruct l; [congruence | cbn; lia]).
  assert (n <> 0) as Nn by (intros K; rewrite K in Pn; discriminate Pn).
  assert (forall c, qsum (map (fun _ : Qc => c) l) = n * c) as C by (intros c; apply qsum_const).
  assert (n * p <= qsum l) as L1 by (rewrite <- C; replace (qsum l) with (qsum (map (fun x => x) l)) by (rewrite map_id; reflexivity); apply qsum_map_le; intros x Hx; apply H, Hx).
  assert (qsum l <= n * q) as L2 by (rewrite <- C; replace (qsum l) with (qsum (map (fun x => x) l)) by (rewrite map_id; reflexivity); apply qsum_map_le; intros x Hx; apply H, Hx).
  assert (0 <= / n) as Pi by apply Qclt_le_weak, Qc_inv_pos, Pn.
  split.
  - replace p with (n * p * / n) by (field; exact Nn). unfold Qcdiv. apply Qcmult_le_compat_r; assumption.
  - replace q with (n * q * / n) by (field; exact Nn). unfold Qcdiv. apply Qcmult_le_compat_r; assumption.
Qed.

Lemma spread_between : forall l, (2 <= length l)%nat -> (forall x, In x l -> between (-(1)) 1 x) -> between 0 (qz 8) (spread l).
Proof.
  intros l HL H. assert (l <> []) as Hne by (destruct l; [cbn in HL; lia | discriminate]).
  pose proof (average_between _ _ _ Hne H) as [A1 A2]. unfold spread. set (m := average l) in *. clearbody m.
  set (n := Z.of_nat (length l)). assert (2 <= n)%Z as Hn by (unfold n; lia).
  assert (0 < qz (n - 1)) as Pn by (apply qz_pos; lia).
  assert (qz (n - 1) <> 0) as Nn by (intros K; rewrite K in Pn; discriminate Pn).
  assert (0 <= / qz (n - 1)) as Pi by apply Qclt_le_weak, Qc_inv_pos, Pn.
  assert (0 <= qsum (map (fun x => (x - m) * (x - m)) l)) as L1.
  { apply qsum_nonneg. apply Forall_forall. intros y Hy. apply in_map_iff in Hy. destruct Hy as (x & <- & _). qnra. }
  assert (qsum (map (fun x => (x - m) * (x - m)) l) <= qz n * qz 4) as L2.
  { unfold n. rewrite <- (qsum_const _ (qz 4) l). apply qsum_map_le. intros x Hx. destruct (H x Hx). change (qz 4) with (qz 2 * qz 2).
    assert (0 <= (qz 2 - (x - m)) * (qz 2 + (x - m))) as K.
    { apply Qc_mul_nonneg; change (qz 2) with (1 + 1); qlra. }
    replace (qz 2 * qz 2) with ((qz 2 - (x - m)) * (qz 2 + (x - m)) + (x - m) * (x - m)) by ring. qlra. }
  assert (qz n * qz 4 <= qz 8 * qz (n - 1)) as L3.
  { rewrite <- !qz_mul. apply qz_le_i. lia. }
  split.
  - unfold Qcdiv. replace 0 with (0 * / qz (n - 1)) by ring. apply Qcmult_le_compat_r; assumption.
  - replace (qz 8) with (qz 8 * qz (n - 1) * / qz (n - 1)) by (field; exact Nn). unfold Qcdiv. apply Qcmult_le_compat_r; [| exact Pi].
    apply Qcle_trans with (qz n * qz 4); assumption.
Qed.

Lemma div_between : forall x y, 0 < y -> 0 <= x -> x <= y -> between 0 1 (x / y).
Proof.
  intros x y Py Hx Hxy. assert (y <> 0) as Ny by (intros K; rewrite K in Py; discriminate Py).
  assert (0 <= / y) as Pi by apply Qclt_le_weak, Qc_inv_pos, Py. unfold Qcdiv. split.
  - replace 0 with (0 * / y) by ring. apply Qcmult_le_compat_r; assumption.
  - replace 1 with (y * / y) by (field; exact Ny). apply Qcmult_le_compat_r; assumption.
Qed.

Lemma median_within : forall p q l m, l <> [] -> is_median l m -> (forall x, In x l -> between p q x) -> between p q m.
Proof.
  intros p q l m Hne (k & [HP _] & HM) H. assert (forall j, (j < length k)%nat -> between p q (nth j k 0)) as N.
  { intros j Hj. apply H. apply Permutation_in with k; [apply Permutation_sym, HP | apply nth_In, Hj]. }
  destruct HM as [(j & L & ->) | (j & L & ->)]; [apply N; lia |].
  destruct (N j ltac:(lia)), (N (j + 1)%nat ltac:(lia)). set (x := nth j k 0) in *. set (y := nth (j + 1) k 0) in *.
  assert ((x + y) / qz 2 = (x + y) * qf 1 2) as -> by (unfold Qcdiv; f_equal; apply Qc_is_canon; reflexivity).
  change (qf 1 2) with (Q2Qc (1 # 2)). split; qlra.
Qed.

Theorem shown_bounds : forall freq m s i t row, nth_error (times s) i = Some t -> shown freq s i -> numbers_shown freq m s i t row -> Forall2 within row (bounds_shown freq).
Proof.
  intros freq m s i t row Ht HS HN. unfold shown in HS. unfold numbers_shown in HN. destruct (window_reach freq) as (_ & Hn & Hn2).
  destruct (reach_facts freq) as (E1 & E2 & E3). set (R := reach_of freq) in *. destruct HS as (H1 & H2 & _).
  destruct HN as (lo & hi & u & top & wlo & whi & med & dlo & dhi & Hlo & Hhi & HL & Hu & Htop & Hwlo & Hwhi & Pw & Hmed & Hdlo & Hdhi & ->).
  assert (0 < hi - lo) as Pd by qlra.
  assert (hi - lo <> 0) as Nd by (intros K; rewrite K in Pd; discriminate Pd).
  assert (forall x, between lo hi x -> forall v, v * (hi - lo) = x - lo -> between 0 1 v) as Part.
  { intros x [X1 X2] v Ev. replace v with ((x - lo) / (hi - lo)); [apply div_between; [exact Pd | qlra | qlra] |]. rewrite <- Ev. field. exact Nd. }
  assert (forall j, (i - back R <= j <= i + on R)%nat -> between 0 1 (u j)) as U.
  { intros j Hj. destruct (H2 j Hj) as [q Hq]. apply (Part q); [| apply Hu, Hq]. pose proof (number_In _ _ _ Hq) as K. split; [apply Hlo, K | apply Hhi, K]. }
  assert (forall j k, (i - back R <= j <= i + on R)%nat -> (i - back R <= k <= i + on R)%nat -> between (-(1)) 1 (u j - u k)) as D.
  { intros j k Hj Hk. destruct (U j Hj), (U k Hk). split; qlra. }
  assert (forall j, (i - 1 <= j <= i + 1)%nat -> between 0 1 (average (map u (seq (j - half R) (size R))))) as A.
  { intros j Hj. apply average_between; [destruct (size R); [lia | discriminate] |]. intros x Hx. apply in_map_iff in Hx. destruct Hx as (k & <- & Hk). apply in_seq in Hk. apply U. lia. }
  assert (forall x, In x (map (fun j => u j - u (j - 1)%nat) (seq (i - half R) (size R))) -> between (-(1)) 1 x) as ST.
  { intros x Hx. apply in_map_iff in Hx. destruct Hx as (k & <- & Hk). apply in_seq in Hk. apply D; lia. }
  assert (between 0 1 top) as Top.
  { apply (Part (lo + top * (hi - lo))); [| ring]. destruct Htop as [K _]. apply finvals_In in K. unfold on_day, vals in K. apply in_map_iff in K. destruct K as (r & Er & Hr).
    apply filter_In in Hr. assert (In (lo + top * (hi - lo)) (finvals (vals s))) as Kin by (apply finvals_In; rewrite <- Er; unfold vals; apply in_map, Hr).
    split; [apply Hlo, Kin | apply Hhi, Kin]. }
  assert (u i <= top) as Ltop.
  { destruct (H2 i ltac:(lia)) as [q Hq]. pose proof (Hu i q Hq) as Eq. assert (q <= lo + top * (hi - lo)) as K.
    { apply Htop. apply finvals_In. apply (on_day_In t _ s). unfold number_at, vals in Hq. rewrite nth_error_map in Hq. unfold times in Ht. rewrite nth_error_map in Ht.
      destruct (nth_error s i) as [[t' v] |] eqn:Es; [| discriminate]. cbn in Ht, Hq. injection Ht as <-. injection Hq as ->. apply nth_error_In with i. exact Es. }
    assert (0 <= (top - u i) * (hi - lo)) as K' by (replace ((top - u i) * (hi - lo)) with (lo + top * (hi - lo) - lo - u i * (hi - lo)) by ring; rewrite Eq; qlra).
    destruct (Qclt_le_dec top (u i)) as [L | L]; [exfalso | exact L]. assert (0 < (u i - top) * (hi - lo)) as K2 by (apply Qc_mul_pos; [qlra | exact Pd]). 
    apply (Qclt_not_le _ _ K2). replace ((u i - top) * (hi - lo)) with (- ((top - u i) * (hi - lo))) by ring. qlra. }
  assert (between 0 1 wlo /\ between 0 1 whi) as [Wlo Whi].
  { split; [destruct Hwlo as [K _] | destruct Hwhi as [K _]]; apply in_map_iff in K; destruct K as (k & <- & Hk); apply in_seq in Hk; apply U; lia. }
  assert (wlo <= whi) as Lw by (apply Hwhi, Hwlo).
  assert (length (map (fun j => u j - u (j - 1)%nat) (seq (i - half R) (size R))) = size R) as LS by (rewrite map_length, seq_length; reflexivity).
  assert (map (fun j => u j - u (j - 1)%nat) (seq (i - half R) (size R)) <> []) as NS by (intros K; rewrite K in LS; cbn in LS; lia).
  assert (forall p q x, between p q x -> within (Fin x) (p, q)) as W by (intros p q x [? ?]; exists x; auto).
  unfold bounds_shown. cbn [map]. cbv zeta.
  repeat apply Forall2_cons; try apply Forall2_nil; apply W.
  - apply D; lia.
  - apply D; lia.
  - destruct (A i ltac:(lia)), (A (i - 1)%nat ltac:(lia)). split; qlra.
  - destruct (A i ltac:(lia)), (A (i + 1)%nat ltac:(lia)). split; qlra.
  - split; [apply qz_le_i; lia | apply Qcle_refl].
  - destruct m; split; discriminate || apply Qcle_refl.
  - apply U. lia.
  - apply A. lia.
  - exact Top.
  - destruct Top. assert (0 < top + qf 1 100000) as P by (pose proof tiny_pos; qlra). pose proof tiny_pos. apply div_between; [exact P | apply U; lia | qlra].
  - destruct Wlo. assert (between 0 1 ((whi - wlo) / (whi + wlo))) as [K1 K2] by (apply div_between; qlra).
    assert (whi + wlo <> 0) as Ns by (intros K; apply (Qclt_not_le _ _ Pw); qlra).
    replace (qz 200 * (whi - wlo) / (whi + wlo)) with ((whi - wlo) / (whi + wlo) * qz 200) by (field; exact Ns).
    split; [apply Qc_mul_nonneg; [exact K1 | discriminate] |]. replace (qz 200) with (1 * qz 200) at 2 by ring. apply Qcmult_le_compat_r; [exact K2 | discriminate].
  - apply spread_between; [rewrite LS; exact Hn2 | exact ST].
  - apply average_between; assumption.
  - apply (median_within _ _ _ _ NS Hmed ST).
  - apply ST, Hdlo.
  - apply ST, Hdhi.
Qed.

Theorem shown_needs : forall freq s i, shown freq s i ->
  (back (reach_of freq) <= i /\ i + on (reach_of freq) < length s)%nat /\ exists x y, In x (finvals (vals s)) /\ In y (finvals (vals s)) /\ x < y.
Proof.
  intros freq s i (H1 & H2 & lo & j & q & Hlo & Hj & Hq & HL). split.
  - split; [exact H1 |]. destruct (H2 (i + on (reach_of freq))%nat ltac:(lia)) as [p Hp]. unfold number_at, vals in Hp.
    assert (nth_error (map snd s) (i + on (reach_of freq)) <> None) as K by (rewrite Hp; discriminate). apply nth_error_Some in K. rewrite map_length in K. exact K.
  - exists lo, q. split; [apply Hlo |]. split; [exact (number_In _ _ _ Hq) | exact HL].
Qed.

Theorem nothing_shown : forall predict s m w, sorted_index s -> noinf (vals s) -> (10 < length s)%nat -> m <> OtherMounting ->
  is_mode (gaps (times s)) w -> let freq := (w / 60000000000)%Z in (1 <= freq)%Z ->
  exists r u, interpolate true true s (TFreq (60000000000 * freq)%Z) None = Ok r /\ shown_series freq r u /\
    ((forall i, ~ shown freq u i) -> xgboost_filter predict s m = Ok (map (fun t => (t, true)) (times s))).
Proof.
  intros predict s m w HS HI HL Hm Hw freq Hf. destruct (filter_frame predict s m w HS HI HL Hm Hw Hf) as (r & u & frame & mask & H1 & H2 & (rows & HR & HRi & HF) & H4 & H5 & H6).
  exists r, u. split; [exact H1 |]. split; [exact H2 |]. intros HN. rewrite H4. f_equal.
  assert (rows = []) as -> by (destruct rows as [| i rows]; [reflexivity | destruct (HN i); apply HRi; left; reflexivity]).
  inversion HF; subst frame. cbn [map] in H6.
  apply nth_error_ext. intros i. rewrite nth_error_map. unfold times in *. rewrite nth_error_map.
  pose proof (f_equal (fun l => nth_error l i) H5) as E. cbv beta in E. rewrite !nth_error_map in E.
  destruct (nth_error s i) as [[t v] |] eqn:Es, (nth_error mask i) as [[t' b] |] eqn:Em; cbn in E |- *; try discriminate; [| reflexivity].
  injection E as ->. f_equal. f_equal. apply (H6 i t v b Es Em). intros K. destruct (learned_bounds _ _ _ _ _ K) as (_ & _ & _ & _ & _ & _ & _ & _ & x & y & _ & Hl).
  destruct Hl as (k & z & Hk & _). destruct k; discriminate.
Qed.
