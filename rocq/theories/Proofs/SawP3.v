(** Proofs about evenly soiling arrays: what is reported. *)

From Coq Require Import QArith Qcanon List ZArith Bool Arith Lia String Sorted.
From Verif.Base Require Import QcExtra ISort Quantile Fl TimeSeries Calendar Rolling Segments.
From Verif.Spec Require Import Stats Filters Theil Soiling SoilingTable Clean Sawtooth.
From Verif.Model Require Import Soiling.
From Verif.Proofs Require Import FlP StatsP SoilP SoilP2 SoilP3 SawP SawP2.
Import ListNotations.
Open Scope list_scope.
Open Scope Qc_scope.

Lemma seen_same : forall share : list Qc, map (fun p => 1 - (1 - p)) share = share.
Proof. intros share. rewrite <- (map_id share) at 2. apply map_ext. intros p. ring. Qed.

Theorem srr_sawtooth : forall margin visit pm insolation ds precip day_scale thr method c pthr minimum exc conf rc limit step factor a rate share,
  usable margin visit precip ds day_scale c minimum exc conf limit -> srr_init pm insolation precip = Ok tt -> sunny pm insolation ->
  let wet := flagged c day_scale thr factor precip pthr (scaled_by a pm) in
  0 < a -> is_renorm rc pm a -> sawtooth a rate wet pm share -> (forall k, 0 <= rate k /\ rate k < step) -> long_dry minimum wet (List.length pm) ->
  method = "perfect_clean"%string \/ method = "half_norm_clean"%string ->
  exists res, soiling_srr (theil_fit margin) visit pm insolation ds precip day_scale (option_map Fin thr) false method c (Fin pthr) minimum exc conf rc (Fin limit) (Fin step) (Fin factor) = Ok res /\
    reports pm insolation ds a 1 rate wet share res.
Proof.
  intros margin visit pm insolation ds precip day_scale thr method c pthr minimum exc conf rc limit step factor a rate share [U1 U2 U3 U4 U5 U6 U7 U8 U9 U10] INIT SUN wet PA REN SAW RATE DRY M.
  destruct (saw_recovered pm insolation precip day_scale thr rc c pthr factor a rate share step 1 PA SAW RATE INIT U3 SUN U6 U5 REN margin minimum limit U1 U7 U10 DRY visit method U2) with (ds := ds) (exc := exc) (conf := conf) as (res & l & q & E & R & T & F & P & I & Q); try assumption.
  - destruct M as [M|M]; [left; exact M|right; split; [exact M|reflexivity]].
  - rewrite seen_same in P, I. exists res. split; [exact E|]. split; [exact R|]. split; [exists l; split; assumption|]. split; [exact P|]. exists q. split; assumption.
Qed.

(** Cleanings by rain. *)
Lemma rain_scaled : forall precip pthr r pm i, rain precip pthr (scaled_by r pm) i <-> rain precip pthr pm i.
Proof. intros precip pthr r pm i. unfold rain. assert (times (scaled_by r pm) = times pm) as -> by (unfold scaled_by, times; rewrite map_map; reflexivity). reflexivity. Qed.
Lemma flagged_rain : forall day_scale thr factor precip pthr r pm i, flagged "precip" day_scale thr factor precip pthr (scaled_by r pm) i <-> rain precip pthr pm i.
Proof.
  intros day_scale thr factor precip pthr r pm i. rewrite <- (rain_scaled precip pthr r pm i). unfold flagged, cleaning. split; [|intros H; right; left; split; [reflexivity|exact H]].
  intros [[C _]|[[_ H]|[[C _]|[C _]]]]; try discriminate C. exact H.
Qed.
Lemma last_clean_iff : forall wet wet' : nat -> Prop, (forall i, wet i <-> wet' i) -> forall i k, last_clean wet i k -> last_clean wet' i k.
Proof.
  intros wet wet' H i k (A & B & C). split; [exact A|]. split; [destruct B as [B|B]; [left; exact B|right; apply H; exact B]|]. intros j J W. apply (C j J). apply H. exact W.
Qed.
Lemma teeth_iff : forall wet wet' : nat -> Prop, (forall i, wet i <-> wet' i) -> forall a top rate pm share, teeth a top rate wet pm share -> teeth a top rate wet' pm share.
Proof.
  intros wet wet' H a top rate pm share [F S]. split; [exact F|]. intros i p E. destruct (S i p E) as (k & L & P). exists k. split; [exact (last_clean_iff _ _ H _ _ L)|exact P].
Qed.
Lemma long_iff : forall wet wet' : nat -> Prop, (forall i, wet i <-> wet' i) -> forall m n, long_dry m wet n -> long_dry m wet' n.
Proof.
  intros wet wet' H m n D k L K. destruct (D k L) as [A B]; [destruct K as [K|K]; [left; exact K|right; apply H; exact K]|]. split; [exact A|]. intros j J W. apply (B j J). apply H. exact W.
Qed.

Theorem srr_rain : forall margin visit pm insolation ds precip day_scale thr method pthr minimum exc conf rc limit step factor a rate share,
  usable margin visit precip ds day_scale "precip" minimum exc conf limit -> srr_init pm insolation precip = Ok tt -> sunny pm insolation ->
  let wet := rain precip pthr pm in
  0 < a -> is_renorm rc pm a -> sawtooth a rate wet pm share -> (forall k, 0 <= rate k /\ rate k < step) -> long_dry minimum wet (List.length pm) ->
  method = "perfect_clean"%string \/ method = "half_norm_clean"%string ->
  exists res, soiling_srr (theil_fit margin) visit pm insolation ds precip day_scale (option_map Fin thr) false method "precip" (Fin pthr) minimum exc conf rc (Fin limit) (Fin step) (Fin factor) = Ok res /\
    reports pm insolation ds a 1 rate wet share res.
Proof.
  intros margin visit pm insolation ds precip day_scale thr method pthr minimum exc conf rc limit step factor a rate share U INIT SUN wet PA REN SAW RATE DRY M.
  assert (H : forall i, flagged "precip" day_scale thr factor precip pthr (scaled_by a pm) i <-> wet i) by (intros i; apply flagged_rain). assert (H' : forall i, wet i <-> flagged "precip" day_scale thr factor precip pthr (scaled_by a pm) i) by (intros i; symmetry; apply H).
  destruct (srr_sawtooth margin visit pm insolation ds precip day_scale thr method "precip" pthr minimum exc conf rc limit step factor a rate share U INIT SUN PA REN (teeth_iff _ _ H' _ _ _ _ _ SAW) RATE (long_iff _ _ H' _ _ DRY) M) as (res & E & R & (l & T & F) & P & Q).
  exists res. split; [exact E|]. split; [exact R|]. split; [exists l; split; [exact (tiles_iff _ _ _ (fun i _ => H i) _ _ T)|exact F]|]. split; assumption.
Qed.

(** A performance that is divided by something else than the clean one. *)
Theorem srr_recentered : forall margin visit pm insolation ds precip day_scale thr c pthr minimum exc conf rc limit step factor a r rate share,
  usable margin visit precip ds day_scale c minimum exc conf limit -> srr_init pm insolation precip = Ok tt -> sunny pm insolation ->
  let wet := flagged c day_scale thr factor precip pthr (scaled_by r pm) in
  0 < a -> 0 < r -> is_renorm rc pm r -> sawtooth a rate wet pm share -> (forall k, 0 <= rate k /\ a / r * rate k < step) -> long_dry minimum wet (List.length pm) ->
  exists res, soiling_srr (theil_fit margin) visit pm insolation ds precip day_scale (option_map Fin thr) false "perfect_clean" c (Fin pthr) minimum exc conf rc (Fin limit) (Fin step) (Fin factor) = Ok res /\
    reports pm insolation ds r (a / r) (fun k => a / r * rate k) wet (map (fun p => 1 - a / r * (1 - p)) share) res.
Proof.
  intros margin visit pm insolation ds precip day_scale thr c pthr minimum exc conf rc limit step factor a r rate share [U1 U2 U3 U4 U5 U6 U7 U8 U9 U10] INIT SUN wet PA PR REN SAW RATE DRY.
  set (g := a / r). assert (PG : 0 < g) by (unfold g, Qcdiv; apply Qc_mul_pos; [exact PA|apply Qc_inv_pos; exact PR]). assert (EG : r * g = a) by (rewrite Qcmult_comm; apply Qc_div_mul; apply Qc_pos_neq; exact PR).
  assert (SAW' : teeth r g (fun k => g * rate k) wet pm (map (fun p => g * p) share)).
  { destruct SAW as [F S]. split.
    - clear -F PG EG. induction F as [|x p l m [H1 H2] F IH]; [constructor|]. cbn [map]. constructor; [|exact IH]. split; [rewrite H1; f_equal; rewrite <- EG; ring|apply Qc_mul_pos; assumption].
    - intros i p E. rewrite nth_error_map_some in E. destruct (nth_error share i) as [q|] eqn:EQ; [|discriminate E]. injection E as <-. destruct (S i q EQ) as (k & L & ->). exists k. split; [exact L|]. ring. }
  destruct (saw_recovered pm insolation precip day_scale thr rc c pthr factor r (fun k => g * rate k) (map (fun p => g * p) share) step g PR SAW') with (margin := margin) (minimum := minimum) (limit := limit) (visit := visit) (method := "perfect_clean"%string) (ds := ds) (exc := exc) (conf := conf) as (res & l & q & E & R & T & F & P & I & Q); try assumption.
  - intros k. destruct (RATE k) as [R0 R1]. split; [apply Qc_mul_nonneg; [apply Qclt_le_weak; exact PG|exact R0]|exact R1].
  - left. reflexivity.
  - assert (ES : map (fun p => 1 - (g - p)) (map (fun p => g * p) share) = map (fun p => 1 - g * (1 - p)) share) by (rewrite map_map; apply map_ext; intros p; ring). rewrite ES in P, I.
    exists res. split; [exact E|]. split; [exact R|]. split; [exists l; split; assumption|]. split; [exact P|]. exists q. split; assumption.
Qed.
