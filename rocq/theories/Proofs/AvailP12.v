(** Corollaries about outages and the input check. *)

From Coq Require Import QArith Qcanon List ZArith Bool Arith Lia Permutation Sorted.
From Verif.Base Require Import QcExtra ISort Quantile Fl TimeSeries Rolling Segments.
From Verif.Spec Require Import Stats Interp Energy Availability.
From Verif.Model Require Import Energy Clipping Availability.
From Verif.Proofs Require Import StatsP AvailP AvailP2 AvailP3 AvailP4 AvailP5 AvailP6 AvailP7 AvailP8.
Import ListNotations.
Open Scope list_scope.
Open Scope Qc_scope.

Lemma real_positive : forall expected err start stop x, real_outage expected err start stop x -> 0 <= expected -> err <= 0 -> 0 < expected - x.
Proof.
  intros expected err start stop x (_ & _ & L) He Hr. assert (0 <= - err * expected) as H by (apply Qc_mul_nonneg; qlra).
  replace ((1 + err) * expected) with (expected - - err * expected) in L by ring. qlra.
Qed.

Lemma same_index_spec : forall a b, same_index a b = true <-> a = b.
Proof.
  intros a b. unfold same_index. destruct (list_eq_dec Z.eq_dec a b); split; intros; congruence.
Qed.

Lemma check_spec : forall system others,
  (check_indexes system others = Ok tt <-> forall l, In l others -> l = system) /\
  (check_indexes system others = Raise ValueError <-> exists l, In l others /\ l <> system).
Proof.
  intros system others. unfold check_indexes. destruct (forallb (same_index system) others) eqn:E.
  - rewrite forallb_forall in E. assert (forall l, In l others -> l = system) as K by (intros l Hl; symmetry; apply same_index_spec; apply E; exact Hl).
    split; split; intros H; [exact K | reflexivity | discriminate |]. destruct H as (l & Hl & N). contradiction (N (K l Hl)).
  - assert (exists l, In l others /\ l <> system) as K.
    { clear -E. induction others as [| l others IH]; [discriminate |]. cbn in E. destruct (same_index system l) eqn:S.
      - destruct (IH E) as (l' & Hl & N). exists l'. split; [right; exact Hl | exact N].
      - exists l. split; [left; reflexivity |]. intros ->. assert (same_index system system = true) by (apply same_index_spec; reflexivity). congruence. }
    split; split; intros H; [discriminate | | exact K | reflexivity]. destruct K as (l & Hl & N). contradiction (N (H l Hl)).
Qed.

(** Lost production of all periods. *)
Lemma sum_by_period : forall (P : list Z) (key : nat -> Z) (f : nat -> Qc) a b, NoDup P -> (forall i, (a <= i <= b)%nat -> In (key i) P) ->
  qsum (map (fun p => sum_rows (fun i => if (key i =? p)%Z then f i else 0) a b) P) = sum_rows f a b.
Proof.
  intros P key f a b ND H. unfold sum_rows. rewrite qsum_swap. apply qsum_map_ext. intros i Hi. unfold rows_from in Hi. apply in_seq in Hi. specialize (H i ltac:(lia)). clear Hi.
  induction ND as [| p P Hp ND IH]; [destruct H |]. cbn [map]. rewrite qsum_cons. destruct (Z.eqb_spec (key i) p) as [E | N].
  - rewrite qsum_map_zero; [ring |]. intros p' Hp'. destruct (Z.eqb_spec (key i) p') as [E' | _]; [| reflexivity]. subst p. subst p'. contradiction.
  - destruct H as [E | H]; [congruence |]. rewrite (IH H). ring.
Qed.

Lemma lost_total : forall freq t0 w n period system subsystem corrected rows, (0 < w)%Z -> (2 <= n)%nat ->
  (forall s t, (s <= t)%Z -> (period s <= period t)%Z) ->
  length system = n -> length subsystem = n -> length corrected = n -> noinf system -> noinf subsystem -> noinf corrected ->
  (exists i x, (i < n)%nat /\ total_at system subsystem i = Some x) ->
  combine_losses freq period (evenly t0 w n) system subsystem corrected = Ok rows ->
  qsum (map (fun r => known_or_0 (fst (fst (snd r)))) rows) = sum_rows (lost_in (hours w) system subsystem) 1 (n - 1).
Proof.
  intros freq t0 w n period system subsystem corrected rows Hw Hn HP L1 L2 L3 N1 N2 N3 K E.
  destruct (combine_losses_spec freq t0 w n period system subsystem corrected Hw Hn HP L1 L2 L3 N1 N2 N3 K) as (rows' & E' & SS & R & V).
  assert (rows' = rows) as -> by congruence. clear E E'.
  assert (forall i j, (i <= j)%nat -> (period (t0 + w * Z.of_nat i) <= period (t0 + w * Z.of_nat j))%Z) as HM by (intros i j Hij; apply HP; nia).
  rewrite <- (sum_by_period (map fst rows) (fun i => period (t0 + w * Z.of_nat i)%Z)).
  - rewrite map_map. apply qsum_map_ext. intros [p [[l a] v]] Hr. cbn [fst snd]. destruct (V p l a v Hr) as (V1 & V2 & _).
    destruct (Z.lt_ge_cases p (period (t0 + w * Z.of_nat 1)%Z)) as [L | L]; [| rewrite (V2 L); reflexivity]. rewrite (V1 L). cbn [known_or_0]. symmetry. apply qsum_map_zero.
    intros i Hi. unfold rows_from in Hi. apply in_seq in Hi. destruct (Z.eqb_spec (period (t0 + w * Z.of_nat i)%Z) p) as [E | _]; [| reflexivity]. specialize (HM 1%nat i ltac:(lia)). lia.
  - clear -SS. induction (map fst rows) as [| z l IH]; [constructor |]. apply StronglySorted_inv in SS. destruct SS as [S F]. constructor; [| apply IH; exact S].
    intros C. rewrite Forall_forall in F. apply F in C. lia.
  - intros i Hi. apply R. split; [replace t0 with (t0 + w * Z.of_nat 0)%Z at 1 by lia; apply HM; lia | apply HM; lia].
Qed.

Lemma daylight_offline_reports : forall masks expected, length masks = length expected -> daylight_reports masks expected (daylight_offline masks expected).
Proof.
  intros masks expected E. unfold daylight_reports, daylight_offline. split; [unfold zip; rewrite map_length, combine_length; lia |].
  intros i m e Hm He. assert (nth_error (zip (fun (m : list bool) e => if fgt e (fz 0) then Some (negb (existsb (fun b => b) m)) else None) masks expected) i =
    Some (if fgt e (fz 0) then Some (negb (existsb (fun b => b) m)) else None)) as K.
  { unfold zip. rewrite nth_error_map_some. rewrite nth_error_combine, Hm, He. reflexivity. }
  rewrite K. clear K. split.
  - intros [-> | (q & -> & L)]; [reflexivity |]. unfold fgt. cbn [flt fz]. assert (qlt (qz 0) q = true) as -> by (apply qlt_spec; exact L). reflexivity.
  - intros N H. destruct e as [| | q |]; try reflexivity; [| congruence]. unfold fgt. cbn [flt fz]. assert (qlt (qz 0) q = false) as -> by (apply qlt_false; apply H; reflexivity). reflexivity.
Qed.

(** The stages of [run]. *)
Lemma run_reports : forall freq t0 w n k power_system power_subsystem cumulative expected low sizes limits quantiles period r,
  run freq (evenly t0 w n) k power_system power_subsystem cumulative expected low sizes limits quantiles period = Ok r ->
  (0 < w)%Z -> (2 <= n)%nat -> (forall s t, (s <= t)%Z -> (period s <= period t)%Z) ->
  length (r_loss_system r) = n -> length (r_loss_subsystem r) = n -> length (r_corrected r) = n ->
  noinf (r_loss_system r) -> noinf (r_loss_subsystem r) -> noinf (r_corrected r) ->
  (exists i x, (i < n)%nat /\ total_at (r_loss_system r) (r_loss_subsystem r) i = Some x) ->
  let time i := (t0 + w * Z.of_nat i)%Z in
  StronglySorted Z.lt (map fst (r_results r)) /\
  (forall p, In p (map fst (r_results r)) <-> (period t0 <= p <= period (time (n - 1)%nat))%Z) /\
  forall p l a v, In (p, (l, a, v)) (r_results r) ->
    ((p < period (time 1%nat))%Z -> l = NaN) /\
    ((period (time 1%nat) <= p)%Z -> l = Fin (sum_rows (fun i => if (period (time i) =? p)%Z then lost_in (hours w) (r_loss_system r) (r_loss_subsystem r) i else 0) 1 (n - 1))) /\
    meter_change (r_corrected r) (fun i => (period (time i) =? p)%Z) a /\
    (l = NaN \/ a = NaN -> v = NaN) /\
    (forall x y, l = Fin x -> a = Fin y -> x + y <> 0 -> v = Fin (y / (x + y))).
Proof.
  intros freq t0 w n k ps sub cum expected low sizes limits quantiles period r E Hw Hn HP L1 L2 L3 N1 N2 N3 K time.
  unfold run in E. destruct (calc_loss_subsystem k low sizes limits ps sub) as [masks loss].
  destruct (calc_error_distributions freq (evenly t0 w n) loss ps expected quantiles) as [e |]; [| discriminate]. cbn [bind] in E.
  destruct (calc_loss_system freq (evenly t0 w n) masks e expected cum) as [[os [lost corrected]] |]; [| discriminate]. cbn [bind fst snd] in E.
  destruct (combine_losses freq period (evenly t0 w n) lost loss corrected) as [rows |] eqn:C; [| discriminate]. cbn [bind] in E. injection E as <-.
  cbn [r_loss_system r_loss_subsystem r_corrected r_results] in *.
  destruct (combine_losses_spec freq t0 w n period lost loss corrected Hw Hn HP L1 L2 L3 N1 N2 N3 K) as (rows' & E' & R). assert (rows' = rows) as -> by congruence. exact R.
Qed.

Lemma run_outages : forall freq index k power_system power_subsystem cumulative expected low sizes limits quantiles period r,
  run freq index k power_system power_subsystem cumulative expected low sizes limits quantiles period = Ok r ->
  (r_masks r, r_loss_subsystem r) = calc_loss_subsystem k low sizes limits power_system power_subsystem /\
  calc_error_distributions freq index (r_loss_subsystem r) power_system expected quantiles = Ok (r_expectation r) /\
  calc_loss_system freq index (r_masks r) (r_expectation r) expected cumulative = Ok (r_outages r, (r_loss_system r, r_corrected r)).
Proof.
  intros freq index k ps sub cum expected low sizes limits quantiles period r E. unfold run in E. destruct (calc_loss_subsystem k low sizes limits ps sub) as [masks loss].
  destruct (calc_error_distributions freq index loss ps expected quantiles) as [e |] eqn:E1; [| discriminate]. cbn [bind] in E.
  destruct (calc_loss_system freq index masks e expected cum) as [[os [lost corrected]] |] eqn:E2; [| discriminate]. cbn [bind fst snd] in E.
  destruct (combine_losses freq period index lost loss corrected) as [rows |]; [| discriminate]. cbn [bind] in E. injection E as <-. cbn. auto.
Qed.
