(** A system whose equipment keeps running. *)

From Coq Require Import QArith Qcanon List ZArith Bool Arith Lia Permutation Sorted.
From Verif.Base Require Import QcExtra ISort Quantile Fl TimeSeries Rolling Segments.
From Verif.Spec Require Import Stats Energy Availability Available.
From Verif.Model Require Import Energy Availability.
From Verif.Proofs Require Import ClipP4 AvailP AvailP2 AvailP3 AvailP4 AvailP5 AvailP6 AvailP7 AvailP8 AvailP9 AvailP10 AvailP12.
Import ListNotations.
Open Scope list_scope.
Open Scope Qc_scope.

(** ** No loss of subsystems *)

Lemma capped_zero : forall limit power, flt power (fz 0) = false ->
  fillna (fz 0) (match limit with None => fz 0 | Some m => if fgt (fadd (fz 0) power) m then clip_lower (fz 0) (fsub m power) else fz 0 end) = fz 0.
Proof.
  intros limit power H. destruct limit as [m |]; [| reflexivity]. destruct (fgt (fadd (fz 0) power) m) eqn:E; [| reflexivity].
  unfold fgt in E. destruct power as [| | p |], m as [| | m |]; try discriminate; try reflexivity.
  cbn in H, E. apply qlt_spec in E. unfold clip_lower, fsub. cbn [fneg fadd flt fz].
  assert (qlt (m + - p) (qz 0) = true) as -> by (apply qlt_spec; change (qz 0) with 0; rewrite Qcplus_0_l in E; qlra). reflexivity.
Qed.

Lemma clipped : forall x, flt (clip_lower (fz 0) x) (fz 0) = false.
Proof. intros x. unfold clip_lower. destruct (flt x (fz 0)) eqn:E; [reflexivity | exact E]. Qed.

Lemma loss_all_on : forall n thr sizes limit power row, flt power (fz 0) = false -> forallb (fun b => b) (looks_online thr row) = true ->
  row_loss n thr sizes limit power row = fz 0.
Proof.
  intros n thr sizes limit power row H A. unfold row_loss. cbv zeta. rewrite A. cbn [negb]. rewrite andb_false_r. apply capped_zero. exact H.
Qed.

Lemma reporting_off : forall thr row, existsb (fun b => b) (looks_online thr row) = false -> forall x, In x (reporting thr row) -> x = NaN.
Proof.
  intros thr row. unfold reporting. generalize (looks_online thr row) as m. intros m. revert row. induction m as [| b m IH]; intros [| y row] H x Hx; try contradiction.
  cbn in H. apply orb_false_iff in H. destruct H as [-> H]. destruct Hx as [<- | Hx]; [reflexivity | exact (IH row H x Hx)].
Qed.

Lemma zip_nan : forall a b, (forall x, In x a -> x = NaN) -> forall x, In x (zip fdiv a b) -> x = NaN.
Proof.
  intros a b H x Hx. unfold zip in Hx. apply in_map_iff in Hx. destruct Hx as ([u v] & <- & Hc). apply in_combine_l in Hc. cbn [fst snd]. rewrite (H u Hc). reflexivity.
Qed.

Lemma mean_nan : forall l, (forall x, In x l -> x = NaN) -> fmean l = NaN.
Proof.
  intros l H. unfold fmean, fsum, fcount. assert (dropna l = []) as ->; [| reflexivity].
  induction l as [| x l IH]; [reflexivity |]. rewrite (H x (or_introl eq_refl)). cbn. apply IH. intros y Hy. apply H. right. exact Hy.
Qed.

Lemma loss_all_off : forall n thr sizes limit power row, flt power (fz 0) = false -> existsb (fun b => b) (looks_online thr row) = false ->
  row_loss n thr sizes limit power row = fz 0.
Proof.
  intros n thr sizes limit power row H A. unfold row_loss. cbv zeta. rewrite (mean_nan (zip fdiv (reporting thr row) sizes)) by (apply zip_nan, reporting_off, A).
  assert (fsub (fz 1) (fdiv power (fmul NaN (fz (Z.of_nat n)))) = NaN) as -> by (cbn [fmul]; destruct power; reflexivity).
  match goal with |- context [fgt NaN ?x] => assert (fgt NaN x = false) as -> by (unfold fgt; destruct x; reflexivity) end. cbn [andb]. apply capped_zero. exact H.
Qed.

Lemma on_mask : forall thr row, all_on thr row -> forallb (fun b => b) (looks_online (map Fin thr) (map Fin (map known_or_0 row))) = true.
Proof.
  intros thr row H. induction H as [| t x thr row L _ IH]; [reflexivity |]. unfold looks_online, zip in *. cbn [map combine forallb fst snd]. rewrite IH.
  unfold fgt. cbn [flt]. assert (qlt t (known_or_0 x) = true) as -> by (apply qlt_spec; exact L). reflexivity.
Qed.
Lemma off_mask : forall thr row, all_off thr row -> existsb (fun b => b) (looks_online (map Fin thr) (map Fin (map known_or_0 row))) = false.
Proof.
  intros thr row H. induction H as [| t x thr row L _ IH]; [reflexivity |]. unfold looks_online, zip in *. cbn [map combine existsb fst snd]. rewrite IH.
  unfold fgt. cbn [flt]. assert (qlt t (known_or_0 x) = false) as -> by (apply qlt_false; exact L). reflexivity.
Qed.

Section Running.
Variables (k : nat) (low sizes limits : option (list fl)) (power expected : list fl) (rows : list (list fl)) (thr : list Qc).
Hypothesis rows_frame : frame k rows.
Hypothesis rows_some : rows <> [].
Hypothesis power_length : length power = length rows.
Hypothesis limits_length : match limits with Some l => length l = length rows | None => True end.
Hypothesis thr_length : length thr = k.
Hypothesis thr_spec : is_threshold low (data rows) thr.
Hypothesis running : keeps_running thr rows expected.

Definition masks_of : list (list bool) := map (fun row => looks_online (map Fin thr) (map Fin (map known_or_0 row))) rows.

Lemma masks_quiet : forall i m, nth_error masks_of i = Some m ->
  forallb (fun b => b) m = true \/ (existsb (fun b => b) m = false /\ exists e, nth_error expected i = Some e /\ dark e).
Proof.
  intros i m H. unfold masks_of in H. rewrite nth_error_map_some in H. destruct (nth_error rows i) as [row |] eqn:E; [| discriminate].
  cbn [option_map] in H. injection H as <-. destruct (running i row E) as [A | [A B]]; [left; apply on_mask; exact A | right; split; [apply off_mask; exact A | exact B]].
Qed.

Lemma losses_zero : calc_loss_subsystem k low sizes limits power rows = (masks_of, map (fun _ => fz 0) power).
Proof.
  assert (full_rows k (data rows)) as HD by (intros r Hr; exact (data_length k rows r rows_frame Hr)).
  assert (data rows <> []) as HDne by (destruct rows; [contradiction | discriminate]).
  unfold calc_loss_subsystem. rewrite (filled_data k rows rows_frame). rewrite (thresholds_spec k _ (data rows) thr HD HDne thr_length thr_spec).
  unfold data. rewrite !map_map. f_equal. set (lim := match limits with None => _ | Some l => _ end).
  assert (length lim = length rows) as Llim by (unfold lim; destruct limits; rewrite !map_length; [exact limits_length | exact power_length]).
  generalize (sizes_of k sizes (map Fin thr) (map (fun x => map Fin (map known_or_0 x)) rows)) as sz. intros sz.
  apply nth_error_ext. intros i. unfold zip. rewrite nth_error_map_some, !nth_error_combine, !nth_error_map_some.
  destruct (nth_error power i) as [p |] eqn:Ep; cbn [option_map]; [| reflexivity].
  assert (i < length rows)%nat as Li by (rewrite <- power_length; apply nth_error_Some; congruence).
  destruct (nth_error lim i) as [li |] eqn:El; [| apply nth_error_None in El; lia].
  destruct (nth_error rows i) as [row |] eqn:Er; [| apply nth_error_None in Er; lia]. cbn [option_map fst snd]. f_equal.
  destruct (running i row Er) as [A | [A _]].
  - apply loss_all_on; [apply clipped | apply on_mask; exact A].
  - apply loss_all_off; [apply clipped | apply off_mask; exact A].
Qed.

Lemma on_some : forall m, forallb (fun b => b) m = true -> m <> [] -> existsb (fun b : bool => b) m = true.
Proof. intros [| b m] H N; [contradiction |]. cbn in H |- *. apply andb_true_iff in H. destruct H as [-> _]. reflexivity. Qed.

Lemma never_offline : (0 < k)%nat -> forall x, In x (daylight_offline masks_of expected) -> x = None \/ x = Some false.
Proof.
  intros Hk x Hx. unfold daylight_offline, zip in Hx. apply in_map_iff in Hx. destruct Hx as ([m e] & <- & Hc). cbn [fst snd].
  apply In_nth_error in Hc. destruct Hc as [i Hi]. rewrite nth_error_combine in Hi. destruct (nth_error masks_of i) as [m' |] eqn:Em; [| discriminate].
  destruct (nth_error expected i) as [e' |] eqn:Ee; [| discriminate]. injection Hi as -> ->. destruct (fgt e (fz 0)) eqn:G; [right | left; reflexivity].
  destruct (masks_quiet i m Em) as [A | (_ & e2 & E2 & D1 & D2)].
  - rewrite (on_some m A); [reflexivity |]. intros ->. unfold masks_of in Em. rewrite nth_error_map_some in Em. destruct (nth_error rows i) as [row |] eqn:Er; [| discriminate].
    cbn [option_map] in Em. injection Em as Em. apply nth_error_In in Er. destruct (rows_frame row Er) as [Lr _].
    apply (f_equal (@length bool)) in Em. unfold looks_online in Em. rewrite zip_length, !map_length in Em. cbn [length] in Em. lia.
  - assert (e2 = e) as -> by congruence. exfalso. unfold fgt in G. destruct e as [| | q |]; try discriminate; [| exact (D1 eq_refl)].
    cbn in G. apply qlt_spec in G. pose proof (D2 q eq_refl). change (qz 0) with 0 in G. qlra.
Qed.

Lemma filled_false : forall l, (forall x, In x l -> x = None \/ x = Some false) -> filled_from false l = map (fun _ => false) l.
Proof.
  induction l as [| x l IH]; intros H; [reflexivity |]. cbn. destruct (H x (or_introl eq_refl)) as [-> | ->]; cbn; f_equal; apply IH; intros y Hy; apply H; right; exact Hy.
Qed.
Lemma outage_false : forall l, (forall x, In x l -> x = None \/ x = Some false) -> forall i, flag (full_outage l) i = false.
Proof.
  intros l H i. unfold full_outage. rewrite filled_false by exact H. rewrite filled_false by (intros x Hx; apply H, in_rev, Hx). rewrite map_rev, rev_involutive.
  unfold flag. revert i. clear H. induction l as [| x l IH]; intros [| i]; try reflexivity. cbn. apply IH.
Qed.
Lemma runs_false : forall o, (forall i, flag o i = false) -> outage_runs o = [].
Proof.
  intros o H. assert (forall g l, (forall i : nat, g i = false) -> filter g l = []) as K.
  { intros g l Hg. induction l as [| i l IH]; [reflexivity |]. cbn. rewrite Hg. exact IH. }
  unfold outage_runs, outage_steps. rewrite !K; [reflexivity | | |]; intros i; rewrite ?H; reflexivity.
Qed.

Lemma system_quiet : (0 < k)%nat -> forall freq index e cum,
  calc_loss_system freq index masks_of e expected cum = Ok ([], (map (fun _ => fz 0) index, cum)).
Proof.
  intros Hk freq index e cum. unfold calc_loss_system. rewrite runs_false; [reflexivity |]. apply outage_false. apply never_offline. exact Hk.
Qed.

(** ** The whole run *)

Lemma run_quiet : (0 < k)%nat -> forall freq index cum quantiles period,
  run freq index k power rows cum expected low sizes limits quantiles period =
  bind (calc_error_distributions freq index (map (fun _ => fz 0) power) power expected quantiles) (fun e =>
  bind (combine_losses freq period index (map (fun _ => fz 0) index) (map (fun _ => fz 0) power) cum) (fun res =>
  Ok (AvailabilityResult masks_of (map (fun _ => fz 0) power) e [] (map (fun _ => fz 0) index) cum res))).
Proof.
  intros Hk freq index cum quantiles period. unfold run. rewrite losses_zero.
  destruct (calc_error_distributions freq index (map (fun _ => fz 0) power) power expected quantiles) as [e |]; [| reflexivity]. cbn [bind].
  rewrite (system_quiet Hk). reflexivity.
Qed.

Lemma nothing_lost : (0 < k)%nat -> forall freq index cum quantiles period r,
  run freq index k power rows cum expected low sizes limits quantiles period = Ok r ->
  r_outages r = [] /\ r_loss_subsystem r = map (fun _ => Fin 0) power /\ r_loss_system r = map (fun _ => Fin 0) index /\ r_corrected r = cum.
Proof.
  intros Hk freq index cum quantiles period r H. rewrite (run_quiet Hk) in H.
  destruct (calc_error_distributions freq index (map (fun _ => fz 0) power) power expected quantiles) as [e |]; [| discriminate]. cbn [bind] in H.
  destruct (combine_losses freq period index (map (fun _ => fz 0) index) (map (fun _ => fz 0) power) cum) as [res |]; [| discriminate]. cbn [bind] in H.
  injection H as <-. auto.
Qed.
End Running.

Lemma zeros_noinf : forall A (l : list A), noinf (map (fun _ => Fin 0) l).
Proof. intros A l x Hx. apply in_map_iff in Hx. destruct Hx as (? & <- & _). split; discriminate. Qed.

Lemma nth_const : forall A B (c d : B) (l : list A) i, (i < length l)%nat -> nth i (map (fun _ => c) l) d = c.
Proof. induction l as [| x l IH]; intros [| i] H; cbn in *; try lia; [reflexivity | apply IH; lia]. Qed.

Lemma produces_normal : forall power expected, length expected = length power ->
  normal_at (map (fun _ => Fin 0) power) power expected = filter (produces power expected) (seq 0 (length power)).
Proof.
  intros power expected L. unfold normal_at. apply filter_ext_in. intros i Hi. apply in_seq in Hi. unfold normal_row, produces.
  rewrite nth_const by lia. destruct (nth i power NaN); try reflexivity.
Qed.

Lemma sum_zero_rows : forall f a b, (forall i, f i = 0) -> sum_rows f a b = 0.
Proof. intros f a b H. unfold sum_rows. generalize (rows_from a b) as l. induction l as [| i l IH]; [reflexivity |]. cbn [map]. rewrite qsum_cons, IH, H. ring. Qed.

Lemma losses_rows : forall freq period index s1 s2 cum res p l a v, combine_losses freq period index s1 s2 cum = Ok res -> In (p, (l, a, v)) res -> v = availability_of l a.
Proof.
  intros freq period index s1 s2 cum res p l a v H Hin. unfold combine_losses in H. destruct (energy_from_power freq (combine index (zip fadd s1 s2)) None None RightLabeled); [| discriminate].
  cbn [bind] in H. injection H as <-. apply in_map_iff in Hin. destruct Hin as (q & E & _). injection E as <- <- <- <-. reflexivity.
Qed.

Lemma full_availability : forall freq t0 w n k power rows cum expected low sizes limits q1 q2 period thr,
  (0 < w)%Z -> (2 <= n)%nat -> (0 < k)%nat -> (forall s t, (s <= t)%Z -> (period s <= period t)%Z) ->
  frame k rows -> length rows = n -> length power = n -> length cum = n -> length expected = n ->
  match limits with Some l => length l = n | None => True end ->
  noinf power -> noinf cum -> noinf expected -> 0 <= q1 -> q1 <= 1 -> 0 <= q2 -> q2 <= 1 ->
  length thr = k -> is_threshold low (data rows) thr -> keeps_running thr rows expected ->
  let time i := (t0 + w * Z.of_nat i)%Z in
  let outcome := run freq (evenly t0 w n) k power rows cum expected low sizes limits (q1, q2) period in
  (producing power expected = 0%nat -> outcome = Raise IndexError) /\
  ((0 < producing power expected < 4)%nat -> outcome = Raise ValueError) /\
  ((4 <= producing power expected)%nat -> exists r, outcome = Ok r /\
    r_outages r = [] /\ r_corrected r = cum /\
    StronglySorted Z.lt (map fst (r_results r)) /\
    (forall p, In p (map fst (r_results r)) <-> (period t0 <= p <= period (time (n - 1)%nat))%Z) /\
    forall p l a v, In (p, (l, a, v)) (r_results r) ->
      l = (if (p <? period (time 1%nat))%Z then NaN else Fin 0) /\
      meter_change cum (fun i => (period (time i) =? p)%Z) a /\
      (v = Fin 1 \/ v = NaN) /\
      (v = Fin 1 <-> (period (time 1%nat) <= p)%Z /\ exists x, a = Fin x /\ x <> 0)).
Proof.
  intros freq t0 w n k power rows cum expected low sizes limits q1 q2 period thr Hw Hn Hk HP HF Lr Lp Lc Le Ll Np Nc Ne Q1 Q2 Q3 Q4 Lt Ht HK time outcome.
  assert (rows <> []) as Rne by (intros ->; cbn in Lr; lia).
  assert (outcome = _) as E by (apply (run_quiet k low sizes limits power expected rows thr HF Rne); [congruence | destruct limits; [congruence | exact I] | exact Lt | exact Ht | exact HK | exact Hk]).
  set (zeros := map (fun _ : fl => Fin 0) power).
  assert (length zeros = n) as Lz by (unfold zeros; rewrite map_length; exact Lp).
  assert (filter (produces power expected) (seq 0 (length power)) = normal_at zeros power expected) as EN by (symmetry; apply produces_normal; congruence).
  unfold producing. rewrite EN. rewrite E. clear E outcome. change (map (fun _ : fl => fz 0) power) with zeros.
  split; [| split].
  - intros H. rewrite (errors_none freq t0 w n zeros power expected Hw Hn Lz Lp Le (zeros_noinf _ _) Np Ne); [reflexivity |]. destruct (normal_at zeros power expected); [reflexivity | discriminate].
  - intros H. destruct (errors_spec freq t0 w n zeros power expected Hw Hn Lz Lp Le (zeros_noinf _ _) Np Ne q1 q2 Q1 Q2 Q3 Q4) as [A _]; [intros Z; rewrite Z in H; cbn in H; lia |].
    rewrite A by lia. reflexivity.
  - intros H. destruct (errors_spec freq t0 w n zeros power expected Hw Hn Lz Lp Le (zeros_noinf _ _) Np Ne q1 q2 Q1 Q2 Q3 Q4) as [_ A]; [intros Z; rewrite Z in H; cbn in H; lia |].
    destruct (A H) as (e & -> & _). cbn [bind]. set (none := map (fun _ : Z => fz 0) (evenly t0 w n)).
    assert (length none = n) as Ln by (unfold none, evenly; rewrite !map_length, seq_length; reflexivity).
    assert (forall i, (i < n)%nat -> total_at none zeros i = Some 0) as T.
    { intros i Hi. unfold total_at. assert (nth i none NaN = Fin 0) as ->.
      { unfold none. rewrite nth_const; [reflexivity | unfold evenly; rewrite map_length, seq_length; exact Hi]. }
      assert (nth i zeros NaN = Fin 0) as ->.
      { unfold zeros. apply nth_const. lia. }
      f_equal. }
    destruct (combine_losses_spec freq t0 w n period none zeros cum Hw Hn HP Ln Lz Lc (zeros_noinf _ _) (zeros_noinf _ _) Nc) as (res & C & S1 & S2 & S3); [exists 0%nat, 0; split; [lia | apply T; lia] |].
    rewrite C. cbn [bind]. eexists. split; [reflexivity |]. cbn [r_outages r_corrected r_results]. split; [reflexivity |]. split; [reflexivity |]. split; [exact S1 |]. split; [exact S2 |].
    intros p l a v Hin. destruct (S3 p l a v Hin) as (B1 & B2 & B3 & B4 & B5). fold (time 1%nat) in B1, B2.
    pose proof (losses_rows _ _ _ _ _ _ _ _ _ _ _ C Hin) as Ev.
    assert (l = (if (p <? period (time 1%nat))%Z then NaN else Fin 0)) as El.
    { destruct (Z.ltb_spec p (period (time 1%nat))) as [L | L]; [exact (B1 L) |]. rewrite (B2 L). f_equal. apply sum_zero_rows. intros i.
      destruct (_ =? _)%Z; [| reflexivity]. unfold lost_in. destruct (Nat.ltb_spec i n) as [Li | Li].
      - rewrite (T i Li), (T (i - 1)%nat) by lia. ring.
      - unfold total_at at 2. rewrite (nth_overflow none) by lia. destruct (total_at none zeros (i - 1)); reflexivity. }
    split; [exact El |]. split; [exact B3 |].
    assert ((p < period (time 1%nat))%Z -> v = NaN) as V1 by (intros L; apply B4; left; exact (B1 L)).
    assert (forall x, (period (time 1%nat) <= p)%Z -> a = Fin x -> v = if qeq x 0 then NaN else Fin 1) as V2.
    { intros x L Ea. rewrite Ev, El, Ea. destruct (Z.ltb_spec p (period (time 1%nat))); [lia |]. unfold availability_of. cbn [fadd]. rewrite Qcplus_0_l.
      destruct (qeq x 0) eqn:E0; cbn [fdiv]; rewrite E0; [reflexivity |]. cbn [fsub fneg fadd fz]. apply (f_equal Fin). unfold Qcdiv. change (qz 1) with 1. ring. }
    assert (a = NaN -> v = NaN) as V3 by (intros Ea; apply B4; right; exact Ea).
    assert (a = NaN \/ exists x, a = Fin x) as [Ea | (x & Ea)].
    { destruct B3 as [[_ ->] | (i & j & x & y & _ & _ & _ & _ & _ & -> & _)]; [left; reflexivity | right; eauto]. }
    + rewrite (V3 Ea). split; [right; reflexivity |]. split; [discriminate |]. intros (_ & x & E & _). congruence.
    + destruct (Z.ltb_spec p (period (time 1%nat))) as [L | L].
      * rewrite (V1 L). split; [right; reflexivity |]. split; [discriminate | lia].
      * rewrite (V2 x L Ea). destruct (qeq x 0) eqn:E0.
        -- apply qeq_spec in E0. split; [right; reflexivity |]. split; [discriminate |]. intros (_ & y & Ey & N). congruence.
        -- apply qeq_false in E0. split; [left; reflexivity |]. split; [intros _; split; [exact L | eauto] | reflexivity].
Qed.
