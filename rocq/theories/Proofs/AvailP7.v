(** The loss of full outages as a whole. *)

From Coq Require Import QArith Qcanon List ZArith Bool Arith Lia Permutation Sorted.
From Verif.Base Require Import QcExtra ISort Quantile Fl TimeSeries Rolling Segments.
From Verif.Spec Require Import Stats Energy Availability.
From Verif.Model Require Import Energy Availability.
From Verif.Proofs Require Import EnergyP6 EnergyP7 ClipP4 AvailP AvailP2 AvailP3 AvailP4 AvailP5 AvailP6.
Import ListNotations.
Open Scope list_scope.
Open Scope Qc_scope.

Lemma reports_code : forall masks expected l, length masks = length expected -> daylight_reports masks expected l ->
  l = daylight_offline masks expected.
Proof.
  intros masks expected l HL (Ll & H). apply nth_error_ext. intros i. rewrite daylight_spec.
  destruct (nth_error masks i) as [m |] eqn:Em.
  - assert (i < length masks)%nat as Hi by (apply nth_error_Some; congruence).
    destruct (nth_error expected i) as [e |] eqn:Ee; [| apply nth_error_None in Ee; lia].
    destruct (H i m e Em Ee) as [H1 H2]. destruct e as [| | q |]; cbn [fgt flt fz].
    + apply H2; intros; discriminate.
    + apply H2; intros; discriminate.
    + unfold fgt. cbn [flt fz]. change (qz 0) with 0. destruct (qlt 0 q) eqn:Q.
      * apply qlt_spec in Q. apply H1. right. exists q. auto.
      * apply qlt_false in Q. apply H2; [discriminate |]. intros q' E. injection E as <-. exact Q.
    + apply H1. left. reflexivity.
  - apply nth_error_None in Em. apply nth_error_None. lia.
Qed.

Lemma offline_length : forall masks expected, length masks = length expected -> length (daylight_offline masks expected) = length masks.
Proof. intros. unfold daylight_offline. rewrite zip_length. lia. Qed.

Lemma info_place : forall e meter r, place (outage_info e meter r) = r.
Proof. intros e meter [a b]. reflexivity. Qed.
Lemma info_places : forall e meter l, map place (map (outage_info e meter) l) = l.
Proof. intros. rewrite map_map. rewrite (map_ext _ (fun r => r)) by (intros; apply info_place). apply map_id. Qed.

(** The reported outages, whatever the data. *)
Lemma reported_outages : forall freq index masks e power meter os st l, length masks = length power -> daylight_reports masks power l ->
  calc_loss_system freq index masks e power meter = Ok (os, st) ->
  let places := map (fun o => (o_start o, o_end o)) os in
  ((exists i, (i < length masks)%nat /\ ~ in_outage l i) ->
     in_order places /\ forall a b, In (a, b) places <-> maximal_run (length masks) (in_outage l) a b) /\
  ((forall i, (i < length masks)%nat -> in_outage l i) -> os = []).
Proof.
  intros freq index masks e power meter os st l HL HR HE places. pose proof (reports_code masks power l HL HR) as El. rewrite <- (proj1 HR).
  unfold calc_loss_system in HE. rewrite <- El in HE.
  destruct (match outage_runs _ with [] => _ | _ => _ end) in HE; [discriminate |].
  destruct (fill_outages _ _ _ _ _) as [st' |] in HE; [| discriminate]. cbn [bind] in HE.
  assert (os = map (outage_info e meter) (outage_runs (full_outage l))) as Eo by congruence.
  assert (places = outage_runs (full_outage l)) as Ep by (unfold places; change (map place os = outage_runs (full_outage l)); rewrite Eo; apply info_places).
  destruct (outages_spec l) as [O1 O2]. rewrite Ep. split; [exact O1 |]. intros H. rewrite Eo, (O2 H). reflexivity.
Qed.

Lemma loss_system_spec : forall freq t0 w n masks e power q meter l,
  (0 < w)%Z -> length masks = n -> length power = n -> (forall i, (i < n)%nat -> nth_error power i = Some (Fin (q i))) ->
  length meter = n -> noinf meter -> length (e_energy e) = n -> noinf (e_energy e) -> length (e_power e) = n ->
  (forall x, exists y, bound_at (e_lower e) x y) -> (forall x, exists y, bound_at (e_upper e) x y) ->
  daylight_reports masks power l -> (exists i, (i < n)%nat /\ ~ in_outage l i) ->
  (forall a b, maximal_run n (in_outage l) a b -> (a < b)%nat /\ energy_after (hours w) q a b <> 0) ->
  exists os lost corrected, calc_loss_system freq (evenly t0 w n) masks e power meter = Ok (os, (lost, corrected)) /\
    length lost = n /\ length corrected = n /\
    (forall i, (i < n)%nat -> ~ in_outage l i -> nth_error lost i = Some (Fin 0) /\ nth_error corrected i = nth_error meter i) /\
    forall a b start stop err, maximal_run n (in_outage l) a b -> meter_before meter a start -> nth_error meter b = Some stop ->
      bound_at (e_lower e) (Z.of_nat (daylight_rows (e_power e) a b)) err ->
      let expected := sum_rows (known_at (e_energy e)) a b in
      (unknown_outage expected start stop -> blank a b lost corrected) /\
      (forall s x, start = Fin s -> real_outage expected err start stop x -> rebuilt (hours w) q a b (expected - x) x s lost corrected) /\
      (forall s x, start = Fin s -> comms_outage expected err start stop x -> rebuilt (hours w) q a b 0 x s lost corrected).
Proof.
  intros freq t0 w n masks e power q meter l Hw Lm Lp Hq Lc Nc Le Ne Lq HLo HUp HR HX HT.
  pose proof (reports_code masks power l ltac:(lia) HR) as El. assert (length l = n) as Ll by (rewrite (proj1 HR); exact Lm).
  destruct (outages_spec l) as [O1 _]. rewrite Ll in O1. destruct (O1 HX) as [HO HI]. set (runs := outage_runs (full_outage l)) in *.
  set (os := map (outage_info e meter) runs).
  assert (forall a b, maximal_run n (in_outage l) a b -> forall start stop err, meter_before meter a start -> nth_error meter b = Some stop ->
    bound_at (e_lower e) (Z.of_nat (daylight_rows (e_power e) a b)) err ->
    let o := outage_info e meter (a, b) in let expected := sum_rows (known_at (e_energy e)) a b in
    o_start o = a /\ o_end o = b /\ o_energy_start o = start /\
    ((unknown_outage expected start stop /\ o_actual o = NaN /\ o_loss o = NaN) \/
     (exists x, real_outage expected err start stop x /\ o_actual o = Fin x /\ o_loss o = Fin (expected - x)) \/
     (exists x, comms_outage expected err start stop x /\ o_actual o = Fin x /\ o_loss o = Fin 0))) as HINFO.
  { intros a b Hab start stop err H1 H2 H3 o expected. destruct (HUp (Z.of_nat (daylight_rows (e_power e) a b))) as [up H4].
    destruct (outage_info_spec e meter a b expected start stop err up Nc Ne ltac:(lia) ltac:(lia)) as (I1 & I2 & _ & _ & I3 & _ & _ & _ & I4); try assumption; try reflexivity.
    - destruct Hab as (Hab & _). lia.
    - split; [exact I1 |]. split; [exact I2 |]. split; [exact I3 |]. destruct I4 as [(U1 & _ & U2 & U3) | [(x & U1 & _ & U2 & U3) | (x & U1 & _ & U2 & U3)]]; [left | right; left; exists x | right; right; exists x]; auto. }
  assert (forall a b, maximal_run n (in_outage l) a b -> exists start stop err, meter_before meter a start /\ nth_error meter b = Some stop /\
    bound_at (e_lower e) (Z.of_nat (daylight_rows (e_power e) a b)) err /\ (start = NaN \/ exists s, start = Fin s)) as HEX.
  { intros a b (Hab & _). destruct (HLo (Z.of_nat (daylight_rows (e_power e) a b))) as [err Herr].
    pose proof (before_spec meter a ltac:(lia)) as HB. eexists. exists (nth b meter NaN), err. split; [exact HB |]. split; [apply nth_error_nth'; lia |]. split; [exact Herr |].
    assert (forall x, In x meter -> x = NaN \/ exists s, x = Fin s) as K.
    { intros x Hx. destruct (Nc x Hx). destruct x; try contradiction; eauto. }
    apply K. apply nth_In. destruct a; lia. }
  destruct (fill_all_spec freq t0 w n power q os meter Hw Lp Lc Hq) as (lost & corrected & E & L1 & L2 & R1 & R2).
  { unfold os. rewrite info_places. exact HO. }
  { intros o Ho. unfold os in Ho. apply in_map_iff in Ho. destruct Ho as ([a b] & <- & Hr). apply HI in Hr. destruct (HT a b Hr) as [H1 H2].
    destruct (HEX a b Hr) as (start & stop & err & X1 & X2 & X3 & X4). destruct (HINFO a b Hr start stop err X1 X2 X3) as (I1 & I2 & I3 & I4).
    rewrite I1, I2. split; [destruct Hr as (Hr & _); lia |]. split; [| exact H2].
    destruct I4 as [(_ & U2 & U3) | [(x & U1 & U2 & U3) | (x & U1 & U2 & U3)]].
    - right. rewrite I3. auto.
    - left. destruct U1 as ((s & t & -> & _) & _). do 3 eexists. split; [exact U3 |]. split; [exact U2 | exact I3].
    - left. destruct U1 as ((s & t & -> & _) & _). do 3 eexists. split; [exact U3 |]. split; [exact U2 | exact I3]. }
  exists os, lost, corrected. split.
  { unfold calc_loss_system. rewrite <- El. fold runs os. rewrite E.
    assert (match runs with [] => false | _ :: _ => match e_lower e with [] => true | _ :: _ => false end end = false) as ->; [| reflexivity].
    destruct runs; [reflexivity |]. destruct (HLo 0%Z) as (y & k & Ek & _ & C). destruct (e_lower e); [| reflexivity]. destruct k; [| discriminate].
    inversion C as [x0 y0 l' K | x0 y0 l' K | x1 y1 x2 y2 l1 l2 K]; [discriminate | destruct l'; discriminate | destruct l1; discriminate]. }
  split; [exact L1 |]. split; [exact L2 |]. split.
  - intros i Hi HN. apply R1; [exact Hi |]. intros o Ho Hin. apply HN. unfold os in Ho. apply in_map_iff in Ho. destruct Ho as ([a b] & <- & Hr). apply HI in Hr.
    destruct Hr as (_ & Hr & _). apply Hr. exact Hin.
  - intros a b start stop err Hab H1 H2 H3 expected. destruct (HINFO a b Hab start stop err H1 H2 H3) as (I1 & I2 & I3 & I4). fold expected in I4.
    assert (In (outage_info e meter (a, b)) os) as Ho by (unfold os; apply in_map; apply HI; exact Hab).
    destruct (R2 _ Ho) as [K1 K2]. rewrite I1, I2, I3 in K1. rewrite I1, I2 in K2.
    split; [| split].
    + intros U. destruct I4 as [(_ & _ & U3) | [(x & U1 & _) | (x & U1 & _)]].
      * apply K2. exact U3.
      * exfalso. destruct U1 as (M & B & _). destruct U as [U | (y & M' & B')]; [exact (U x M) |].
        destruct M as (s & t & -> & -> & ->). destruct M' as (s' & t' & E1 & E2 & ->). injection E1 as <-. injection E2 as <-. apply (Qcle_not_lt _ _ B B').
      * exfalso. destruct U1 as (M & B & _). destruct U as [U | (y & M' & B')]; [exact (U x M) |].
        destruct M as (s & t & -> & -> & ->). destruct M' as (s' & t' & E1 & E2 & ->). injection E1 as <-. injection E2 as <-. apply (Qcle_not_lt _ _ B B').
    + intros s x Es (M & B & C). assert (forall y, metered start stop y -> y = x) as MU.
      { intros y M'. destruct M as (s1 & t1 & E1 & E2 & ->). destruct M' as (s2 & t2 & E3 & E4 & ->). congruence. }
      destruct I4 as [(U & _) | [(y & (U1 & _) & U2 & U3) | (y & (U1 & U2 & U3) & _)]].
      * exfalso. destruct U as [U | (y & M' & B')]; [exact (U x M) |]. rewrite (MU y M') in B'. apply (Qcle_not_lt _ _ B B').
      * rewrite (MU y U1) in U2, U3. apply K1; [exact U3 | exact U2 | exact Es].
      * exfalso. rewrite (MU y U1) in U3. apply (Qcle_not_lt _ _ U3 C).
    + intros s x Es (M & B & C). assert (forall y, metered start stop y -> y = x) as MU.
      { intros y M'. destruct M as (s1 & t1 & E1 & E2 & ->). destruct M' as (s2 & t2 & E3 & E4 & ->). congruence. }
      destruct I4 as [(U & _) | [(y & (U1 & U2 & U3) & _) | (y & (U1 & _) & U2 & U3)]].
      * exfalso. destruct U as [U | (y & M' & B')]; [exact (U x M) |]. rewrite (MU y M') in B'. apply (Qcle_not_lt _ _ B B').
      * exfalso. rewrite (MU y U1) in U3. apply (Qcle_not_lt _ _ C U3).
      * rewrite (MU y U1) in U2. apply K1; [exact U3 | exact U2 | exact Es].
Qed.

(** ** Availability *)

Lemma availability_fin : forall x y, x + y <> 0 -> availability_of (Fin x) (Fin y) = Fin (y / (x + y)).
Proof.
  intros x y H. unfold availability_of, fdiv. cbn [fadd fsub fneg fz]. assert (qeq (x + y) 0 = false) as -> by (apply qeq_false; exact H).
  change (qz 1) with 1. cbn [fneg fadd fsub]. f_equal. field. exact H.
Qed.

Lemma availability_bounds : forall x y, 0 <= x -> 0 <= y -> x + y <> 0 -> exists v,
  availability_of (Fin x) (Fin y) = Fin v /\ v = y / (x + y) /\ 0 <= v /\ v <= 1 /\ (v = 1 <-> x = 0) /\ (v = 0 <-> y = 0).
Proof.
  intros x y Hx Hy H. exists (y / (x + y)). split; [apply availability_fin; exact H |]. split; [reflexivity |].
  assert (0 < x + y) as P by (assert (0 <= x + y) by qlra; destruct (Qcle_lt_or_eq _ _ H0) as [K | K]; [exact K | exfalso; apply H; auto]).
  split; [apply Qc_div_nonneg; [exact Hy | exact P] |].
  split; [apply Qc_div_le; [exact P | qlra] |]. split; split.
  - intros E. assert (y = x + y) as K by (rewrite <- (Qcmult_1_l (x + y)), <- E; field; exact H). qlra.
  - intros ->. field. intros E. apply H. rewrite E. ring.
  - intros E. assert (y = 0 * (x + y)) as K by (rewrite <- E; field; exact H). rewrite K. ring.
  - intros ->. unfold Qcdiv. ring.
Qed.

Lemma availability_decreasing : forall x x' y, 0 <= x -> x < x' -> 0 < y -> exists v v',
  availability_of (Fin x) (Fin y) = Fin v /\ availability_of (Fin x') (Fin y) = Fin v' /\ v' < v.
Proof.
  intros x x' y Hx Hlt Hy. assert (0 < x + y) as P by qlra. assert (0 < x' + y) as P' by qlra.
  exists (y / (x + y)), (y / (x' + y)). split; [apply availability_fin; apply Qc_pos_neq; exact P |]. split; [apply availability_fin; apply Qc_pos_neq; exact P' |].
  apply Qc_div_lt; [exact P' |]. replace (y / (x + y) * (x' + y)) with (y + y * (x' - x) / (x + y)) by (field; apply Qc_pos_neq; exact P).
  assert (0 < y * (x' - x) / (x + y)) by (apply Qc_lt_div; [exact P |]; assert (0 < x' - x) by qlra; qnra). qlra.
Qed.
