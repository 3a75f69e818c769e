(** The figure of an availability analysis. *)

From Coq Require Import QArith Qcanon List ZArith Bool Lia Arith.
From Verif.Base Require Import QcExtra Fl TimeSeries.
From Verif.Spec Require Import Stats Availability AvailabilityPlots.
From Verif.Model Require Import Energy Availability AvailabilityPlots.
From Verif.Proofs Require Import FlP AvailP AvailP3 AvailP4.
Import ListNotations.
Open Scope Qc_scope.

Lemma noinf_inv : forall x l, noinf (x :: l) -> (x = NaN \/ exists q, x = Fin q) /\ noinf l.
Proof. intros x l N. split; [| intros y Hy; apply N; right; exact Hy]. destruct (N x (or_introl eq_refl)). destruct x; [left; reflexivity | congruence | right; eexists; reflexivity | congruence]. Qed.
Lemma qabs_neg : forall a, qabs (- a) = qabs a.
Proof. intros a. qcases; qlra. Qed.


Lemma cumsum_nth : forall l acc, noinf l -> forall j v, nth_error l j = Some v ->
  nth_error (cumsum_from (Fin acc) l) j = Some (match v with Fin _ => Fin (acc + qsum (map known_or_0 (firstn (S j) l))) | _ => NaN end).
Proof.
  induction l as [| x l IH]; intros acc N j v H; [destruct j; discriminate |]. apply noinf_inv in N. destruct N as [Nx N]. cbn [cumsum_from].
  destruct j as [| j].
  - cbn in H. injection H as ->. destruct Nx as [-> | [q ->]]; cbn [isnan nth_error firstn map]; [reflexivity |]. cbn [fadd]. f_equal. f_equal. f_equal. rewrite qsum_cons. cbn [known_or_0]. change (qsum []) with 0. ring.
  - cbn [nth_error] in H. change (firstn (S (S j)) (x :: l)) with (x :: firstn (S j) l). cbn [map]. rewrite qsum_cons. destruct Nx as [-> | [q ->]]; cbn [isnan nth_error fadd known_or_0].
    + rewrite (IH acc N j v H). destruct v; try reflexivity. f_equal. f_equal. ring.
    + rewrite (IH (acc + q) N j v H). destruct v; try reflexivity. f_equal. f_equal. ring.
Qed.
Lemma cumsum_length : forall l acc, length (cumsum_from acc l) = length l.
Proof. induction l as [| x l IH]; intros acc; [reflexivity |]. cbn. destruct (isnan x); cbn; rewrite IH; reflexivity. Qed.

Lemma slice_nth : forall {A} a b (l : list A) j, (a + j <= b)%nat -> nth_error (slice a b l) j = nth_error l (a + j).
Proof.
  intros A a b l j H. unfold slice. revert a b H. induction l as [| x l IH]; intros a b H.
  - rewrite skipn_nil, firstn_nil. destruct j, (a + _)%nat; reflexivity.
  - destruct a as [| a].
    + cbn [skipn Nat.add] in *. rewrite Nat.sub_0_r. clear IH. revert b j H. generalize (x :: l) as m. intros m. induction m as [| y m IHm]; intros b j H; [rewrite firstn_nil; reflexivity |].
      destruct j as [| j]; [reflexivity |]. destruct b as [| b]; [lia |]. cbn [firstn nth_error]. apply (IHm b j). lia.
    + cbn [skipn Nat.add nth_error]. destruct b as [| b]; [lia |]. change (S (S b) - S a)%nat with (S b - a)%nat. apply IH. lia.
Qed.
Lemma slice_firstn : forall {A} a b (l : list A) j, (a + j <= b)%nat -> firstn (S j) (slice a b l) = slice a (a + j) l.
Proof. intros A a b l j H. unfold slice. rewrite firstn_firstn. f_equal. lia. Qed.
Lemma combine_nth_some : forall {A B} (a : list A) (b : list B) i x y, nth_error a i = Some x -> nth_error b i = Some y -> nth_error (combine a b) i = Some (x, y).
Proof. intros A B. induction a as [| u a IH]; intros [| w b] [| i] x y Ha Hb; try discriminate; cbn in *; [congruence | apply IH; assumption]. Qed.
Lemma rev_last : forall {A} (l : list A) n x, length l = S n -> nth_error l n = Some x -> exists r, rev l = x :: r.
Proof.
  intros A l n x L H. destruct (rev l) as [| y r] eqn:E; [apply (f_equal (@length A)) in E; rewrite rev_length, L in E; discriminate |]. exists r. f_equal.
  apply (f_equal (@rev A)) in E. rewrite rev_involutive in E. cbn in E. rewrite E, app_length, Nat.add_1_r in L. rewrite E in H. rewrite nth_error_app2 in H by (injection L as L; lia). injection L as L. rewrite L, Nat.sub_diag in H. cbn in H. congruence.
Qed.

Lemma sum_rows_slice : forall l a j, (a + j < length l)%nat -> qsum (map known_or_0 (slice a (a + j) l)) = sum_rows (known_at l) a (a + j).
Proof. intros l a j H. rewrite (slice_rows _ NaN) by exact H. rewrite map_map. reflexivity. Qed.

Definition curve_of (index : list Z) (energy : list fl) (a b : nat) (start : fl) : series := combine (slice a b index) (map (fun x => fadd x start) (fcumsum (slice a b energy))).
Lemma curve_spec : forall index energy a b s, noinf energy -> length energy = length index -> (a <= b < length index)%nat -> production_shown index energy a b s (curve_of index energy a b (Fin s)).
Proof.
  intros index energy a b s N L H. unfold curve_of, production_shown. split.
  - rewrite combine_length, map_length. unfold fcumsum. rewrite cumsum_length, !slice_length by lia. lia.
  - intros j Hj. destruct (nth_error index (a + j)) as [t |] eqn:Et; [| apply nth_error_None in Et; lia]. destruct (nth_error energy (a + j)) as [v |] eqn:Ev; [| apply nth_error_None in Ev; lia].
    exists t, v. split; [reflexivity |]. split; [reflexivity |].
    assert (noinf (slice a b energy)) as NS. { intros x Hx. apply N. unfold slice in Hx. apply firstn_In in Hx || idtac. revert Hx. clear. revert a. intros a. generalize (S b - a)%nat. intros n Hx.
      assert (forall m (l : list fl), In x (firstn m l) -> In x l) as F by (induction m; intros [| y l]; cbn; intuition). assert (forall m (l : list fl), In x (skipn m l) -> In x l) as S by (induction m; intros [| y l]; cbn; intuition). apply (S a), (F n), Hx. }
    assert (nth_error (slice a b energy) j = Some v) as Es by (rewrite slice_nth by exact Hj; exact Ev).
    pose proof (cumsum_nth (slice a b energy) 0 NS j v Es) as C. rewrite slice_firstn, sum_rows_slice in C by lia.
    assert (nth_error (slice a b index) j = Some t) as Ei by (rewrite slice_nth by exact Hj; exact Et).
    destruct (N v (nth_error_In _ _ Ev)) as [N1 N2]. destruct v as [| | q |]; [left | congruence | right | congruence].
    + split; [reflexivity |]. apply combine_nth_some; [exact Ei |]. rewrite nth_error_map. unfold fcumsum. change (fz 0) with (Fin 0). rewrite C. reflexivity.
    + exists q. split; [reflexivity |]. apply combine_nth_some; [exact Ei |]. rewrite nth_error_map. unfold fcumsum. change (fz 0) with (Fin 0). rewrite C. cbn [option_map fadd]. do 2 f_equal. ring.
Qed.

Lemma mark_ok : forall index energy o, length energy = length index -> (o_start o <= o_end o < length index)%nat ->
  exists k, mark_outage index energy o = Ok k /\ k_curve k = curve_of index energy (o_start o) (o_end o) (o_energy_start o) /\ nth_error index (o_end o) = Some (k_time k) /\
    nth_error (k_curve k) (o_end o - o_start o) = Some (k_time k, k_energy k) /\
    k_below k = fabs (fsub (o_expected o) (o_ci_lower o)) /\ k_above k = fabs (fsub (o_expected o) (o_ci_upper o)).
Proof.
  intros index energy o L H. unfold mark_outage. cbv zeta. fold (curve_of index energy (o_start o) (o_end o) (o_energy_start o)). set (c := curve_of index energy (o_start o) (o_end o) (o_energy_start o)).
  assert (length c = S (o_end o - o_start o)) as LC.
  { unfold c, curve_of. rewrite combine_length, map_length. unfold fcumsum. rewrite cumsum_length, !slice_length by lia. lia. }
  destruct (nth_error c (o_end o - o_start o)) as [[t v] |] eqn:E; [| apply nth_error_None in E; lia]. destruct (rev_last c _ _ LC E) as [r ->].
  eexists. split; [reflexivity |]. cbn [k_curve k_time k_energy k_below k_above]. split; [reflexivity |].
  assert (nth_error index (o_end o) = Some t) as Et.
  { unfold c, curve_of in E. assert (nth_error (slice (o_start o) (o_end o) index) (o_end o - o_start o) = Some t) as K.
    { revert E. clear. generalize (o_end o - o_start o)%nat, (slice (o_start o) (o_end o) index), (map (fun x => fadd x (o_energy_start o)) (fcumsum (slice (o_start o) (o_end o) energy))). intros n l. revert n. induction l as [| x l IH]; intros [| n] [| y m] E; try discriminate; cbn in *; [congruence | apply (IH _ _ E)]. }
    rewrite slice_nth in K by lia. replace (o_start o + (o_end o - o_start o))%nat with (o_end o) in K by lia. exact K. }
  assert (nth (o_end o) index 0%Z = t) as En by (apply nth_error_nth; exact Et). rewrite En. split; [exact Et |]. split; [exact E |]. split; reflexivity.
Qed.

(** One outage of an analysis. *)
Lemma outage_shown : forall index e meter a b expected s stop err up,
  length index = length meter -> noinf meter -> noinf (e_energy e) -> length (e_energy e) = length meter -> length (e_power e) = length meter -> (a <= b < length meter)%nat ->
  expected = sum_rows (known_at (e_energy e)) a b -> meter_before meter a (Fin s) -> nth_error meter b = Some stop ->
  bound_at (e_lower e) (Z.of_nat (daylight_rows (e_power e) a b)) err -> bound_at (e_upper e) (Z.of_nat (daylight_rows (e_power e) a b)) up ->
  exists k, mark_outage index (e_energy e) (outage_info e meter (a, b)) = Ok k /\
    production_shown index (e_energy e) a b s (k_curve k) /\ nth_error index b = Some (k_time k) /\
    k_below k = Fin (qabs (err * expected)) /\ k_above k = Fin (qabs (up * expected)) /\
    (nth_error (e_energy e) b = Some NaN -> k_energy k = NaN) /\
    (forall q, nth_error (e_energy e) b = Some (Fin q) -> k_energy k = Fin (s + expected) /\
       (0 <= expected -> err <= 0 -> 0 <= up -> bar_from k (s + (1 + err) * expected) (s + (1 + up) * expected))).
Proof.
  intros index e meter a b expected s stop err up LI NM NE LE LP H EX MB ES BL BU.
  pose proof (outage_info_spec e meter a b expected (Fin s) stop err up NM NE LE LP H EX MB ES BL BU) as O. cbv zeta in O. set (o := outage_info e meter (a, b)) in *.
  destruct O as (O1 & O2 & _ & O4 & O5 & _ & O7 & O8 & _).
  destruct (mark_ok index (e_energy e) o ltac:(lia) ltac:(lia)) as (k & Hk & Kc & Kt & Ke & Kb & Ka). exists k. split; [exact Hk |]. rewrite O1, O2, O5 in *.
  pose proof (curve_spec index (e_energy e) a b s NE ltac:(lia) ltac:(lia)) as CS. rewrite <- Kc in CS. split; [exact CS |]. split; [exact Kt |].
  rewrite Kb, Ka, O4, O7, O8. cbn [fsub fneg fadd fabs].
  assert (qabs (expected + - ((1 + err) * expected)) = qabs (err * expected)) as E1 by (replace (expected + - ((1 + err) * expected)) with (- (err * expected)) by ring; apply qabs_neg).
  assert (qabs (expected + - ((1 + up) * expected)) = qabs (up * expected)) as E2 by (replace (expected + - ((1 + up) * expected)) with (- (up * expected)) by ring; apply qabs_neg).
  rewrite E1, E2 in *. split; [reflexivity |]. split; [reflexivity |].
  destruct CS as [_ CS]. destruct (CS (b - a)%nat ltac:(lia)) as (t & v & It & Iv & C). replace (a + (b - a))%nat with b in * by lia.
  split.
  - intros K. rewrite Iv in K. injection K as ->. destruct C as [[_ C] | (q & C & _)]; [| discriminate]. rewrite Ke in C. congruence.
  - intros q K. rewrite Iv in K. injection K as ->. destruct C as [[C _] | (q' & _ & C)]; [discriminate |]. rewrite Ke in C. rewrite <- EX in C. assert (k_energy k = Fin (s + expected)) as KE by congruence. split; [exact KE |].
    intros P1 P2 P3. exists (s + expected), (qabs (err * expected)), (qabs (up * expected)). rewrite Kb, Ka, O4, O7, O8. cbn [fsub fneg fadd fabs]. rewrite E1, E2. split; [exact KE |]. split; [reflexivity |]. split; [reflexivity |].
    assert (0 <= - err * expected) as M1 by (apply Qc_mul_nonneg; qlra). assert (0 <= up * expected) as M2 by (apply Qc_mul_nonneg; assumption).
    split.
    + assert (qabs (err * expected) = - (err * expected)) as ->; [| ring]. rewrite <- qabs_neg. apply qabs_pos. replace (- (err * expected)) with (- err * expected) by ring. exact M1.
    + rewrite (qabs_pos _ M2). ring.
Qed.

(** The recorded type and the bar. *)
Lemma type_shown : forall e meter a b expected s r err up,
  noinf meter -> noinf (e_energy e) -> length (e_energy e) = length meter -> length (e_power e) = length meter -> (a <= b < length meter)%nat ->
  expected = sum_rows (known_at (e_energy e)) a b -> meter_before meter a (Fin s) -> nth_error meter b = Some (Fin r) ->
  bound_at (e_lower e) (Z.of_nat (daylight_rows (e_power e) a b)) err -> bound_at (e_upper e) (Z.of_nat (daylight_rows (e_power e) a b)) up ->
  (o_type (outage_info e meter (a, b)) = Real <-> s - qf 5 100 * expected <= r /\ r < s + (1 + err) * expected).
Proof.
  intros e meter a b expected s r err up NM NE LE LP H EX MB ES BL BU.
  pose proof (outage_info_spec e meter a b expected (Fin s) (Fin r) err up NM NE LE LP H EX MB ES BL BU) as O. cbv zeta in O. destruct O as (_ & _ & _ & _ & _ & _ & _ & _ & O).
  assert (metered (Fin s) (Fin r) (r - s)) as M0 by (exists s, r; repeat split).
  assert (forall x, metered (Fin s) (Fin r) x -> x = r - s) as MU by (intros x (s' & r' & E1 & E2 & ->); congruence).
  destruct O as [(U & -> & _) | [(x & (M & L1 & L2) & -> & _) | (x & (M & L1 & L2) & -> & _)]].
  - split; [discriminate |]. intros [K _]. exfalso. destruct U as [U | (x & M & L)]; [exact (U _ M0) |]. apply MU in M. subst x. set (q := qf 5 100 * expected) in *. qlra.
  - split; [| reflexivity]. intros _. apply MU in M. subst x. set (q := qf 5 100 * expected) in *. set (w := (1 + err) * expected) in *. split; qlra.
  - split; [discriminate |]. intros [_ K]. exfalso. apply MU in M. subst x. set (w := (1 + err) * expected) in *. qlra.
Qed.

(** ** The object *)

Lemma runs_range : forall o a b, In (a, b) (outage_runs o) -> (a <= b < length o)%nat.
Proof. intros o a b H. rewrite runs_code in H. destruct (forallb (fun b => b) o); [destruct H |]. apply runs_spec in H. destruct H as (H1 & H2 & _). lia. Qed.
Lemma filled_length : forall l acc, length (filled_from acc l) = length l.
Proof. induction l as [| x l IH]; intros acc; [reflexivity |]. cbn. rewrite IH. reflexivity. Qed.
Lemma zip_len : forall {A B C} (f : A -> B -> C) a b, length (zip f a b) = Nat.min (length a) (length b).
Proof. intros A B C f. unfold zip. intros a b. rewrite map_length, combine_length. reflexivity. Qed.
Lemma full_length : forall l, length (full_outage l) = length l.
Proof. intros l. unfold full_outage. rewrite zip_len, rev_length, !filled_length, rev_length. lia. Qed.

Lemma run_object_run : forall p g s, match run_of p g with
  | Ok r => run_object p g s = (Attributes (Some (e_energy (r_expectation r))) (Some (r_outages r)) (Some (zip fadd (r_loss_system r) (r_loss_subsystem r))), Ok tt)
  | Raise e => snd (run_object p g s) = Raise e
  end.
Proof.
  intros p g s. unfold run_of, run, run_object. destruct (calc_loss_subsystem (p_count p) (g_low g) (g_sizes g) (g_limits g) (p_system p) (p_subsystem p)) as [masks loss]. cbv zeta.
  destruct (energy_from_power (p_freq p) (combine (p_index p) (rescaled (normal_rows loss (p_system p) (p_expected p)) (p_system p) (p_expected p))) None None RightLabeled) as [energy | e] eqn:EE.
  - assert (forall x, calc_error_distributions (p_freq p) (p_index p) loss (p_system p) (p_expected p) (g_quantiles g) = Ok x -> e_energy x = values_on (p_index p) energy) as EX.
    { intros x. unfold calc_error_distributions. cbv zeta. rewrite EE. cbn [bind]. destruct (energy_from_power (p_freq p) (combine (p_index p) (p_system p)) None None RightLabeled); [| discriminate]. cbn [bind].
      destruct (pick _ (values_on _ _)); [discriminate |]. destruct (window_lengths _); [discriminate |]. intros X. injection X as <-. reflexivity. }
    destruct (calc_error_distributions (p_freq p) (p_index p) loss (p_system p) (p_expected p) (g_quantiles g)) as [x | e]; cbn [bind]; [| reflexivity].
    specialize (EX x eq_refl). rewrite <- EX.
    assert (calc_loss_system (p_freq p) (p_index p) masks x (p_expected p) (p_meter p) = if match outage_runs (full_outage (daylight_offline masks (p_expected p))), e_lower x with _ :: _, [] => true | _, _ => false end then Raise IndexError
      else bind (fill_outages (p_freq p) (p_index p) (p_expected p) (map (outage_info x (p_meter p)) (outage_runs (full_outage (daylight_offline masks (p_expected p))))) (map (fun _ => fz 0) (p_index p), p_meter p)) (fun st => Ok (map (outage_info x (p_meter p)) (outage_runs (full_outage (daylight_offline masks (p_expected p)))), st))) as -> by reflexivity.
    destruct (match outage_runs (full_outage (daylight_offline masks (p_expected p))), e_lower x with _ :: _, [] => true | _, _ => false end); [reflexivity |].
    destruct (fill_outages _ _ _ _ _) as [st | e]; cbn [bind fst snd]; [| reflexivity]. destruct (combine_losses _ _ _ _ _ _) as [res | e]; cbn [bind]; reflexivity.
  - unfold calc_error_distributions. cbv zeta. rewrite EE. reflexivity.
Qed.

(** Where the outages of a run come from. *)
Lemma run_outages : forall p g r, length (p_expected p) = length (p_index p) -> run_of p g = Ok r ->
  length (e_energy (r_expectation r)) = length (p_index p) /\
  forall o, In o (r_outages r) -> exists a b, (a <= b < length (p_index p))%nat /\ o = outage_info (r_expectation r) (p_meter p) (a, b).
Proof.
  intros p g r LE R. unfold run_of, run in R. destruct (calc_loss_subsystem (p_count p) (g_low g) (g_sizes g) (g_limits g) (p_system p) (p_subsystem p)) as [masks loss].
  destruct (calc_error_distributions (p_freq p) (p_index p) loss (p_system p) (p_expected p) (g_quantiles g)) as [x | e] eqn:EX; [cbn [bind] in R | discriminate].
  destruct (calc_loss_system (p_freq p) (p_index p) masks x (p_expected p) (p_meter p)) as [q | e] eqn:EL; [cbn [bind] in R | discriminate].
  destruct (combine_losses _ _ _ _ _ _) as [res | e]; [cbn [bind] in R | discriminate].
  assert (r_expectation r = x /\ r_outages r = fst q) as [-> ->] by (injection R as <-; split; reflexivity). split.
  - unfold calc_error_distributions in EX. cbv zeta in EX. destruct (energy_from_power (p_freq p) (combine (p_index p) (rescaled _ _ _)) None None RightLabeled) as [energy | e]; [cbn [bind] in EX | discriminate].
    destruct (energy_from_power (p_freq p) (combine (p_index p) (p_system p)) None None RightLabeled); [cbn [bind] in EX | discriminate]. destruct (pick _ (values_on _ _)); [discriminate |]. destruct (window_lengths _); [discriminate |].
    injection EX as <-. cbn [e_energy]. unfold values_on. apply map_length.
  - unfold calc_loss_system in EL. cbv zeta in EL. destruct (match outage_runs _, e_lower x with _ :: _, [] => true | _, _ => false end); [discriminate |]. destruct (fill_outages _ _ _ _ _) as [st | e]; [cbn [bind] in EL | discriminate].
    injection EL as <-. cbn [fst]. intros o Ho. apply in_map_iff in Ho. destruct Ho as ([a b] & <- & Hab). exists a, b. split; [| reflexivity]. apply runs_range in Hab. rewrite full_length in Hab. unfold daylight_offline in Hab. rewrite zip_len in Hab. lia.
Qed.

Lemma marks_ok : forall index energy os, length energy = length index -> (forall o, In o os -> (o_start o <= o_end o < length index)%nat) ->
  exists ks, mark_outages index energy os = Ok ks /\ Forall2 (fun o k => mark_outage index energy o = Ok k) os ks.
Proof.
  intros index energy os L. induction os as [| o os IH]; intros H; [exists []; split; [reflexivity | constructor] |]. destruct (mark_ok index energy o L (H o (or_introl eq_refl))) as (k & Hk & _).
  destruct IH as (ks & Hks & F); [intros o' Ho; apply H; right; exact Ho |]. exists (k :: ks). cbn [mark_outages]. rewrite Hk. cbn [bind]. rewrite Hks. split; [reflexivity | constructor; assumption].
Qed.
Lemma info_rows : forall e meter a b, o_start (outage_info e meter (a, b)) = a /\ o_end (outage_info e meter (a, b)) = b.
Proof. intros. split; reflexivity. Qed.

(** After a run the figure can be made, whatever was there before. *)
Lemma plot_after_run : forall p g s r, length (p_expected p) = length (p_index p) -> run_of p g = Ok r ->
  exists f, plot_object p (fst (run_object p g s)) = Ok f /\
    v_system f = combine (p_index p) (p_system p) /\ v_subsystems f = combine (p_index p) (p_subsystem p) /\ v_meter f = combine (p_index p) (p_meter p) /\
    v_lost f = combine (p_index p) (zip fadd (r_loss_system r) (r_loss_subsystem r)) /\
    Forall2 (fun o k => exists a b, (a <= b < length (p_index p))%nat /\ o = outage_info (r_expectation r) (p_meter p) (a, b) /\ nth_error (p_index p) b = Some (k_time k) /\
      mark_outage (p_index p) (e_energy (r_expectation r)) o = Ok k) (r_outages r) (v_outages f).
Proof.
  intros p g s r LE R. pose proof (run_object_run p g s) as K. rewrite R in K. rewrite K. cbn [fst]. destruct (run_outages p g r LE R) as [L O].
  unfold plot_object. cbn [a_total a_energy a_outages]. unfold availability_summary_plots. destruct (marks_ok (p_index p) (e_energy (r_expectation r)) (r_outages r) L) as (ks & -> & F).
  { intros o Ho. destruct (O o Ho) as (a & b & H & ->). destruct (info_rows (r_expectation r) (p_meter p) a b) as [-> ->]. exact H. }
  cbn [bind]. eexists. split; [reflexivity |]. cbn [v_system v_subsystems v_lost v_meter v_outages]. do 4 (split; [reflexivity |]). clear K R. induction F as [| o k os ks Hk F IH]; constructor.
  - destruct (O o (or_introl eq_refl)) as (a & b & H & E). exists a, b. split; [exact H |]. split; [exact E |]. split; [| exact Hk]. destruct (info_rows (r_expectation r) (p_meter p) a b) as [E1 E2]. rewrite <- E in E1, E2.
    destruct (mark_ok (p_index p) (e_energy (r_expectation r)) o L ltac:(lia)) as (k' & Hk' & _ & T & _). rewrite E2 in T. congruence.
  - apply IH. intros o' Ho. apply O. right. exact Ho.
Qed.

Lemma plot_before : forall p, plot_object p fresh = Raise TypeError.
Proof. reflexivity. Qed.
(** The figure of a run is that of the same run on a new object. *)
Lemma plot_history : forall p g s s' r, run_of p g = Ok r -> plot_object p (fst (run_object p g s)) = plot_object p (fst (run_object p g s')).
Proof. intros p g s s' r R. pose proof (run_object_run p g s) as K. pose proof (run_object_run p g s') as K'. rewrite R in K, K'. rewrite K, K'. reflexivity. Qed.

(** A run sets energy, outages and total loss in this order, up to where it fails, whatever they were before. *)
Lemma run_staged : forall p g, exists energy outages total res,
  (outages <> None -> energy <> None) /\ (total <> None -> outages <> None) /\ (res = Ok tt -> total <> None) /\
  forall s, run_object p g s = (Attributes (match energy with None => a_energy s | _ => energy end) (match outages with None => a_outages s | _ => outages end)
                                           (match total with None => a_total s | _ => total end), res).
Proof.
  intros p g. unfold run_object. destruct (calc_loss_subsystem (p_count p) (g_low g) (g_sizes g) (g_limits g) (p_system p) (p_subsystem p)) as [masks loss]. cbv zeta.
  destruct (energy_from_power _ _ _ _ _) as [energy | e]; [| exists None, None, None, (Raise e); repeat split; try congruence; intros [a b c]; reflexivity].
  exists (Some (values_on (p_index p) energy)).
  destruct (calc_error_distributions _ _ _ _ _ _) as [x | e]; [| exists None, None, (Raise e); repeat split; try congruence; intros [a b c]; reflexivity].
  destruct (match outage_runs _, e_lower x with _ :: _, [] => true | _, _ => false end); [exists None, None, (Raise IndexError); repeat split; try congruence; intros [a b c]; reflexivity |].
  match goal with |- context [Some (map (outage_info x (p_meter p)) ?r)] => exists (Some (map (outage_info x (p_meter p)) r)) end.
  destruct (calc_loss_system _ _ _ _ _ _) as [r | e]; [| exists None, (Raise e); repeat split; try congruence; intros [a b c]; reflexivity].
  exists (Some (zip fadd (fst (snd r)) loss)), (bind (combine_losses (p_freq p) (g_period g) (p_index p) (fst (snd r)) loss (snd (snd r))) (fun _ => Ok tt)).
  split; [congruence |]. split; [congruence |]. split; [congruence |]. intros [a b c]. reflexivity.
Qed.
