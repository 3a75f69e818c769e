(** Lemmas about normalize_with_expected_power. *)

From Coq Require Import QArith Qcanon List ZArith Bool Sorted Lia.
From Verif.Base Require Import QcExtra ISort Quantile Fl TimeSeries Calendar Rolling Segments.
From Verif.Spec Require Import Stats Interp Energy Filters Normalization.
From Verif.Model Require Import Interpolation Energy Filters Normalization.
From Verif.Proofs Require Import StatsP FlP InterpP EnergyP EnergyP6 FiltersP NormP UnitP.
Import ListNotations.
Open Scope Qc_scope.

(** ** Mean step *)

Definition ns_hour : Qc := qz 3600000000000.
Lemma ns_hour_pos : 0 < ns_hour.
Proof. reflexivity. Qed.

Lemma mean_scaled : forall ds, noinf ds -> finvals ds <> [] ->
  fmean (map (fun d => fdiv d (fz 3600000000000)) ds) = Fin (qsum (finvals ds) / qlen (finvals ds) / ns_hour).
Proof.
  intros ds HN Hne.
  assert (map (fun d => fdiv d (fz 3600000000000)) ds =
          map (fun d => match d with Fin q => Fin (q / ns_hour) | _ => NaN end) ds) as ->.
  { apply map_ext_in. intros d Hd. destruct (HN d Hd). destruct d; try congruence; reflexivity. }
  set (ds' := map _ ds).
  assert (finvals ds' = map (fun q => (1 / ns_hour) * q) (finvals ds)) as EF.
  { unfold ds'. clear - HN. induction ds as [| d ds IH]; [reflexivity |].
    assert (noinf ds) as HN' by (intros x Hx; apply HN; right; exact Hx). specialize (IH HN').
    destruct d; cbn [map finvals]; rewrite ?IH; try reflexivity.
    f_equal. assert (ns_hour <> 0) by discriminate. field. assumption. }
  rewrite fmean_noinf.
  - rewrite EF. unfold qlen. rewrite map_length. fold (qlen (finvals ds)).
    rewrite <- (map_id (finvals ds)) at 1. rewrite map_map, qsum_map_scale. rewrite map_id.
    assert (ns_hour <> 0) by discriminate. assert (qlen (finvals ds) <> 0) by (apply Qc_pos_neq, qlen_pos, Hne).
    f_equal. field. auto.
  - intros x Hx. unfold ds' in Hx. apply in_map_iff in Hx. destruct Hx as (d & <- & Hd).
    destruct (HN d Hd). destruct d; split; try discriminate; congruence.
  - rewrite EF. destruct (finvals ds); [congruence | discriminate].
Qed.

Lemma gaps_sum : forall l a, qsum (gaps_between (a :: l)) = qz (List.last l a - a) /\
  length (gaps_between (a :: l)) = length l.
Proof.
  induction l as [| b l IH]; intros a.
  - split; [| reflexivity]. cbn. rewrite Z.sub_diag. reflexivity.
  - change (gaps_between (a :: b :: l)) with (qz (b - a) :: gaps_between (b :: l)).
    destruct (IH b) as [I1 I2]. split.
    + rewrite qsum_cons, I1. rewrite <- qz_add. f_equal.
      assert (List.last (b :: l) a = List.last l b) as ->; [| lia].
      clear. revert a b. induction l as [| c l IH]; intros a b; [reflexivity |].
      change (List.last (c :: l) a = List.last (c :: l) b). rewrite !IH. reflexivity.
    + cbn [length]. rewrite I2. reflexivity.
Qed.

Lemma last_app1 : forall (m : list Z) y d, List.last (m ++ [y]) d = y.
Proof. intros. apply last_last. Qed.

Lemma mean_step_value : forall freq s a, avg_step freq (times s) a -> mean_step freq s = Fin (a / ns_hour).
Proof.
  intros freq s a [Hne H]. unfold mean_step. destruct freq as [w |].
  - subst a. assert (finvals (map (fun _ => fz w) s) = map (fun _ => qz w) s) as EF.
    { clear. induction s; cbn; [reflexivity |]. rewrite IHs. reflexivity. }
    rewrite mean_scaled.
    + rewrite EF, qsum_const. unfold qlen. rewrite map_length. f_equal.
      assert (qz (Z.of_nat (length s)) <> 0).
      { apply qz_neq0. destruct s; [elim Hne; reflexivity | cbn; lia]. }
      assert (ns_hour <> 0) by discriminate. field. auto.
    + intros x Hx. apply in_map_iff in Hx. destruct Hx as (r & <- & _). split; discriminate.
    + rewrite EF. destruct s; [elim Hne; reflexivity | discriminate].
  - destruct H as (x & y & l & m & E1 & E2 & Hl & Ha). destruct (time_diffs_gaps (times s)) as [EG NG].
    assert (finvals (time_diffs (times s)) <> []) as Hf.
    { rewrite EG, E1. destruct l; [congruence | discriminate]. }
    rewrite mean_scaled by assumption. rewrite EG, E1. destruct (gaps_sum l x) as [G1 G2]. unfold qlen. rewrite G1, G2.
    assert (List.last l x = y) as ->.
    { rewrite E1 in E2. assert (List.last (x :: l) x = y) by (rewrite E2; apply last_last).
      destruct l; [congruence | exact H]. }
    rewrite <- Ha. f_equal.
    assert (qz (Z.of_nat (length l)) <> 0) by (apply qz_neq0; destruct l; [congruence | cbn; lia]).
    assert (ns_hour <> 0) by discriminate. field. auto.
Qed.

Lemma mean_step_missing : forall freq s, (forall a, ~ avg_step freq (times s) a) -> mean_step freq s = NaN.
Proof.
  intros freq s H. unfold mean_step. destruct freq as [w |].
  - destruct s as [| r s]; [reflexivity |]. exfalso. apply (H (qz w)). split; [discriminate | reflexivity].
  - destruct s as [| r [| r' s]]; [reflexivity | reflexivity |]. exfalso.
    destruct (exists_last (l := times (r :: r' :: s)) ltac:(discriminate)) as (m & y & E).
    apply (H (qz (y - fst r) / qz (Z.of_nat (length (times (r' :: s)))))). split; [discriminate |].
    exists (fst r), y, (times (r' :: s)), m. split; [reflexivity |]. split; [exact E |]. split; [discriminate |].
    apply Qc_div_mul. apply qz_neq0. cbn. lia.
Qed.

Lemma avg_step_dec : forall freq l, (exists a, avg_step freq l a) \/ (forall a, ~ avg_step freq l a).
Proof.
  intros freq l. destruct l as [| x l]; [right; intros a [H _]; congruence |]. destruct freq as [w |].
  - left. exists (qz w). split; [discriminate | reflexivity].
  - destruct l as [| y l].
    + right. intros a [_ (x' & y' & l' & m & E & _ & Hl & _)]. injection E as _ <-. congruence.
    + left. destruct (exists_last (l := x :: y :: l) ltac:(discriminate)) as (m & z & E).
      exists (qz (z - x) / qz (Z.of_nat (length (y :: l)))). split; [discriminate |].
      exists x, z, (y :: l), m. split; [reflexivity |]. split; [exact E |]. split; [discriminate |].
      apply Qc_div_mul. apply qz_neq0. cbn. lia.
Qed.

Lemma avg_step_unique : forall freq l a b, avg_step freq l a -> avg_step freq l b -> a = b.
Proof.
  intros freq l a b Ha Hb.
  pose proof (mean_step_value freq (map (fun t => (t, NaN)) l) a) as E1.
  pose proof (mean_step_value freq (map (fun t => (t, NaN)) l) b) as E2.
  assert (times (map (fun t => (t, NaN)) l) = l) as ET by (unfold times; rewrite map_map; apply map_id).
  rewrite ET in *. specialize (E1 Ha). specialize (E2 Hb). rewrite E1 in E2.
  assert (a / ns_hour = b / ns_hour) as E by congruence.
  apply (f_equal (fun x => x * ns_hour)) in E. rewrite !Qc_div_mul in E by discriminate. exact E.
Qed.

Lemma slower_iff : forall f1 s1 f2 s2, fgt (mean_step f1 s1) (mean_step f2 s2) = true <-> slower f1 (times s1) f2 (times s2).
Proof.
  intros f1 s1 f2 s2.
  destruct (avg_step_dec f1 (times s1)) as [[a Ha] | Ha].
  - rewrite (mean_step_value _ _ _ Ha). destruct (avg_step_dec f2 (times s2)) as [[b Hb] | Hb].
    + rewrite (mean_step_value _ _ _ Hb). cbn [fgt flt]. unfold fgt. cbn [flt]. rewrite qlt_spec. split.
      * intros H. exists a, b. split; [exact Ha |]. split; [exact Hb |].
        assert (b / ns_hour * ns_hour < a / ns_hour * ns_hour) as K
          by (apply Qcmult_lt_compat_r; [reflexivity | exact H]).
        rewrite !Qc_div_mul in K by discriminate. exact K.
      * intros (a' & b' & Ha' & Hb' & L). rewrite (avg_step_unique _ _ _ _ Ha Ha'), (avg_step_unique _ _ _ _ Hb Hb').
        apply Qcmult_lt_compat_r; [reflexivity | exact L].
    + rewrite (mean_step_missing _ _ Hb). split; [discriminate |]. intros (a' & b' & _ & Hb' & _). destruct (Hb _ Hb').
  - rewrite (mean_step_missing _ _ Ha). split.
    + unfold fgt. destruct (mean_step f2 s2); discriminate.
    + intros (a' & b' & Ha' & _). destruct (Ha _ Ha').
Qed.

(** ** Shape of the energies *)

Lemma bin_labels_sorted : forall t0 w last, (0 < w)%Z -> StronglySorted Z.lt (bin_labels t0 w last).
Proof.
  intros t0 w last Hw. unfold bin_labels. generalize (S (Z.to_nat (cdiv (last - t0) w))). intros n.
  generalize 0%nat. induction n as [| n IH]; intros k; cbn [seq map]; constructor; [apply IH |].
  apply Forall_forall. intros x Hx. apply in_map_iff in Hx. destruct Hx as (j & <- & Hj). apply in_seq in Hj. nia.
Qed.

Lemma tl_sorted : forall l, StronglySorted Z.lt l -> StronglySorted Z.lt (tl l).
Proof. intros [| a l] H; [exact H |]. apply StronglySorted_inv in H. apply H. Qed.

Lemma map_fst_mask : forall (f : Z * fl -> fl) s, times (map (fun r => (fst r, f r)) s) = times s.
Proof. intros f s. unfold times. rewrite map_map. reflexivity. Qed.

Lemma resample_sum_times : forall s w, times (resample_sum s w) = [] \/
  exists t0 last, times (resample_sum s w) = bin_labels t0 w last.
Proof.
  intros [| [t0 v] s] w; [left; reflexivity |]. right. eexists. eexists. unfold resample_sum, times. rewrite map_map.
  cbn [fst]. apply map_id.
Qed.

Lemma times_tl : forall s, times (tl s) = tl (times s).
Proof. intros [| r s]; reflexivity. Qed.

Lemma Ok_inj : forall A (a b : A), Ok a = Ok b -> a = b.
Proof. intros A a b H. congruence. Qed.

Lemma aggregate_sorted : forall s w limit pt out, (0 < w)%Z -> aggregate s w limit pt = Ok out -> sorted_index out.
Proof.
  intros s w limit pt out Hw H. unfold aggregate in H. destruct s as [| [t0 v] s]; [discriminate |].
  destruct (available ((t0, v) :: s)) as [| r l]; [discriminate |].
  destruct pt; try discriminate; destruct (map _ (filled _ _ _)) as [| r0 l0]; try discriminate; apply Ok_inj in H; subst out;
    unfold sorted_index; rewrite times_tl;
    match goal with |- context [resample_sum ?s ?w] => destruct (resample_sum_times s w) as [-> | (a & b & ->)] end;
    try constructor; apply tl_sorted, bin_labels_sorted, Hw.
Qed.

Lemma energy_sorted : forall freq power w max pt out, (0 < w)%Z -> 
  energy_from_power freq power (Some w) max pt = Ok out -> sorted_index out.
Proof.
  intros freq power w max pt out Hw H. unfold energy_from_power in H.
  assert (forall r : Z * fl, sorted_index [r]) as S1 by (intros r; repeat constructor).
  destruct power as [| r [| r' l]].
  - destruct pt; try discriminate; injection H as <-; constructor.
  - destruct pt; try discriminate; injection H as <-; apply S1.
  - destruct (median_step _) as [| | med |]; try discriminate. cbv zeta in H.
    destruct (if qle (qz w) med then _ else _) as [p |]; [| discriminate]. cbn [bind] in H.
    destruct (aggregate p w _ pt) as [e |] eqn:EA; [| discriminate]. cbn [bind] in H. injection H as <-.
    unfold sorted_index. rewrite map_fst_mask. exact (aggregate_sorted _ _ _ _ _ Hw EA).
Qed.

(** ** The result *)

Lemma normalize_spec : forall infer pf mf pv model poa kind en ins,
  sorted_index pv -> freq_ok infer pf (times pv) ->
  normalize_with_expected_power infer pf mf pv model poa kind = Ok (en, ins) ->
  exists w e power poa' ee ii,
    (pf = Some w \/ pf = None /\ infer (times pv) = Some w) /\
    (kind = PvPower /\ energy_from_power pf pv (Some w) None RightLabeled = Ok e \/ kind = PvEnergy /\ e = pv) /\
    (let ef := match kind with PvPower => Some w | _ => pf end in
     (slower mf (times model) ef (times e) ->
        interpolate true true model (TIndex (times pv)) None = Ok power /\
        interpolate true true poa (TIndex (times pv)) None = Ok poa') /\
     (~ slower mf (times model) ef (times e) -> power = model /\ poa' = poa)) /\
    energy_from_power None power (Some w) None RightLabeled = Ok ee /\
    energy_from_power None poa' (Some w) None RightLabeled = Ok ii /\
    times en = times ins /\ StronglySorted Z.lt (times en) /\
    (forall t, In t (times en) <-> In t (times e) \/ In t (times ee) \/ In t (times ii)) /\
    (forall t x p q, In (t, x) en -> value_at e t p -> value_at ee t q -> x = fdiv p q) /\
    (forall t x, In (t, x) ins -> value_at ii t x).
Proof.
  intros infer pf mf pv model poa kind en ins HS [HF1 HF2] H. unfold normalize_with_expected_power in H.
  destruct (check_series_frequency infer pf pv) as [w |] eqn:EC; [| discriminate]. cbn [bind] in H.
  assert ((pf = Some w \/ pf = None /\ infer (times pv) = Some w) /\ (0 < w)%Z) as [HW W0].
  { unfold check_series_frequency in EC. destruct pf as [w' |].
    - injection EC as <-. split; [auto |]. apply (HF1 w' eq_refl).
    - destruct (infer (times pv)) as [w' |] eqn:EI; [| discriminate]. injection EC as <-. split; [auto |].
      apply (HF2 w' eq_refl). }
  destruct (match kind with PvPower => _ | PvEnergy => _ | PvOther => _ end) as [[e ef] |] eqn:EE; [| discriminate].
  cbn [bind fst snd] in H.
  assert ((kind = PvPower /\ energy_from_power pf pv (Some w) None RightLabeled = Ok e \/ kind = PvEnergy /\ e = pv) /\
          ef = match kind with PvPower => Some w | _ => pf end /\ sorted_index e) as (HK & Hef & HSe).
  { destruct kind; try discriminate.
    - destruct (energy_from_power pf pv (Some w) None RightLabeled) as [e' |] eqn:E1; [| discriminate].
      cbn [bind] in EE. injection EE as <- <-. split; [auto |]. split; [reflexivity |]. exact (energy_sorted _ _ _ _ _ _ W0 E1).
    - injection EE as <- <-. auto. }
  set (sl := fgt (mean_step mf model) (mean_step ef e)) in *.
  destruct (if sl then interpolate true true model (TIndex (times pv)) None else Ok model) as [power |] eqn:EP;
    [| discriminate]. cbn [bind] in H.
  destruct (if sl then interpolate true true poa (TIndex (times pv)) None else Ok poa) as [poa' |] eqn:EO;
    [| discriminate]. cbn [bind] in H.
  destruct (energy_from_power None power (Some w) None RightLabeled) as [ee |] eqn:E1; [| discriminate]. cbn [bind] in H.
  destruct (energy_from_power None poa' (Some w) None RightLabeled) as [ii |] eqn:E2; [| discriminate]. cbn [bind] in H.
  pose proof (energy_sorted _ _ _ _ _ _ W0 E1) as S1. pose proof (energy_sorted _ _ _ _ _ _ W0 E2) as S2.
  exists w, e, power, poa', ee, ii.
  split; [exact HW |]. split; [exact HK |]. split.
  { cbv zeta. rewrite <- Hef. split; intros HSl.
    - apply slower_iff in HSl. fold sl in HSl. rewrite HSl in EP, EO. auto.
    - assert (sl = false) as Esl.
      { destruct sl eqn:E; [| reflexivity]. exfalso. apply HSl, slower_iff. exact E. }
      rewrite Esl in EP, EO. split; congruence. }
  split; [exact E1 |]. split; [exact E2 |].
  set (nrm := zip_aligned fdiv e ee) in *. set (u := zset (times nrm ++ times ii)) in *.
  injection H as <- <-. rewrite !times_reindex. split; [reflexivity |]. split; [apply zset_sorted |].
  assert (NoDup (times e)) as Ne by (apply sorted_index_NoDup, HSe).
  assert (NoDup (times ee)) as Nee by (apply sorted_index_NoDup, S1).
  assert (NoDup (times ii)) as Nii by (apply sorted_index_NoDup, S2).
  assert (sorted_index nrm) as Sn.
  { unfold sorted_index, nrm, zip_aligned, times. rewrite map_map. cbn [fst]. apply align_sorted; assumption. }
  assert (forall t, In t (times nrm) <-> In t (times e) \/ In t (times ee)) as Tn.
  { intros t. split.
    - intros Ht. apply in_map_iff in Ht. destruct Ht as ([t' x] & <- & Ht). apply zip_values in Ht; auto. apply Ht.
    - intros Ht. apply in_map_iff. exists (t, fdiv (lookup e t) (lookup ee t)). split; [reflexivity |].
      apply zip_values; auto. split; [exact Ht |]. exists (lookup e t), (lookup ee t).
      split; [apply lookup_value_at, Ne |]. split; [apply lookup_value_at, Nee | reflexivity]. }
  split; [| split].
  - intros t. unfold u. rewrite zset_In, in_app_iff, Tn. tauto.
  - intros t x p q Hx Hp Hq. apply in_map_iff in Hx. destruct Hx as (t' & E & Ht). injection E as -> <-.
    destruct (lookup_cases nrm t) as [(v & Hv & ->) | [Hv ->]].
    + apply zip_values in Hv; auto. destruct Hv as (_ & p' & q' & Hp' & Hq' & ->).
      rewrite (value_at_unique e t p p' Ne Hp Hp'), (value_at_unique ee t q q' Nee Hq Hq'). reflexivity.
    + rewrite Tn in Hv. assert (p = NaN) as ->.
      { destruct Hp as [Hp | [Hp _]]; [| exact Hp]. exfalso. apply Hv. left. apply in_map_iff. exists (t, p). auto. }
      reflexivity.
  - intros t x Hx. apply in_map_iff in Hx. destruct Hx as (t' & E & Ht). injection E as -> <-.
    apply lookup_value_at, Nii.
Qed.

Lemma normalize_errors : forall infer pf mf pv model poa kind,
  (pf = None -> infer (times pv) = None ->
     normalize_with_expected_power infer pf mf pv model poa kind = Raise ValueError) /\
  normalize_with_expected_power infer pf mf pv model poa PvOther = Raise ValueError.
Proof.
  intros infer pf mf pv model poa kind. unfold normalize_with_expected_power, check_series_frequency. split.
  - intros -> ->. reflexivity.
  - destruct pf; [reflexivity |]. destruct (infer (times pv)); reflexivity.
Qed.

(** ** A model that explains the data *)

Lemma fdiv_self : forall x, (fdiv x x = Fin 1 \/ fdiv x x = NaN) /\
  (fdiv x x = Fin 1 <-> exists q, x = Fin q /\ q <> 0).
Proof.
  intros [| | q |]; cbn [fdiv].
  - split; [auto |]. split; [discriminate | intros (q & E & _); discriminate].
  - split; [auto |]. split; [discriminate | intros (q & E & _); discriminate].
  - destruct (qeq q 0) eqn:E; qb.
    + subst q. split; [right; reflexivity |]. split; [discriminate |]. intros (q & E & N). congruence.
    + assert (q / q = 1) as -> by (field; exact E). split; [auto |]. split; [eauto | reflexivity].
  - split; [auto |]. split; [discriminate | intros (q & E & _); discriminate].
Qed.

Lemma normalize_one : forall infer pf mf pv model poa kind en ins w e,
  sorted_index pv -> freq_ok infer pf (times pv) ->
  normalize_with_expected_power infer pf mf pv model poa kind = Ok (en, ins) ->
  (pf = Some w \/ pf = None /\ infer (times pv) = Some w) ->
  (kind = PvPower /\ energy_from_power pf pv (Some w) None RightLabeled = Ok e \/ kind = PvEnergy /\ e = pv) ->
  ~ slower mf (times model) (match kind with PvPower => Some w | _ => pf end) (times e) ->
  energy_from_power None model (Some w) None RightLabeled = Ok e ->
  forall t x, In (t, x) en ->
    (x = Fin 1 \/ x = NaN) /\ (x = Fin 1 <-> exists q, In (t, Fin q) e /\ q <> 0).
Proof.
  intros infer pf mf pv model poa kind en ins w e HS HF H HW HK HN HE t x Hx.
  destruct (normalize_spec _ _ _ _ _ _ _ _ _ HS HF H)
    as (w' & e' & power & poa' & ee & ii & HW' & HK' & [_ HSl] & E1 & _ & _ & _ & _ & HV & _).
  assert (w' = w) as ->.
  { destruct HW as [HW | [HW1 HW2]], HW' as [HW' | [HW1' HW2']]; congruence. }
  assert (e' = e) as ->.
  { destruct HK as [[K1 K2] | [K1 K2]], HK' as [[K1' K2'] | [K1' K2']]; congruence. }
  destruct (HSl HN) as [-> _]. assert (ee = e) as -> by congruence.
  assert (0 < w)%Z as W0.
  { destruct HF as [F1 F2]. destruct HW as [HW | [_ HW]]; [apply (F1 w HW) | apply (F2 w HW)]. }
  pose proof (energy_sorted _ _ _ _ _ _ W0 HE) as Se. pose proof (sorted_index_NoDup _ Se) as Ne.
  pose proof (lookup_value_at e t Ne) as HL.
  rewrite (HV t x _ _ Hx HL HL). destruct (fdiv_self (lookup e t)) as [D1 D2]. split; [exact D1 |].
  rewrite D2. split.
  - intros (q & E & Hq). exists q. split; [| exact Hq]. destruct HL as [HL | [HL _]]; [rewrite <- E; exact HL | congruence].
  - intros (q & Hin & Hq). exists q. split; [| exact Hq].
    apply (value_at_unique e t _ _ Ne HL). left. exact Hin.
Qed.

Lemma regular_avg : forall w l a, regular w l -> avg_step None l a -> a = qz w.
Proof.
  intros w l a [t0 HR] [_ (x & y & l' & m & E1 & E2 & Hl & Ha)].
  assert (length l = S (length l')) as HLn by (rewrite E1; reflexivity).
  assert (x = t0) as ->.
  { rewrite HLn in HR. rewrite E1 in HR. cbn [seq map] in HR. injection HR as HR _. lia. }
  assert (y = t0 + w * Z.of_nat (length l'))%Z as ->.
  { rewrite HLn in HR. rewrite seq_S, map_app in HR. cbn [map] in HR. rewrite E2 in HR.
    apply app_inj_tail in HR. destruct HR as [_ HR]. rewrite HR. lia. }
  replace (t0 + w * Z.of_nat (length l') - t0)%Z with (w * Z.of_nat (length l'))%Z in Ha by lia.
  rewrite qz_mul in Ha. assert (qz (Z.of_nat (length l')) <> 0) as N by (apply qz_neq0; destruct l'; [congruence | cbn; lia]).
  apply (f_equal (fun z => z / qz (Z.of_nat (length l')))) in Ha.
  assert (a * qz (Z.of_nat (length l')) / qz (Z.of_nat (length l')) = a) as EA by (field; exact N).
  assert (qz w * qz (Z.of_nat (length l')) / qz (Z.of_nat (length l')) = qz w) as EB by (field; exact N).
  congruence.
Qed.

(** Power compared with itself. *)
Lemma energy_any_freq : forall f1 f2 s w max pt, energy_from_power f1 s (Some w) max pt = energy_from_power f2 s (Some w) max pt.
Proof. intros f1 f2 [| r [| r' l]] w max pt; reflexivity. Qed.

Lemma normalize_self : forall infer pf mf pv poa en ins,
  sorted_index pv -> freq_ok infer pf (times pv) -> mf = pf \/ mf = None ->
  normalize_with_expected_power infer pf mf pv pv poa PvPower = Ok (en, ins) ->
  exists w e, (pf = Some w \/ pf = None /\ infer (times pv) = Some w) /\
    energy_from_power pf pv (Some w) None RightLabeled = Ok e /\
    forall t x, In (t, x) en ->
      (x = Fin 1 \/ x = NaN) /\ (x = Fin 1 <-> exists q, In (t, Fin q) e /\ q <> 0).
Proof.
  intros infer pf mf pv poa en ins HS HF HM H.
  destruct (normalize_spec _ _ _ _ _ _ _ _ _ HS HF H)
    as (w & e & power & poa' & ee & ii & HW & HK & _).
  destruct HK as [[_ HE] | [K _]]; [| discriminate].
  exists w, e. split; [exact HW |]. split; [exact HE |].
  apply (normalize_one infer pf mf pv pv poa PvPower en ins w e HS HF H HW).
  - left. auto.
  - intros (a & b & Ha & Hb & L). destruct Hb as [_ Hb]. cbn in Hb. subst b.
    assert (regular w (times pv)) as HR.
    { destruct HF as [F1 F2]. destruct HW as [HW | [_ HW]]; [apply (F1 w HW) | apply (F2 w HW)]. }
    assert (a = qz w) as ->; [| apply (Qclt_not_eq _ _ L); reflexivity].
    destruct mf as [w' |].
    + destruct Ha as [_ ->]. f_equal. destruct HM as [<- | HM]; [| discriminate]. destruct HW as [HW | [HW _]]; congruence.
    + apply (regular_avg w (times pv) a HR Ha).
  - rewrite <- HE. apply energy_any_freq.
Qed.

(** ** Units *)

Lemma map_values_scale : forall c s, 0 < c -> map_values (fun q => c * q) s = on_values (fscale c) s.
Proof.
  intros c s Hc. rewrite map_values_on. unfold on_values. apply map_ext. intros [t v]. cbn [fst snd]. f_equal.
  destruct v; [symmetry; apply fscale_NaN | symmetry; apply fscale_NInf, Hc | symmetry; apply fscale_Fin | symmetry; apply fscale_PInf, Hc].
Qed.

Lemma map_values_times : forall f s, times (map_values f s) = times s.
Proof. intros f s. rewrite map_values_on. apply on_values_times. Qed.

Lemma interpolate_default_scale : forall c s target, sorted_index s -> noinf (vals s) ->
  interpolate_series (map_values (fun q => c * q) s) target None = map_values (fun q => c * q) (interpolate_series s target None).
Proof.
  intros c s target HS HI.
  assert (sorted_index (map_values (fun q => c * q) s)) as HS' by (unfold sorted_index; rewrite map_values_times; exact HS).
  assert ((length (available s) < 2)%nat \/ (2 <= length (available s))%nat) as [HL | HL] by lia.
  - rewrite !interpolate_no_limit.
    + unfold map_values. rewrite map_map. reflexivity.
    + exact HS.
    + left. apply default_limit_few, HL.
    + exact HS'.
    + left. apply default_limit_few. rewrite fmap_available. unfold map_values. rewrite map_length. exact HL.
  - destruct (default_limit_exists s HL) as [limit HLm].
    assert (forall u, map_values (fun q => c * q) u = map_values (fun q => c * q + 0) u) as K.
    { intros u. unfold map_values. apply map_ext. intros [t v]. cbn [fst snd]. destruct v as [| | q |]; try reflexivity.
      replace (c * q + 0) with (c * q) by ring. reflexivity. }
    rewrite !K. apply (interpolate_affine c 0 s target None limit HS HI).
    + apply limit_for_ok; auto.
    + exact (limit_for_nonneg s limit HS HL HLm).
Qed.

Lemma interpolate_default_ok : forall s target, sorted_index s -> noinf (vals s) -> StronglySorted Z.lt target ->
  sorted_index (interpolate_series s target None) /\ noinf (vals (interpolate_series s target None)).
Proof.
  intros s target HS HI HT. split.
  - unfold sorted_index, interpolate_series, times. rewrite map_map, map_id. exact HT.
  - assert ((length (available s) < 2)%nat \/ (2 <= length (available s))%nat) as [HL | HL] by lia.
    + rewrite interpolate_no_limit; [| exact HS | left; apply default_limit_few, HL].
      intros x Hx. unfold vals in Hx. rewrite map_map in Hx. apply in_map_iff in Hx. destruct Hx as (t & <- & _). split; discriminate.
    + destruct (default_limit_exists s HL) as [limit HLm].
      intros x Hx. apply in_map_iff in Hx. destruct Hx as ([t v] & <- & H).
      destruct (interpolate_spec s target None limit HS HI) as [_ K].
      * apply limit_for_ok; auto.
      * exact (limit_for_nonneg s limit HS HL HLm).
      * specialize (K _ _ H). cbn [snd]. inversion K; split; discriminate.
Qed.

Lemma mean_step_times : forall freq s1 s2, times s1 = times s2 -> mean_step freq s1 = mean_step freq s2.
Proof.
  intros freq s1 s2 E. unfold mean_step. destruct freq as [w |]; [| rewrite E; reflexivity].
  assert (length s1 = length s2) as EL by (rewrite <- (map_length fst s1), <- (map_length fst s2); unfold times in E; rewrite E; reflexivity).
  f_equal. f_equal. clear E. revert s2 EL. induction s1 as [| a s1 IH]; intros [| b s2] EL; try discriminate; [reflexivity |].
  cbn [map]. f_equal. apply IH. injection EL. auto.
Qed.

Lemma zip_div_scale : forall c a b, 0 < c ->
  zip_aligned fdiv (on_values (fscale c) a) (on_values (fscale c) b) = zip_aligned fdiv a b.
Proof.
  intros c a b Hc. unfold zip_aligned. rewrite align_map by reflexivity. rewrite map_map. apply map_ext. intros [t [p q]].
  cbn [fst snd]. rewrite fdiv_fscale by exact Hc. reflexivity.
Qed.

Lemma fdiv_den_scale : forall c x y, 0 < c -> fdiv x (fscale c y) = fdiv (fdiv x y) (Fin c).
Proof.
  intros c x y Hc. assert (c <> 0) as Nc by (apply Qc_pos_neq, Hc).
  assert (qeq c 0 = false) as Ec by (apply qeq_false; exact Nc).
  assert (forall q, qeq q 0 = false -> qeq (c * q) 0 = false) as Hcq.
  { intros q Hq. apply qeq_false. intros K. apply qeq_false in Hq. apply Qcmult_integral in K. tauto. }
  assert (forall q, fdiv (inf_sgn q) (Fin c) = inf_sgn q) as Hi.
  { intros q. unfold inf_sgn. assert (qlt 0 c = true) as L by (apply qlt_spec, Hc).
    destruct (qlt 0 q); [cbn [fdiv]; rewrite Ec; unfold inf_sgn; rewrite L; reflexivity |].
    destruct (qlt q 0); [| reflexivity]. cbn [fdiv]. rewrite Ec. unfold inf_sgn.
    assert (qlt 0 (- c) = false) as -> by (apply qlt_false; qlra).
    assert (qlt (- c) 0 = true) as -> by (apply qlt_spec; qlra). reflexivity. }
  destruct y as [| | q |].
  - rewrite fscale_NaN. destruct x; reflexivity.
  - rewrite (fscale_NInf c Hc). destruct x; cbn [fdiv]; try reflexivity. rewrite Ec. f_equal. field. exact Nc.
  - rewrite fscale_Fin. destruct (qeq q 0) eqn:Eq.
    + apply qeq_spec in Eq. subst q. replace (c * 0) with 0 by ring.
      assert (forall A (u v : A), (if qeq 0 0 then u else v) = u) as E0 by reflexivity.
      destruct x as [| | p |]; cbn [fdiv]; rewrite ?E0; try reflexivity.
      * cbn [fdiv]. rewrite Ec. symmetry. apply inf_sgn_neg_k, Hc.
      * symmetry. apply Hi.
      * cbn [fdiv]. rewrite Ec. symmetry. apply inf_sgn_k, Hc.
    + pose proof (Hcq q Eq) as Ecq. destruct x as [| | p |]; cbn [fdiv]; try reflexivity; rewrite ?Eq, ?Ecq.
      * rewrite Hi. replace (- (c * q)) with (c * (- q)) by ring. apply inf_sgn_scale, Hc.
      * cbn [fdiv]. rewrite Ec. f_equal. apply qeq_false in Eq. field. auto.
      * rewrite Hi. apply inf_sgn_scale, Hc.
  - rewrite (fscale_PInf c Hc). destruct x; cbn [fdiv]; try reflexivity. rewrite Ec. f_equal. field. exact Nc.
Qed.

Lemma zip_div_units : forall a b s u, 0 < a -> 0 < b ->
  zip_aligned fdiv (map_values (fun q => a * q) s) (map_values (fun q => b * q) u) =
  map_values (fun q => a / b * q) (zip_aligned fdiv s u).
Proof.
  intros a b s u Ha Hb. assert (b <> 0) as Nb by (apply Qc_pos_neq, Hb).
  assert (0 < a / b) as Hab by (apply Qc_lt_div; [exact Hb | qlra]).
  rewrite !map_values_scale by assumption. unfold zip_aligned. rewrite align_map by reflexivity.
  unfold on_values. rewrite !map_map. apply map_ext. intros [t [p q]]. cbn [fst snd]. f_equal.
  replace (fscale a p) with (fscale b (fscale (a / b) p)).
  - rewrite fdiv_fscale by exact Hb. unfold fscale. destruct q as [| | q |].
    + destruct p; cbn [fmul fdiv]; try reflexivity; unfold inf_sgn; destruct (qlt _ _); reflexivity || (destruct (qlt _ _); reflexivity).
    + fold (fscale (a / b) p). destruct p; rewrite ?fscale_NaN, ?fscale_NInf, ?fscale_PInf, ?fscale_Fin by exact Hab; cbn [fdiv fmul]; try reflexivity.
      f_equal. ring.
    + fold (fscale (a / b) p). fold (fscale (a / b) (fdiv p (Fin q))). destruct (qeq q 0) eqn:Eq.
      * apply qeq_spec in Eq. subst q.
        assert (forall A (u v : A), (if qeq 0 0 then u else v) = u) as E0 by reflexivity.
        destruct p; rewrite ?fscale_NaN, ?fscale_NInf, ?fscale_PInf, ?fscale_Fin by exact Hab; cbn [fdiv]; rewrite ?E0;
          rewrite ?fscale_NaN, ?fscale_NInf, ?fscale_PInf, ?fscale_Fin by exact Hab; try reflexivity.
        rewrite (fscale_inf_sgn _ Hab). apply inf_sgn_scale, Hab.
      * apply qeq_false in Eq. apply fdiv_fscale_l; assumption.
    + fold (fscale (a / b) p). destruct p; rewrite ?fscale_NaN, ?fscale_NInf, ?fscale_PInf, ?fscale_Fin by exact Hab; cbn [fdiv fmul]; try reflexivity.
      f_equal. ring.
  - destruct p; rewrite ?fscale_NaN, ?fscale_NInf, ?fscale_PInf, ?fscale_Fin by assumption;
      rewrite ?fscale_NaN, ?fscale_NInf, ?fscale_PInf, ?fscale_Fin by assumption; try reflexivity.
    f_equal. field. exact Nb.
Qed.

Lemma lookup_map_values : forall f s t, lookup (map_values f s) t = match lookup s t with Fin q => Fin (f q) | e => e end.
Proof.
  intros f s t. unfold lookup, map_values. induction s as [| [t' v] s IH]; [reflexivity |].
  cbn [map find fst snd]. destruct (t' =? t)%Z; [reflexivity | exact IH].
Qed.

Lemma reindex_map_values : forall f s l, reindex (map_values f s) l = map_values f (reindex s l).
Proof.
  intros f s l. unfold reindex, map_values at 2. rewrite map_map. apply map_ext. intros t. cbn [fst snd].
  rewrite lookup_map_values. reflexivity.
Qed.

Lemma fscale_mult : forall a b x, 0 < a -> 0 < b -> fscale a (fscale b x) = fscale (a * b) x.
Proof.
  intros a b x Ha Hb. assert (0 < a * b) as Hab by (apply Qc_mul_pos; assumption).
  destruct x; rewrite ?fscale_NaN, ?fscale_NInf, ?fscale_PInf, ?fscale_Fin by assumption; rewrite ?fscale_NaN, ?fscale_NInf, ?fscale_PInf, ?fscale_Fin by assumption; try reflexivity.
  f_equal. ring.
Qed.

Lemma normalize_units : forall a b infer pf mf pv model poa kind, 0 < a -> 0 < b ->
  normalize_with_expected_power infer pf mf (map_values (fun q => a * q) pv) (map_values (fun q => b * q) model) poa kind =
  match normalize_with_expected_power infer pf mf pv model poa kind with
  | Ok (en, ins) => Ok (map_values (fun q => a / b * q) en, ins)
  | Raise x => Raise x
  end.
Proof.
  intros a b infer pf mf pv model poa kind Ha Hb. assert (0 < a / b) as Hab by (apply Qc_lt_div; [exact Hb | qlra]). rewrite !map_values_scale by assumption.
  assert (on_values (fscale a) pv = on_values (fscale b) (on_values (fscale (a / b)) pv)) as ->.
  { unfold on_values. rewrite map_map. apply map_ext. intros r. cbn [fst snd]. rewrite fscale_mult by assumption. do 2 f_equal. field. apply Qc_pos_neq, Hb. }
  rewrite normalize_both, normalize_measured by assumption.
  destruct (normalize_with_expected_power infer pf mf pv model poa kind) as [[en ins] |]; [| reflexivity]. cbn [rmap fst snd]. rewrite map_values_scale by exact Hab. reflexivity.
Qed.

Lemma pvwatts_rating : forall c infer ef pf energy poa rated temp ref tref gamma, 0 < c ->
  normalize_with_pvwatts infer ef pf energy poa (Fin (c * rated)) temp ref tref gamma =
  match normalize_with_pvwatts infer ef pf energy poa (Fin rated) temp ref tref gamma with
  | Ok (en, ins) => Ok (map_values (fun q => 1 / c * q) en, ins)
  | Raise x => Raise x
  end.
Proof.
  intros c infer ef pf energy poa rated temp ref tref gamma Hc. unfold normalize_with_pvwatts.
  rewrite <- (fscale_Fin c rated), pvwatts_u by exact Hc. set (model := pvwatts_dc_power poa (Fin rated) temp ref tref gamma).
  assert (map_values (fun q => 1 * q) energy = energy) as E1.
  { unfold map_values. rewrite <- (map_id energy) at 2. apply map_ext. intros [t v]. cbn [fst snd]. destruct v; try reflexivity.
    rewrite Qcmult_1_l. reflexivity. }
  rewrite <- map_values_scale by exact Hc. rewrite <- E1 at 1. apply (normalize_units 1 c); [reflexivity | exact Hc].
Qed.

Lemma pvwatts_ratio : forall infer ef pf energy poa rated T ref tref gamma en ins,
  sorted_index energy -> sorted_index poa -> sorted_index T -> noinf (vals poa) -> noinf (vals T) -> ref <> 0 ->
  freq_ok infer ef (times energy) ->
  normalize_with_pvwatts infer ef pf energy poa (Fin rated) (Some T) (Fin ref) (Fin tref) (Some (Fin gamma)) = Ok (en, ins) ->
  exists w model power poa' ee ii,
    (ef = Some w \/ ef = None /\ infer (times energy) = Some w) /\
    sorted_index model /\
    (forall t x, In (t, x) model <-> (In t (times poa) \/ In t (times T)) /\
       exists g c, value_at poa t g /\ value_at T t c /\ x = pvwatts_value rated ref tref gamma g c) /\
    (slower pf (times model) ef (times energy) ->
       interpolate true true model (TIndex (times energy)) None = Ok power /\
       interpolate true true poa (TIndex (times energy)) None = Ok poa') /\
    (~ slower pf (times model) ef (times energy) -> power = model /\ poa' = poa) /\
    energy_from_power None power (Some w) None RightLabeled = Ok ee /\
    energy_from_power None poa' (Some w) None RightLabeled = Ok ii /\
    (forall t, In t (times en) <-> In t (times energy) \/ In t (times ee) \/ In t (times ii)) /\
    times en = times ins /\
    (forall t x p q, In (t, x) en -> value_at energy t p -> value_at ee t q -> x = fdiv p q) /\
    (forall t x, In (t, x) ins -> value_at ii t x).
Proof.
  intros infer ef pf energy poa rated T ref tref gamma en ins Se Sp ST Np NT Hr HF H. unfold normalize_with_pvwatts in H.
  set (model := pvwatts_dc_power poa (Fin rated) (Some T) (Fin ref) (Fin tref) (Some (Fin gamma))) in *.
  destruct (normalize_spec _ _ _ _ _ _ _ _ _ Se HF H)
    as (w & e & power & poa' & ee & ii & HW & HK & [HS1 HS2] & E1 & E2 & HT & _ & HI & HV & HN).
  destruct HK as [[K _] | [_ ->]]; [discriminate |].
  exists w, model, power, poa', ee, ii. split; [exact HW |]. split.
  { unfold model, sorted_index, pvwatts_dc_power. unfold zip_aligned, times. rewrite map_map. cbn [fst].
    apply align_sorted; unfold sorted_index; rewrite on_values_times; assumption. }
  split; [intros t x; apply pvwatts_with_temperature; auto using sorted_index_NoDup |].
  repeat (split; [assumption |]). exact HN.
Qed.
