(** Lemmas about the year-on-year model. *)

From Coq Require Import QArith Qcanon List ZArith Bool Permutation Sorted Lia Arith.
From Verif.Base Require Import QcExtra ISort Quantile Fl Calendar.
From Verif.Spec Require Import Time YoY.
From Verif.Model Require Import Utilities Bootstrap YearOnYear.
Import ListNotations.
Open Scope Z_scope.

(** ** One year later *)

Lemma add_years_one_spec : forall t, one_year_later t (add_years 1 t).
Proof.
  intros t. destruct (ts_split t) as [E R].
  unfold add_years, ts_date.
  destruct (civil_of_day_spec (ts_day t)) as [V D].
  destruct (civil_of_day (ts_day t)) as [y m d] eqn:C.
  exists y, m, d, (t mod ns_day). split; [exact V |]. split; [exact R |].
  split; [rewrite D; exact E |].
  cbn [add_years_date]. f_equal. f_equal. f_equal. f_equal.
  destruct V as [Vm Vd]. cbn [d_year d_month d_day] in *.
  unfold days_in_month in *.
  destruct (m =? 2) eqn:M2; cbn [andb].
  - destruct (d =? 29) eqn:D29; cbn [andb].
    + destruct (leap y) eqn:L; [| lia]. rewrite (leap_succ y L). lia.
    + destruct (leap y), (leap (y + 1)); lia.
  - destruct ((m =? 4) || (m =? 6) || (m =? 9) || (m =? 11)); lia.
Qed.

Opaque add_years.

Lemma one_year_later_eq : forall t t', one_year_later t t' -> t' = add_years 1 t.
Proof.
  intros t t' (y & m & d & tod & V & R & Et & Et').
  destruct (add_years_one_spec t) as (y2 & m2 & d2 & tod2 & V2 & R2 & E2 & E2').
  rewrite E2', Et'.
  assert (day_of_civil (mkdate y m d) = day_of_civil (mkdate y2 m2 d2) /\ tod = tod2) as [Ed ->].
  { pose proof ns_day_pos as P. rewrite E2 in Et.
    set (a := day_of_civil (mkdate y m d)) in *. set (b := day_of_civil (mkdate y2 m2 d2)) in *.
    clearbody a b. apply (Z.div_mod_unique ns_day); [left; exact R | left; exact R2 |]. lia. }
  assert (mkdate y m d = mkdate y2 m2 d2) as E.
  { rewrite <- (civil_of_day_inv _ V), <- (civil_of_day_inv _ V2), Ed. reflexivity. }
  injection E as -> -> ->. reflexivity.
Qed.

Lemma one_year_later_iff : forall t t', one_year_later t t' <-> t' = add_years 1 t.
Proof.
  intros t t'. split; [apply one_year_later_eq |]. intros ->. apply add_years_one_spec.
Qed.

(** ** The as-of merge *)

Definition key (r : Z * fl) : Z := add_years 1 (fst r).

Lemma last_such_Some : forall A (f : A -> bool) l x, last_such f l = Some x <->
  exists l1 l2, l = l1 ++ x :: l2 /\ f x = true /\ forall y, In y l2 -> f y = false.
Proof.
  intros A f l x. unfold last_such. split.
  - revert x. induction l as [| a l IH]; intros x H; cbn in H; [discriminate |].
    destruct (f a) eqn:E.
    + cbn [rev] in H. destruct (rev (filter f l)) as [| b r] eqn:ER; cbn in H.
      * injection H as <-. exists [], l. repeat split; auto.
        intros y Hy. destruct (f y) eqn:Ey; [| reflexivity]. exfalso.
        assert (In y (rev (filter f l))) as Hin by (rewrite <- in_rev; apply filter_In; auto).
        rewrite ER in Hin. exact Hin.
      * injection H as <-. destruct (IH b eq_refl) as (l1 & l2 & -> & H1 & H2).
        exists (a :: l1), l2. auto.
    + destruct (IH x H) as (l1 & l2 & -> & H1 & H2). exists (a :: l1), l2. auto.
  - intros (l1 & l2 & -> & H1 & H2).
    rewrite filter_app. cbn [filter]. rewrite H1.
    assert (filter f l2 = []) as ->.
    { destruct (filter f l2) as [| b r] eqn:E; [reflexivity | exfalso].
      assert (In b (filter f l2)) as Hb by (rewrite E; left; reflexivity).
      apply filter_In in Hb. destruct Hb as [Hb1 Hb2]. rewrite (H2 b Hb1) in Hb2. discriminate. }
    rewrite rev_app_distr. reflexivity.
Qed.

Lemma last_such_None : forall A (f : A -> bool) l,
  last_such f l = None <-> forall y, In y l -> f y = false.
Proof.
  intros A f l. unfold last_such. split.
  - intros H y Hy. destruct (f y) eqn:E; [| reflexivity]. exfalso.
    assert (In y (rev (filter f l))) as Hin by (rewrite <- in_rev; apply filter_In; auto).
    destruct (rev (filter f l)); [exact Hin | discriminate].
  - intros H. assert (filter f l = []) as ->; [| reflexivity].
    destruct (filter f l) as [| b r] eqn:E; [reflexivity | exfalso].
    assert (In b (filter f l)) as Hb by (rewrite E; left; reflexivity).
    apply filter_In in Hb. destruct Hb as [Hb1 Hb2]. rewrite (H b Hb1) in Hb2. discriminate.
Qed.

Definition key_sorted (l : series) : Prop := StronglySorted (fun a b => key a <= key b) l.

Lemma contract_sorted : forall sortv l, sorts_by_shifted sortv ->
  Permutation l (sortv l) /\ key_sorted (sortv l).
Proof.
  intros sortv l H. destruct (H l) as [HP HS]. split; [exact HP |].
  apply Sorted_StronglySorted; [intros a b c; lia |].
  clear HP. induction HS as [| a l' HS IH HH]; constructor; [exact IH |].
  destruct HH as [| b l' HH]; constructor.
  apply HH; apply add_years_one_spec.
Qed.

Lemma asof_Some : forall right dt r, key_sorted right -> asof_match right dt = Some r ->
  In r right /\ key r <= dt /\ dt <= key r + eight_days /\
  forall r2, In r2 right -> key r2 <= dt -> key r2 <= key r.
Proof.
  intros right dt r HS H. unfold asof_match in H.
  destruct (last_such _ right) as [x |] eqn:E; [| discriminate].
  apply last_such_Some in E. destruct E as (l1 & l2 & El & Hx & Hl2).
  destruct (dt - add_years 1 (fst x) <=? tolerance) eqn:T; [| discriminate].
  injection H as ->. rewrite El in *. unfold key in *.
  unfold tolerance, eight_days, ns_day in *.
  split; [apply in_or_app; right; left; reflexivity |].
  split; [lia |]. split; [lia |].
  intros r2 Hr2 Hk. apply in_app_or in Hr2. destruct Hr2 as [Hr2 | [-> | Hr2]].
  - clear - HS Hr2. induction l1 as [| a l1 IH]; [destruct Hr2 |].
    cbn in HS. apply StronglySorted_inv in HS. destruct HS as [HS Ha].
    destruct Hr2 as [-> | Hr2]; [| apply IH; assumption].
    rewrite Forall_forall in Ha. apply Ha. apply in_or_app. right. left. reflexivity.
  - lia.
  - specialize (Hl2 r2 Hr2). cbv beta in Hl2. unfold key in *. lia.
Qed.

Lemma asof_None : forall right dt, key_sorted right -> asof_match right dt = None ->
  forall r, In r right -> ~ (key r <= dt /\ dt <= key r + eight_days).
Proof.
  intros right dt HS H r Hr [H1 H2]. unfold asof_match in H.
  destruct (last_such _ right) as [x |] eqn:E.
  - destruct (dt - add_years 1 (fst x) <=? tolerance) eqn:T; [discriminate |].
    apply last_such_Some in E. destruct E as (l1 & l2 & El & Hx & Hl2).
    unfold key in *. unfold tolerance, eight_days, ns_day in *.
    assert (add_years 1 (fst r) <= add_years 1 (fst x)); [| lia].
    rewrite El in *. apply in_app_or in Hr. destruct Hr as [Hr | [-> | Hr]]; [| lia |].
    + clear - HS Hr. induction l1 as [| a l1 IH]; [destruct Hr |].
      cbn in HS. apply StronglySorted_inv in HS. destruct HS as [HS Ha].
      destruct Hr as [-> | Hr]; [| apply IH; assumption].
      rewrite Forall_forall in Ha. apply Ha. apply in_or_app. right. left. reflexivity.
    + specialize (Hl2 r Hr). cbv beta in Hl2. unfold key in *. lia.
  - rewrite last_such_None in E. specialize (E r Hr). cbv beta in E. unfold key in *. lia.
Qed.

(** ** Sorting the input *)

Lemma row_le_total : forall a b, row_le a b = true \/ row_le b a = true.
Proof. intros a b. unfold row_le. lia. Qed.
Lemma row_le_trans : forall a b c, row_le a b = true -> row_le b c = true -> row_le a c = true.
Proof. intros a b c. unfold row_le. lia. Qed.

Lemma nodup_fst_inj : forall (s : series) a b, NoDup (times s) -> In a s -> In b s ->
  fst a = fst b -> a = b.
Proof.
  intros s a b HN Ha Hb E. unfold times in HN. induction s as [| x s IH]; [destruct Ha |].
  cbn in HN. inversion HN as [| ? ? Hx HN' ]; subst.
  destruct Ha as [-> | Ha], Hb as [-> | Hb]; auto.
  - exfalso. apply Hx. rewrite E. apply in_map. exact Hb.
  - exfalso. apply Hx. rewrite <- E. apply in_map. exact Ha.
Qed.

Lemma sort_index_perm_eq : forall s1 s2, NoDup (times s1) -> Permutation s1 s2 ->
  sort_index s1 = sort_index s2.
Proof.
  intros s1 s2 HN HP. apply isort_unique; [exact row_le_total | exact row_le_trans | | exact HP].
  intros a b Ha Hb H1 H2. apply (nodup_fst_inj s1); auto. unfold row_le in *. lia.
Qed.

Lemma sort_index_In : forall s r, In r (sort_index s) <-> In r s.
Proof. intros s r. apply isort_In. Qed.

Lemma sort_index_sorted : forall s, StronglySorted (fun a b => fst a <= fst b) (sort_index s).
Proof.
  intros s. pose proof (isort_sorted row_le row_le_total row_le_trans s) as H.
  unfold sort_index. induction H as [| x l Hl IH Hx]; constructor; auto.
  eapply Forall_impl; [| exact Hx]. intros a Ha. red in Ha. unfold row_le in Ha. lia.
Qed.

Lemma sort_index_nodup : forall s, NoDup (times s) -> NoDup (times (sort_index s)).
Proof.
  intros s H. unfold times. eapply Permutation_NoDup; [| exact H].
  apply Permutation_map. apply isort_perm.
Qed.

(** ** The core of the function *)

Definition earliest (s : series) : Z := match sort_index s with [] => 0 | r :: _ => fst r end.
Definition latest (s : series) : Z :=
  match sort_index s with [] => 0 | r :: _ => fst (List.last (sort_index s) (fst r, NaN)) end.

Definition renorm_of (recenter : bool) (input : series) : fl :=
  renorm_factor recenter (sort_index input) (earliest input).

Definition rows_of (recenter : bool) (input : series) : series :=
  map (fun r => (fst r, fdiv (snd r) (renorm_of recenter input))) (sort_index input).

Lemma core_eq : forall infer sortv rc m input,
  yoy_core infer sortv rc m input =
  match input with
  | [] => Raise IndexError
  | _ =>
    if too_short infer (times (sort_index input)) (earliest input) (latest input)
    then Raise ValueError else
    bind (circular_guard infer m (sort_index input)) (fun _ =>
    match yoy_result (merged sortv (rows_of rc input)) with
    | [] => Raise ValueError
    | _ => Ok (mk_yoy_out (fmedian (vals (yoy_result (merged sortv (rows_of rc input)))))
                (yoy_result (merged sortv (rows_of rc input))) (renorm_of rc input)
                (usage_of_points (merged sortv (rows_of rc input))) None None,
               rows_of rc input)
    end)
  end.
Proof.
  intros infer sortv rc m input. unfold yoy_core, rows_of, renorm_of, earliest, latest.
  destruct input as [| r0 input]; [reflexivity |].
  destruct (sort_index (r0 :: input)) as [| [t e] s] eqn:E.
  - exfalso. unfold sort_index in E. apply isort_nil_iff in E. discriminate.
  - reflexivity.
Qed.

(** The parts of the output that the uncertainty method does not touch. *)
Definition same_main (o o' : yoy_out) : Prop :=
  yo_rate o = yo_rate o' /\ yo_values o = yo_values o' /\ yo_renorm o = yo_renorm o' /\
  yo_usage o = yo_usage o'.

Lemma full_core : forall infer sortv choice starts rc ep cl m input o,
  degradation_year_on_year infer sortv choice starts rc ep cl m input = Ok o ->
  exists o' rows, yoy_core infer sortv rc m input = Ok (o', rows) /\ same_main o o'.
Proof.
  intros infer sortv choice starts rc ep cl m input o H.
  unfold degradation_year_on_year in H.
  destruct (yoy_core infer sortv rc m input) as [[o' rows] |]; [| discriminate].
  exists o', rows. split; [reflexivity |]. cbn [bind fst snd] in H.
  destruct m as [| L |].
  - destruct (percentile_ci _ _) as [ci |]; [| discriminate]. cbn [bind] in H.
    destruct (exceedance _ _) as [ex |]; [| discriminate]. cbn [bind] in H.
    injection H as <-. repeat split.
  - destruct (make_samples _ _ _ _ _) as [ss |]; [| discriminate]. cbn [bind] in H.
    destruct (construct_ci _ _ _ _) as [[[ci ex] ms] |]; [| discriminate]. cbn [bind] in H.
    injection H as <-. repeat split.
  - injection H as <-. repeat split.
Qed.

Lemma core_Ok : forall infer sortv rc m input o rows,
  yoy_core infer sortv rc m input = Ok (o, rows) ->
  input <> [] /\
  too_short infer (times (sort_index input)) (earliest input) (latest input) = false /\
  circular_guard infer m (sort_index input) = Ok tt /\
  rows = rows_of rc input /\
  yo_renorm o = renorm_of rc input /\
  yo_values o = yoy_result (merged sortv rows) /\ yo_values o <> [] /\
  yo_rate o = fmedian (vals (yo_values o)) /\
  yo_usage o = usage_of_points (merged sortv rows).
Proof.
  intros infer sortv rc m input o rows H. rewrite core_eq in H.
  destruct input as [| r0 input]; [discriminate |].
  split; [discriminate |].
  destruct (too_short _ _ _ _) eqn:TS; [discriminate |]. split; [reflexivity |].
  destruct (circular_guard _ _ _) as [[] |] eqn:CG; [| discriminate]. cbn [bind] in H.
  split; [reflexivity |].
  destruct (yoy_result (merged sortv (rows_of rc (r0 :: input)))) as [| p l] eqn:EV; [discriminate |].
  injection H as <- <-. cbn [yo_renorm yo_values yo_rate yo_usage].
  rewrite EV. repeat split. discriminate.
Qed.

(** ** Pairs *)

Section Pairs.
  Variables (sortv : series -> series) (rc : bool) (input : series).
  Hypothesis HS : sorts_by_shifted sortv.
  Let rows := rows_of rc input.
  Let rho := renorm_of rc input.
  Let right := sortv rows.

  Lemma right_In : forall x, In x right <-> In x rows.
  Proof.
    intros x. unfold right. destruct (contract_sorted sortv rows HS) as [P _].
    split; apply Permutation_in; [symmetry |]; exact P.
  Qed.

  Lemma rows_In : forall t v, In (t, v) rows <-> exists e, In (t, e) input /\ v = fdiv e rho.
  Proof.
    intros t v. unfold rows, rows_of. rewrite in_map_iff. split.
    - intros ([t' e] & E & H). cbn in E. injection E as <- <-. exists e.
      split; [apply sort_index_In, H | reflexivity].
    - intros (e & H & ->). exists (t, e). split; [reflexivity | apply sort_index_In, H].
  Qed.

  Lemma match_partner : forall dt t v, asof_match right dt = Some (t, v) ->
    exists e, is_partner input dt (t, e) /\ v = fdiv e rho.
  Proof.
    intros dt t v H. destruct (contract_sorted sortv rows HS) as [_ S].
    apply asof_Some in H; [| exact S]. destruct H as (Hin & H1 & H2 & H3).
    apply right_In, rows_In in Hin. destruct Hin as (e & Hin & ->).
    exists e. split; [| reflexivity]. split; [exact Hin |].
    exists (add_years 1 t). cbn [fst]. split; [apply add_years_one_spec |].
    split; [exact H1 |]. split; [exact H2 |].
    intros [t2 e2] t2' Hin2 Hy Hle. apply one_year_later_eq in Hy. cbn [fst] in Hy. subst t2'.
    apply (H3 (t2, fdiv e2 rho)); [| exact Hle].
    apply right_In, rows_In. exists e2. auto.
  Qed.

  Lemma reach_match : forall dt t e, In (t, e) input -> in_reach t dt ->
    asof_match right dt <> None.
  Proof.
    intros dt t e Hin (t' & Hy & H1 & H2) HN. apply one_year_later_eq in Hy. subst t'.
    destruct (contract_sorted sortv rows HS) as [_ S].
    eapply (asof_None right dt S HN (t, fdiv e rho)).
    - apply right_In, rows_In. exists e. auto.
    - split; assumption.
  Qed.

  Lemma values_In : forall dt v, In (dt, v) (yoy_result (merged sortv rows)) <->
    v <> NaN /\ exists e, In (dt, e) input /\
      v = yoy_value dt (fdiv e rho) (asof_match right dt).
  Proof.
    intros dt v. unfold yoy_result. rewrite filter_In. unfold notnan. cbn [snd].
    rewrite negb_true_iff, isnan_false. unfold merged. rewrite map_map.
    fold right. cbn [yr_dt yr_yoy]. rewrite in_map_iff. split.
    - intros [([t w] & E & Hin) Hn]. cbn [fst snd] in E. injection E as <- <-.
      split; [exact Hn |]. apply rows_In in Hin. destruct Hin as (e & Hin & ->). eauto.
    - intros [Hn (e & Hin & ->)]. split; [| exact Hn].
      exists (dt, fdiv e rho). split; [reflexivity |]. apply rows_In. eauto.
  Qed.

  Lemma yoy_value_pair : forall dt e t er,
    yoy_value dt (fdiv e rho) (Some (t, fdiv er rho)) = pair_value rho dt e (t, er).
  Proof. reflexivity. Qed.

  Lemma values_pairs : forall dt v, In (dt, v) (yoy_result (merged sortv rows)) ->
    v <> NaN /\ exists e r, In (dt, e) input /\ is_partner input dt r /\
      v = pair_value rho dt e r /\ asof_match right dt = Some (fst r, fdiv (snd r) rho).
  Proof.
    intros dt v H. apply values_In in H. destruct H as [Hn (e & Hin & Hv)].
    split; [exact Hn |].
    destruct (asof_match right dt) as [[t w] |] eqn:M; [| cbn in Hv; congruence].
    destruct (match_partner dt t w M) as (er & Hp & ->).
    exists e, (t, er). rewrite <- yoy_value_pair. auto.
  Qed.

  Lemma pairs_values : forall dt e, In (dt, e) input ->
    (exists t er, In (t, er) input /\ in_reach t dt) ->
    (forall r, is_partner input dt r -> pair_value rho dt e r <> NaN) ->
    exists r, is_partner input dt r /\ asof_match right dt = Some (fst r, fdiv (snd r) rho) /\
      In (dt, pair_value rho dt e r) (yoy_result (merged sortv rows)).
  Proof.
    intros dt e Hin (t & er & Hin' & Hr) Hnn.
    pose proof (reach_match dt t er Hin' Hr) as HM.
    destruct (asof_match right dt) as [[t1 w1] |] eqn:M; [| congruence].
    destruct (match_partner dt t1 w1 M) as (e1 & Hp & ->).
    exists (t1, e1). split; [exact Hp |]. split; [reflexivity |].
    apply values_In. split; [apply Hnn, Hp |]. exists e. split; [exact Hin |].
    rewrite M. symmetry. apply yoy_value_pair.
  Qed.
End Pairs.

Lemma partner_elapsed : forall input dt r, is_partner input dt r ->
  days 365 <= dt - fst r <= days 374.
Proof.
  intros input dt [t e] (_ & t' & Hy & H1 & H2 & _). cbn [fst] in *.
  apply one_year_later_eq in Hy. subst t'. pose proof (add_one_year_bounds t).
  unfold days, eight_days, ns_day in *. lia.
Qed.

Lemma yoy_result_times : forall df, times (yoy_result df) =
  map yr_dt (filter (fun r => notnan (yr_yoy r)) df).
Proof.
  intros df. unfold yoy_result, times. induction df as [| r df IH]; [reflexivity |].
  cbn. destruct (notnan (yr_yoy r)); cbn; rewrite IH; reflexivity.
Qed.

Lemma values_sorted : forall sortv rc input, NoDup (times input) ->
  StronglySorted Z.lt (times (yoy_result (merged sortv (rows_of rc input)))).
Proof.
  intros sortv rc input HN. rewrite yoy_result_times.
  assert (StronglySorted (fun a b => yr_dt a < yr_dt b) (merged sortv (rows_of rc input))) as H.
  { unfold merged, rows_of. rewrite map_map. cbn [fst snd].
    pose proof (sort_index_sorted input) as S. pose proof (sort_index_nodup input HN) as N.
    generalize (sortv (map (fun r => (fst r, fdiv (snd r) (renorm_of rc input))) (sort_index input))).
    intros right. induction S as [| a l Hl IH Ha]; [constructor |].
    unfold times in N. cbn in N. inversion N as [| ? ? Hna N' ]; subst. cbn [map].
    constructor; [apply IH; exact N' |].
    apply Forall_forall. intros y Hy. apply in_map_iff in Hy. destruct Hy as (b & <- & Hb).
    cbn [yr_dt]. rewrite Forall_forall in Ha. specialize (Ha b Hb).
    assert (fst a <> fst b); [| lia]. intro E. apply Hna. rewrite E. apply in_map. exact Hb. }
  apply (StronglySorted_filter _ _ (fun r => notnan (yr_yoy r))) in H.
  induction H as [| a l Hl IH Ha]; cbn; constructor; auto.
  apply Forall_forall. intros y Hy. apply in_map_iff in Hy. destruct Hy as (b & <- & Hb).
  rewrite Forall_forall in Ha. apply Ha, Hb.
Qed.

(** ** C02 *)

Lemma yoy_values_sound : forall infer sortv choice starts rc ep cl m input o,
  sorts_by_shifted sortv ->
  degradation_year_on_year infer sortv choice starts rc ep cl m input = Ok o ->
  forall dt v, In (dt, v) (yo_values o) ->
    v <> NaN /\
    exists e r, In (dt, e) input /\ is_partner input dt r /\
      v = pair_value (yo_renorm o) dt e r /\ days 365 <= dt - fst r <= days 374.
Proof.
  intros infer sortv choice starts rc ep cl m input o HS H dt v Hv.
  destruct (full_core _ _ _ _ _ _ _ _ _ _ H) as (o' & rows & HC & _ & E2 & E3 & _).
  destruct (core_Ok _ _ _ _ _ _ _ HC) as (_ & _ & _ & -> & ER & EV & _).
  rewrite E2, EV in Hv. apply values_pairs in Hv; [| exact HS].
  destruct Hv as [Hn (e & r & H1 & H2 & H3 & _)]. split; [exact Hn |].
  exists e, r. rewrite E3, ER. split; [exact H1 |]. split; [exact H2 |].
  split; [exact H3 |]. apply (partner_elapsed input dt r H2).
Qed.

Lemma yoy_values_complete : forall infer sortv choice starts rc ep cl m input o,
  sorts_by_shifted sortv ->
  degradation_year_on_year infer sortv choice starts rc ep cl m input = Ok o ->
  forall dt e, In (dt, e) input ->
    (exists t er, In (t, er) input /\ in_reach t dt) ->
    (forall r, is_partner input dt r -> pair_value (yo_renorm o) dt e r <> NaN) ->
    exists r, is_partner input dt r /\ In (dt, pair_value (yo_renorm o) dt e r) (yo_values o).
Proof.
  intros infer sortv choice starts rc ep cl m input o HS H dt e Hin Hr Hnn.
  destruct (full_core _ _ _ _ _ _ _ _ _ _ H) as (o' & rows & HC & _ & E2 & E3 & _).
  destruct (core_Ok _ _ _ _ _ _ _ HC) as (_ & _ & _ & -> & ER & EV & _).
  rewrite E3, ER in *. rewrite E2, EV.
  destruct (pairs_values sortv rc input HS dt e Hin Hr Hnn) as (r & H1 & _ & H2).
  exists r. auto.
Qed.

Lemma yoy_values_once : forall infer sortv choice starts rc ep cl m input o,
  NoDup (times input) ->
  degradation_year_on_year infer sortv choice starts rc ep cl m input = Ok o ->
  StronglySorted Z.lt (times (yo_values o)).
Proof.
  intros infer sortv choice starts rc ep cl m input o HN H.
  destruct (full_core _ _ _ _ _ _ _ _ _ _ H) as (o' & rows & HC & _ & E2 & _).
  destruct (core_Ok _ _ _ _ _ _ _ HC) as (_ & _ & _ & -> & _ & EV & _).
  rewrite E2, EV. apply values_sorted. exact HN.
Qed.
