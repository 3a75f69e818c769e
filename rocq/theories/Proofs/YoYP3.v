(** Year-on-year pairs without a restriction on the timestamps: leap days. *)

From Coq Require Import QArith Qcanon List ZArith Bool Permutation Sorted Lia.
From Verif.Base Require Import QcExtra ISort Quantile Fl Calendar.
From Verif.Spec Require Import Stats Time YoY.
From Verif.Model Require Import Utilities Bootstrap YearOnYear.
From Verif.Proofs Require Import StatsP FlP YoYP YoYP2.
Import ListNotations.
Open Scope Z_scope.

(** The row of the input that a point is matched with. *)
Definition pick_of (sortv : series -> series) (rc : bool) (input : series) (dt : Z) : option (Z * fl) :=
  match asof_match (sortv (rows_of rc input)) dt with Some p => find (fun r => fst r =? fst p) input | None => None end.

Lemma last_same : forall (f : Z -> Z) (l : series) dt dt' r r',
  last_such (fun x => f (fst x) <=? dt) l = Some r -> last_such (fun x => f (fst x) <=? dt') l = Some r' -> f (fst r) = f (fst r') -> r = r'.
Proof.
  intros f l dt dt' r r' E E' K. apply last_such_Some in E. apply last_such_Some in E'. destruct E as (a & b & -> & F & L), E' as (a' & b' & El & F' & L'). cbv beta in *.
  assert (forall (a a' b b' : series) r r', a ++ r :: b = a' ++ r' :: b' -> (exists c, b = c ++ r' :: b') \/ (exists c, b' = c ++ r :: b) \/ r = r') as D.
  { clear. induction a as [| x a IH]; intros [| x' a'] b b' r r' E; cbn in E; injection E as E1 E2; subst; [right; right; reflexivity | left; exists a'; reflexivity | right; left; exists a; reflexivity |]. apply (IH a' b b' r r' E2). }
  destruct (D _ _ _ _ _ _ El) as [(c & ->) | [(c & ->) | ->]]; [exfalso | exfalso | reflexivity].
  - assert (f (fst r') <=? dt = false) as Q by (apply L; apply in_or_app; right; left; reflexivity). lia.
  - assert (f (fst r) <=? dt' = false) as Q by (apply L'; apply in_or_app; right; left; reflexivity). lia.
Qed.

Section Pick.
Context (sortv : series -> series) (rc : bool) (input : series).
Hypothesis HS : sorts_by_shifted sortv.
Hypothesis HN : NoDup (times input).
Local Notation right := (sortv (rows_of rc input)).
Local Notation rho := (renorm_of rc input).
Local Notation pick := (pick_of sortv rc input).

Lemma find_row : forall t e, In (t, e) input -> find (fun r => fst r =? t) input = Some (t, e).
Proof.
  intros t e H. destruct (find (fun r => fst r =? t) input) as [r |] eqn:F.
  - apply find_some in F. destruct F as [F1 F2]. f_equal. apply (nodup_fst_inj input); [exact HN | exact F1 | exact H | cbn; lia].
  - pose proof (find_none _ _ F _ H) as K. cbn in K. lia.
Qed.
Lemma pick_some : forall dt r, pick dt = Some r <-> is_partner input dt r /\ asof_match right dt = Some (fst r, fdiv (snd r) rho).
Proof.
  intros dt [t e]. unfold pick_of. destruct (asof_match right dt) as [[t1 w] |] eqn:M.
  - destruct (match_partner sortv rc input HS dt t1 w M) as (e1 & Hp & ->). cbn [fst snd]. rewrite (find_row t1 e1 (proj1 Hp)). split.
    + intros E. injection E as <- <-. split; [exact Hp | reflexivity].
    + intros [H E]. injection E as <- _. f_equal. apply (nodup_fst_inj input); [exact HN | apply Hp | apply H | reflexivity].
  - split; [discriminate | intros [_ E]; discriminate].
Qed.
Lemma pick_none : forall dt, pick dt = None -> forall r, ~ is_partner input dt r.
Proof.
  intros dt H [t e] [Hin (t' & Hy & Ha & Hb & _)]. assert (asof_match right dt <> None) as HM by (apply (reach_match sortv rc input HS dt t e Hin); exists t'; auto).
  destruct (asof_match right dt) as [[t1 w] |] eqn:M; [| congruence]. destruct (match_partner sortv rc input HS dt t1 w M) as (e1 & Hp & ->).
  unfold pick_of in H. rewrite M in H. cbn [fst] in H. rewrite (find_row t1 e1 (proj1 Hp)) in H. discriminate.
Qed.
Lemma asof_same : forall (l : series) dt dt' r r', asof_match l dt = Some r -> asof_match l dt' = Some r' -> add_years 1 (fst r) = add_years 1 (fst r') -> r = r'.
Proof.
  intros l dt dt' r r' H H' K. unfold asof_match in H, H'. destruct (last_such (fun r0 => add_years 1 (fst r0) <=? dt) l) as [x |] eqn:E; [| discriminate]. destruct (last_such (fun r0 => add_years 1 (fst r0) <=? dt') l) as [x' |] eqn:E'; [| discriminate].
  destruct (dt - _ <=? tolerance) in H; [| discriminate]. destruct (dt' - _ <=? tolerance) in H'; [| discriminate]. assert (x = r) as -> by congruence. assert (x' = r') as -> by congruence.
  exact (last_same (add_years 1) l dt dt' r r' E E' K).
Qed.
Lemma pick_choice : partner_choice input pick.
Proof.
  split.
  - intros dt. destruct (pick dt) as [r |] eqn:E; [apply (pick_some dt r), E | apply pick_none, E].
  - intros dt dt' r r' t H H' Y Y'. apply pick_some in H. apply pick_some in H'. destruct H as [P M], H' as [P' M']. apply one_year_later_eq in Y. apply one_year_later_eq in Y'.
    pose proof (asof_same _ _ _ _ _ M M') as K. cbn [fst] in K. assert (fst r = fst r') as E by (specialize (K ltac:(congruence)); injection K as K _; exact K).
    apply (nodup_fst_inj input); [exact HN | apply P | apply P' | exact E].
Qed.
Lemma pick_values : forall dt v, In (dt, v) (yoy_result (merged sortv (rows_of rc input))) <-> v <> NaN /\ exists e r, In (dt, e) input /\ pick dt = Some r /\ v = pair_value rho dt e r.
Proof.
  intros dt v. split.
  - intros H. apply values_pairs in H; [| exact HS]. destruct H as [Hn (e & r & H1 & H2 & H3 & H4)]. split; [exact Hn |]. exists e, r. split; [exact H1 |]. split; [apply pick_some; split; assumption | exact H3].
  - intros [Hn (e & [t er] & H1 & H2 & H3)]. apply pick_some in H2. destruct H2 as [_ M]. apply values_In. split; [exact Hn |]. exists e. split; [exact H1 |]. rewrite M, H3. reflexivity.
Qed.
Lemma pick_matched : forall t r, In r (merged sortv (rows_of rc input)) -> (matched t r = true <-> exists e, pick (yr_dt r) = Some (t, e)).
Proof.
  intros t r Hr. destruct (merged_time _ _ _ _ Hr) as [_ E]. unfold matched. rewrite E. destruct (asof_match right (yr_dt r)) as [[t1 w] |] eqn:M.
  - cbn [fst]. destruct (match_partner sortv rc input HS _ t1 w M) as (e1 & Hp & ->). assert (pick (yr_dt r) = Some (t1, e1)) as -> by (apply pick_some; split; [exact Hp | exact M]). split.
    + intros K. exists e1. f_equal. f_equal. lia.
    + intros [e K]. injection K as -> _. lia.
  - unfold pick_of. rewrite M. split; [discriminate | intros [e K]; discriminate].
Qed.
Lemma first_picked_exists : forall t dt e, In dt (times input) -> pick dt = Some (t, e) -> exists d, first_picked input pick t d.
Proof.
  intros t dt e Hdt Hp. set (cand := filter (fun d => match pick d with Some p => fst p =? t | None => false end) (times input)).
  assert (forall d, In d cand <-> In d (times input) /\ exists e, pick d = Some (t, e)) as CI.
  { intros d. unfold cand. rewrite filter_In. destruct (pick d) as [[t1 e1] |]; cbn [fst].
    - split; intros [A B]; split; auto; [exists e1; f_equal; f_equal; lia |]. destruct B as [e' B]. injection B. lia.
    - split; intros [A B]; split; auto; [discriminate | destruct B; discriminate]. }
  assert (In dt cand) as Hc by (apply CI; split; [exact Hdt | exists e; exact Hp]). clearbody cand.
  assert (exists d, In d cand /\ forall x, In x cand -> d <= x) as (d & D1 & D2).
  { clear - Hc. revert dt Hc. induction cand as [| a l IH]; intros dt Hdt; [destruct Hdt |]. destruct l as [| a2 l2].
    - exists a. split; [left; reflexivity |]. intros x [<- | []]. lia.
    - destruct (IH a2 (or_introl eq_refl)) as (d & D1 & D2). destruct (Z.le_gt_cases a d).
      + exists a. split; [left; reflexivity |]. intros x [<- | Hx]; [lia |]. specialize (D2 _ Hx). lia.
      + exists d. split; [right; exact D1 |]. intros x [<- | Hx]; [lia |]. auto. }
  exists d. apply CI in D1. destruct D1 as [D1 D1']. split; [exact D1 |]. split; [exact D1' |]. intros dt' e' I' P'. apply D2, CI. split; [exact I' | exists e'; exact P'].
Qed.
Lemma pick_used : forall t, right_used (merged sortv (rows_of rc input)) t = Some true <-> exists dt, first_picked input pick t dt /\ ends_pair (yoy_result (merged sortv (rows_of rc input))) dt.
Proof.
  intros t. unfold right_used. change (find (fun r => match yr_right r with Some p => fst p =? t | None => false end)) with (find (matched t)).
  set (df := merged sortv (rows_of rc input)) in *. pose proof (merged_sorted sortv rc input HN) as S. fold df in S. destruct (find (matched t) df) as [r |] eqn:F.
  - apply find_split in F. destruct F as (l1 & l2 & El & Hm & Hl1). assert (In r df) as Hr by (rewrite El; apply in_or_app; right; left; reflexivity).
    assert (first_picked input pick t (yr_dt r)) as FM.
    { split; [apply (merged_time _ _ _ _ Hr) |]. split; [apply (pick_matched t r Hr), Hm |].
      intros dt' e Hdt' Hp. destruct (merged_In sortv rc input dt' Hdt') as [w Hw]. fold df in Hw. set (r' := mk_yoy_row _ _ _ _) in Hw.
      assert (matched t r' = true) as Hm' by (apply (pick_matched t r' Hw); exists e; exact Hp).
      change dt' with (yr_dt r'). rewrite El in Hw, S. apply in_app_or in Hw. destruct Hw as [Hw | [<- | Hw]]; [rewrite (Hl1 _ Hw) in Hm'; discriminate | lia |].
      clear - S Hw. induction l1 as [| a l1 IH]; cbn in S; apply StronglySorted_inv in S; destruct S as [S Sa]; [rewrite Forall_forall in Sa; specialize (Sa _ Hw); lia | apply IH, S]. }
    split.
    + intros H. injection H as H. exists (yr_dt r). split; [exact FM |]. apply (yoy_value_row df (yr_dt r) S r Hr eq_refl), H.
    + intros (dt & FM' & Hv). assert (dt = yr_dt r) as ->.
      { destruct FM as (I1 & [e1 P1] & M1), FM' as (I2 & [e2 P2] & M2). specialize (M1 _ _ I2 P2). specialize (M2 _ _ I1 P1). lia. }
      f_equal. apply (yoy_value_row df (yr_dt r) S r Hr eq_refl). exact Hv.
  - split; [discriminate |]. intros (dt & (I & [e P] & _) & _). exfalso. destruct (merged_In sortv rc input dt I) as [w Hw]. fold df in Hw. pose proof (find_none _ _ F _ Hw) as K.
    set (r' := mk_yoy_row _ _ _ _) in *. assert (matched t r' = true) as K' by (apply (pick_matched t r' Hw); exists e; exact P). rewrite K' in K. discriminate.
Qed.
End Pick.

(** Values and uses in terms of one choice of partners. *)
Lemma yoy_pairs : forall infer sortv choice starts rc ep cl m input o,
  sorts_by_shifted sortv -> NoDup (times input) ->
  degradation_year_on_year infer sortv choice starts rc ep cl m input = Ok o ->
  exists pick, partner_choice input pick /\
    values_of_pairs input pick (yo_renorm o) (yo_values o) /\
    Permutation (times input) (map fst (yo_usage o)) /\ Sorted Z.lt (map fst (yo_usage o)) /\
    (forall t u, In (t, u) (yo_usage o) ->
       exists b c, u = (b + c)%Z /\ (b = 0 \/ b = 1)%Z /\ (c = 0 \/ c = 1)%Z /\
         (b = 1%Z <-> ends_pair (yo_values o) t) /\
         (c = 1%Z <-> exists dt, first_picked input pick t dt /\ ends_pair (yo_values o) dt)) /\
    (forall rho, (forall t e, In (t, e) input -> exists q, e = Fin q) -> yo_renorm o = Fin rho -> rho <> 0%Qc ->
       forall t dt, In dt (times input) -> (exists e, pick dt = Some (t, e)) -> exists d, first_picked input pick t d /\ ends_pair (yo_values o) d).
Proof.
  intros infer sortv choice starts rc ep cl m input o HS HN H.
  destruct (full_core _ _ _ _ _ _ _ _ _ _ H) as (o' & rows & HCo & _ & E2 & E3 & E4). destruct (core_Ok _ _ _ _ _ _ _ HCo) as (_ & _ & _ & -> & ER & EV & _ & _ & EU).
  rewrite E2, E3, E4, EV, EU, ER. clear E2 E3 E4 EV EU ER HCo o' H o.
  exists (pick_of sortv rc input). split; [apply pick_choice; assumption |]. split; [intros dt v; apply pick_values; assumption |].
  assert (map fst (usage_of_points (merged sortv (rows_of rc input))) = times (sort_index input)) as ET.
  { unfold usage_of_points. rewrite map_map. unfold merged, rows_of. rewrite !map_map. reflexivity. }
  rewrite ET. destruct (sorted_times_exists input HN) as [A B]. split; [exact A |]. split; [exact B |]. split.
  - intros t u Hu. unfold usage_of_points in Hu. apply in_map_iff in Hu. destruct Hu as (r & E & Hr). injection E as <- <-. set (df := merged sortv (rows_of rc input)) in *.
    exists (b2z (notnan (yr_yoy r))), (match right_used df (yr_dt r) with Some b => b2z b | None => 0%Z end).
    split; [reflexivity |]. split; [unfold b2z; destruct (notnan _); auto |]. split; [destruct (right_used _ _) as [[|] |]; cbn; auto |]. split.
    + assert (ends_pair (yoy_result df) (yr_dt r) <-> notnan (yr_yoy r) = true) as -> by (unfold ends_pair; symmetry; apply (yoy_value_row df (yr_dt r) (merged_sorted sortv rc input HN) r Hr eq_refl)).
      destruct (notnan _); cbn; split; auto; discriminate.
    + unfold df. rewrite <- (pick_used sortv rc input HS HN (yr_dt r)). destruct (right_used _ (yr_dt r)) as [[|] |]; cbn; split; auto; discriminate.
  - intros rho HF HR Hrho t dt Hdt (e & Hp). destruct (first_picked_exists sortv rc input t dt e Hdt Hp) as [d Hd]. exists d. split; [exact Hd |]. destruct Hd as (I1 & [e1 P1] & _).
    unfold times in I1. apply in_map_iff in I1. destruct I1 as ([d' e'] & Ed & I1). cbn in Ed. subst d'. exists (pair_value (renorm_of rc input) d e' (t, e1)). apply (pick_values sortv rc input HS HN). split; [| exists e', (t, e1); auto].
    pose proof (proj1 (pick_some sortv rc input HS HN d (t, e1)) P1) as [PP _]. destruct (HF _ _ I1) as [q ->]. destruct (HF t e1) as [q' ->]; [apply PP |]. rewrite HR. rewrite pair_value_fin; [discriminate | exact Hrho | apply (partner_elapsed input d _ PP)].
Qed.

(** When the analysis succeeds, again with one choice of partners. *)
Lemma yoy_ok_pairs : forall infer sortv choice starts ep cl input,
  sorts_by_shifted sortv -> input <> [] -> NoDup (times input) ->
  (forall t e, In (t, e) input -> e = NaN \/ exists q, e = Fin q) ->
  exists pick, partner_choice input pick /\
  ((exists o, degradation_year_on_year infer sortv choice starts false ep cl NoUncertainty input = Ok o) <->
   ~ span_short infer input /\ exists dt e r, In (dt, e) input /\ pick dt = Some r /\ e <> NaN /\ snd r <> NaN) /\
  ((forall o, degradation_year_on_year infer sortv choice starts false ep cl NoUncertainty input <> Ok o) ->
   degradation_year_on_year infer sortv choice starts false ep cl NoUncertainty input = Raise ValueError).
Proof.
  intros infer sortv choice starts ep cl input HS Hs HN HF. exists (pick_of sortv false input). split; [apply pick_choice; assumption |].
  unfold degradation_year_on_year. rewrite core_eq. pose proof (span_short_iff infer input Hs HN) as SS.
  destruct input as [| r0 inp]; [congruence |]. set (input := r0 :: inp) in *. cbv iota. destruct (too_short _ _ _ _) eqn:TS.
  - split; [| reflexivity]. split; [intros [o Ho]; discriminate | intros [Hn _]; exfalso; apply Hn, SS; reflexivity].
  - cbn [circular_guard bind]. destruct (yoy_result (merged sortv (rows_of false input))) as [| p l] eqn:EV.
    + split; [| reflexivity]. split; [intros [o Ho]; discriminate |]. intros [_ (dt & e & [t er] & H1 & H2 & H3 & H4)]. exfalso. cbn [snd] in H4.
      assert (In (dt, pair_value (renorm_of false input) dt e (t, er)) (yoy_result (merged sortv (rows_of false input)))) as Hr; [| rewrite EV in Hr; exact Hr].
      apply (pick_values sortv false input HS HN). split; [| exists e, (t, er); auto]. pose proof (proj1 (pick_some sortv false input HS HN dt (t, er)) H2) as [PP _].
      destruct (HF _ _ H1) as [| [q ->]]; [contradiction |]. destruct (HF t er) as [| [q' ->]]; [apply PP | contradiction |]. change (renorm_of false input) with (Fin 1). rewrite pair_value_fin; [discriminate | discriminate | apply (partner_elapsed input dt _ PP)].
    + split; [| intros Hn; exfalso; eapply Hn; reflexivity]. split; [| intros _; eexists; reflexivity]. intros _. split; [intro K; apply SS in K; discriminate |]. destruct p as [dt v].
      assert (In (dt, v) (yoy_result (merged sortv (rows_of false input)))) as Hv by (rewrite EV; left; reflexivity). apply (pick_values sortv false input HS HN) in Hv.
      destruct Hv as [Hn (e & r & H1 & H2 & ->)]. exists dt, e, r. split; [exact H1 |]. split; [exact H2 |]. split; intro K; apply Hn, pair_value_nan; auto.
Qed.

(** Without rows that land on the same instant there is only one choice. *)
Lemma choice_unique : forall input p p', NoDup (times input) -> no_clash input -> partner_choice input p -> partner_choice input p' -> forall dt, p dt = p' dt.
Proof.
  intros input p p' HN HC [A _] [A' _] dt. specialize (A dt). specialize (A' dt). destruct (p dt) as [r |], (p' dt) as [r' |]; [| exfalso; exact (A' _ A) | exfalso; exact (A _ A') | reflexivity].
  f_equal. apply (nodup_fst_inj input); [exact HN | apply A | apply A' | exact (partner_unique input dt r r' HC A A')].
Qed.

Lemma yoy_values_pairs : forall infer sortv choice starts rc ep cl m input o,
  sorts_by_shifted sortv -> NoDup (times input) ->
  degradation_year_on_year infer sortv choice starts rc ep cl m input = Ok o ->
  exists pick, partner_choice input pick /\ values_of_pairs input pick (yo_renorm o) (yo_values o).
Proof. intros infer sortv choice starts rc ep cl m input o HS HN H. destruct (yoy_pairs _ _ _ _ _ _ _ _ _ _ HS HN H) as (pick & A & B & _). exists pick. split; assumption. Qed.

Lemma yoy_usage_pairs : forall infer sortv choice starts rc ep cl m input o,
  sorts_by_shifted sortv -> NoDup (times input) ->
  degradation_year_on_year infer sortv choice starts rc ep cl m input = Ok o ->
  Permutation (times input) (map fst (yo_usage o)) /\ Sorted Z.lt (map fst (yo_usage o)) /\
  exists pick, partner_choice input pick /\ values_of_pairs input pick (yo_renorm o) (yo_values o) /\
    forall t u, In (t, u) (yo_usage o) ->
      exists b c, u = (b + c)%Z /\ (b = 0 \/ b = 1)%Z /\ (c = 0 \/ c = 1)%Z /\
        (b = 1%Z <-> ends_pair (yo_values o) t) /\
        (c = 1%Z <-> exists dt, first_picked input pick t dt /\ ends_pair (yo_values o) dt).
Proof. intros infer sortv choice starts rc ep cl m input o HS HN H. destruct (yoy_pairs _ _ _ _ _ _ _ _ _ _ HS HN H) as (pick & A & B & C & D & E & _). split; [exact C |]. split; [exact D |]. exists pick. split; [exact A |]. split; [exact B | exact E]. Qed.

Lemma yoy_documented_pairs : forall infer sortv choice starts rc ep cl m input o rho,
  sorts_by_shifted sortv -> NoDup (times input) ->
  degradation_year_on_year infer sortv choice starts rc ep cl m input = Ok o ->
  (forall t e, In (t, e) input -> exists q, e = Fin q) -> yo_renorm o = Fin rho -> rho <> 0%Qc ->
  exists pick, partner_choice input pick /\ values_of_pairs input pick (yo_renorm o) (yo_values o) /\
    forall t u, In (t, u) (yo_usage o) ->
      exists b c, u = (b + c)%Z /\ (b = 0 \/ b = 1)%Z /\ (c = 0 \/ c = 1)%Z /\
        (b = 1%Z <-> ends_pair (yo_values o) t) /\
        (c = 1%Z <-> exists dt e, pick dt = Some (t, e) /\ ends_pair (yo_values o) dt).
Proof.
  intros infer sortv choice starts rc ep cl m input o rho HS HN H HF HR Hr. destruct (yoy_pairs _ _ _ _ _ _ _ _ _ _ HS HN H) as (pick & A & B & _ & _ & E & F). exists pick. split; [exact A |]. split; [exact B |].
  intros t u I. destruct (E t u I) as (b & c & E1 & E2 & E3 & E4 & E5). exists b, c. split; [exact E1 |]. split; [exact E2 |]. split; [exact E3 |]. split; [exact E4 |]. rewrite E5. split.
  - intros (dt & (_ & [e P] & _) & Hv). exists dt, e. split; assumption.
  - intros (dt & e & P & [v Hv]). apply (F rho HF HR Hr t dt); [| exists e; exact P]. apply B in Hv. destruct Hv as [_ (e' & _ & Hi & _)]. unfold times. apply in_map_iff. exists (dt, e'). split; [reflexivity | exact Hi].
Qed.
