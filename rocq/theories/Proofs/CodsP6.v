(** Proofs about the results of the CODS decomposition. *)

From Coq Require Import QArith Qcanon List ZArith Bool Arith Lia String.
From Verif.Base Require Import QcExtra ISort Quantile Fl TimeSeries Calendar Rolling.
From Verif.Spec Require Import Stats Soiling Cods CodsRun.
From Verif.Model Require Import Soiling CodsTools CodsKalman Cods.
From Verif.Proofs Require Import FlP StatsP FiltersP FiltersP2 SoilP2 CodsP5.
Import ListNotations.
Open Scope list_scope.
Open Scope Qc_scope.

(** ** Columns *)

Lemma cols_nth : forall f a b i, nth_error (cols f a b) i = match nth_error a i, nth_error b i with Some x, Some y => Some (f x y) | _, _ => None end.
Proof. intros f a b i. unfold cols. rewrite nth_error_map_some, nth_error_combine. destruct (nth_error a i), (nth_error b i); reflexivity. Qed.
Lemma cols_length : forall f a b, List.length (cols f a b) = Nat.min (List.length a) (List.length b).
Proof. intros f a b. unfold cols. rewrite map_length, combine_length. reflexivity. Qed.

(** ** The run *)

Lemma decompose_spec : forall F adf order stl max sens crit prune sig ffill s fitted r,
  decompose F adf order stl max sens crit prune sig ffill s = (fitted, r) ->
  let o := if stl then filter (fun c => negb (String.eqb c "Rd")) order else order in
  (~ In "SR"%string o /\ fitted = [] /\ r = Raise ValueError) \/
  (In "SR"%string o /\ exists e, collapse_cleaning_events 5 (fst (ce_detection ffill 9 sens (vals s))) (diffs (snd (ce_detection ffill 9 sens (vals s)))) = Raise e /\ fitted = [] /\ r = Raise e) \/
  (In "SR"%string o /\ exists pce errors last,
     collapse_cleaning_events 5 (fst (ce_detection ffill 9 sens (vals s))) (diffs (snd (ce_detection ffill 9 sens (vals s)))) = Ok pce /\
     run_of (cods_step F stl ffill (times s) (vals s)) o max crit (rmse (fit_root F) (vals s) (ones (vals s)))
       (CS (ones (vals s)) (ones (vals s)) (ones (vals s)) None (fz 0) (vals s) (fz 1) pce sens prune) fitted errors last /\
     r = bind last (finish F adf sig (vals s))).
Proof.
  intros F adf order stl max sens crit prune sig ffill s fitted r E o. unfold decompose in E. rewrite used_order_spec in E. cbv zeta in E. fold o in E.
  destruct (in_dec string_dec "SR"%string o) as [I|I]; [|injection E as <- <-; left; auto]. right.
  destruct (ce_detection ffill 9 sens (vals s)) as [ce rm9]. cbn [fst snd] in *.
  destruct (collapse_cleaning_events 5 ce (diffs rm9)) as [pce|e]; [|injection E as <- <-; left; split; [exact I|]; exists e; auto].
  right. split; [exact I|].
  destruct (iterate _ _ _ _ _ _ _ _ _ _ _) as [[d errors] last] eqn:EI. injection E as <- <-.
  exists pce, errors, last. split; [reflexivity|]. split; [|reflexivity].
  apply run_schedule; [destruct o; [destruct I|cbn; lia]|exact EI].
Qed.

(** If the soiling component does not come first or second there is never a result. *)
Lemma late_soiling : forall F adf (order : list string) (stl : bool) max sens crit prune sig ffill s d,
  let o := if stl then filter (fun c => negb (String.eqb c "Rd")) order else order in
  (forall i, (i < 2)%nat -> nth_error o i <> Some "SR"%string) ->
  snd (decompose F adf order stl max sens crit prune sig ffill s) <> Ok d.
Proof.
  intros F adf order stl max sens crit prune sig ffill s d o H E.
  destruct (decompose F adf order stl max sens crit prune sig ffill s) as [fitted r] eqn:ED. cbn [snd] in E. subst r.
  destruct (decompose_spec _ _ _ _ _ _ _ _ _ _ _ _ _ ED) as [(_ & _ & C)|[(_ & e & _ & _ & C)|(I & pce & errors & last & _ & R & C)]]; try discriminate C. fold o in I, R.
  destruct last as [st|e]; [|discriminate C]. cbn [bind] in C.
  assert (Ho : (3 <= List.length o)%nat).
  { apply In_nth_error in I. destruct I as [k Hk]. assert (k < List.length o)%nat by (apply nth_error_Some; congruence).
    destruct k as [|[|k]]; [elim (H 0%nat ltac:(lia) Hk)|elim (H 1%nat ltac:(lia) Hk)|lia]. }
  destruct R as ((rest & _ & CO) & SC & _).
  assert (G : forall ic st0 fs ms r, carried_out (cods_step F stl ffill (times s) (vals s)) ic st0 fs ms r ->
     (forall i f, nth_error fs i = Some f -> scheduled o max crit (fun j => nth j errors NaN) (S (ic + i)) f) ->
     c_frame st0 = None -> forall x, r = Ok x -> c_frame x = None).
  { intros ic st0 fs ms r X. induction X as [ic st0|ic st0 c p st' x fs ms r ES X IH|ic st0 c p e ES]; intros SCH N y Ey.
    - injection Ey as <-. exact N.
    - apply (IH); [|clear IH X|exact Ey].
      + intros i f Hf. replace (S (S ic + i)) with (S (ic + S i)) by lia. apply (SCH (S i) f Hf).
      + unfold cods_step in ES. destruct (String.eqb_spec c "SR") as [->|C1].
        * exfalso. unfold soiling_step in ES. destruct (Nat.ltb_spec 2 (S ic)) as [L|L].
          -- rewrite N in ES. discriminate ES.
          -- specialize (SCH 0%nat _ eq_refl). unfold scheduled in SCH. cbn [fst snd] in SCH. rewrite Nat.add_0_r in SCH. replace (S ic - 1)%nat with ic in SCH by lia.
             destruct SCH as [(_ & K & _)|(ch & C1 & (C2 & (C3 & _) & _) & _ & K)].
             ++ rewrite Nat.mod_small in K by lia. apply (H ic); [lia|exact K].
             ++ lia.
        * assert (K : forall s1, (if String.eqb c "SC" then season_step F stl (times s) (vals s) st0 else if String.eqb c "Rd" then rate_step F (vals s) st0 else Ok st0) = Ok s1 -> c_frame s1 = None).
          { intros s1 Es. destruct (String.eqb c "SC").
            - unfold season_step in Es. destruct (fit_season F _) as [[sm tr]|]; [|discriminate Es]. cbn [bind] in Es. destruct (force_periodicity _ _); [|discriminate Es]. cbn [bind] in Es.
              destruct stl; [destruct (fit_rate F _); [|discriminate Es]; cbn [bind] in Es|]; injection Es as <-; exact N.
            - destruct (String.eqb c "Rd"); [|injection Es as <-; exact N]. unfold rate_step in Es. destruct (fit_rate F _); [|discriminate Es]. cbn [bind] in Es. injection Es as <-. exact N. }
          destruct (if String.eqb c "SC" then _ else _) as [s1|]; [|discriminate ES]. cbn [bind] in ES. injection ES as <- _. unfold recombine. cbn [fst c_frame]. apply K. reflexivity.
    - discriminate Ey. }
  specialize (G _ _ _ _ _ CO SC eq_refl st eq_refl). unfold finish in C. rewrite G in C. discriminate C.
Qed.

(** ** The result *)

Lemma Qc_div_mul : forall p q, q <> 0 -> p / q * q = p.
Proof. intros p q H. unfold Qcdiv. rewrite <- Qcmult_assoc, (Qcmult_comm (/ q)), Qcmult_inv_r by exact H. ring. Qed.
Lemma fdiv_fin : forall p q, q <> 0 -> fdiv (Fin p) (Fin q) = Fin (p / q).
Proof. intros p q H. cbn [fdiv]. destruct (qeq q 0) eqn:E; [apply qeq_spec in E; contradiction|reflexivity]. Qed.

Lemma composed_spec : forall pi ratio season trend,
  let total := cols fmul (cols fmul ratio season) trend in
  let residuals := cols fdiv pi total in
  composed pi ratio season trend (map (fun x => fmul x (fmean residuals)) total) residuals (fmean residuals).
Proof.
  intros pi ratio season trend total residuals.
  assert (TN : forall i x y z, nth_error ratio i = Some x -> nth_error season i = Some y -> nth_error trend i = Some z -> nth_error total i = Some (fmul (fmul x y) z)).
  { intros i x y z X Y Z. unfold total. rewrite !cols_nth, X, Y, Z. reflexivity. }
  unfold composed, value_at, missing_at. split; [|split].
  - intros i a b c A B C. pose proof (TN _ _ _ _ A B C) as T. cbn [fmul] in T. split.
    + intros t Et. rewrite nth_error_map_some, T, Et. reflexivity.
    + intros p P NZ. exists (p / (a * b * c)). split; [|apply Qc_div_mul; exact NZ]. unfold residuals. rewrite cols_nth, P, T. rewrite fdiv_fin by exact NZ. reflexivity.
  - intros i x y z X Y Z M. pose proof (TN _ _ _ _ X Y Z) as T.
    assert (fmul (fmul x y) z = NaN) as EN.
    { destruct M as [->|[->| ->]]; [reflexivity| |].
      - destruct x; reflexivity.
      - destruct (fmul x y); reflexivity. }
    rewrite EN in T. split.
    + rewrite nth_error_map_some, T. reflexivity.
    + intros p P. unfold residuals. rewrite cols_nth, P, T. destruct p; reflexivity.
  - intros N NE. rewrite (fmean_noinf _ N NE). eexists. split; [reflexivity|]. reflexivity.
Qed.

Lemma rmse_spec : forall root pi total, noinf pi -> noinf total -> exists x, rmse root pi total = root x /\ mean_square pi total x.
Proof.
  intros root pi total NP NT. unfold rmse. eexists. split; [reflexivity|].
  set (f := fun p : fl * fl => let d := fsub (snd p) (fst p) in fmul d d).
  set (l := map f (filter (fun p => notnan (snd p)) (combine pi total))).
  assert (NC : forall p, In p (combine pi total) -> (fst p <> PInf /\ fst p <> NInf) /\ (snd p <> PInf /\ snd p <> NInf)).
  { intros [a b] I. pose proof (in_combine_l _ _ _ _ I) as IA. pose proof (in_combine_r _ _ _ _ I) as IB. split; [apply NP; exact IA|apply NT; exact IB]. }
  assert (NL : noinf l /\ finvals l = squares pi total).
  { unfold l, squares. revert NC. generalize (combine pi total) as c. induction c as [|[a b] c IH]; intros NC; [split; [intros x []|reflexivity]|].
    destruct (IH (fun p I => NC p (or_intror I))) as [I1 I2]. destruct (NC (a, b) (or_introl eq_refl)) as [[A1 A2] [B1 B2]]. cbn [fst snd] in *.
    cbn [filter flat_map snd]. destruct b as [| |b|]; try (elim B1; reflexivity); try (elim B2; reflexivity).
    - cbn [notnan isnan negb]. destruct a; split; cbn [app]; assumption.
    - cbn [notnan isnan negb map]. destruct a as [| |a|]; try (elim A1; reflexivity); try (elim A2; reflexivity).
      + unfold f at 1 3. cbn [fst snd fsub fneg fadd fmul]. split; [|exact I2]. intros x [<-|Hx]; [split; discriminate|apply I1; exact Hx].
      + unfold f at 1 3. cbn [fst snd fsub fneg fadd fmul app]. split; [intros x [<-|Hx]; [split; discriminate|apply I1; exact Hx]|]. cbn [finvals]. rewrite I2. reflexivity. }
  destruct NL as [NL EL]. unfold mean_square. rewrite <- EL. destruct (finvals l) as [|q r] eqn:E.
  - left. split; [reflexivity|]. unfold fmean, fcount, fsum. rewrite (dropna_noinf _ NL), E. reflexivity.
  - right. split; [discriminate|]. rewrite <- E. apply fmean_noinf; [exact NL|rewrite E; discriminate].
Qed.

Lemma loss_mean : forall l, noinf l -> finvals l <> [] ->
  exists m, mean_of l m /\ fmul (fmean (map (fun x => fsub (fz 1) x) l)) (fz 100) = Fin (qz 100 * (1 - m)).
Proof.
  intros l N NE. exists (qsum (finvals l) / qz (Z.of_nat (List.length (finvals l)))). split; [reflexivity|].
  assert (NI : noinf (map (fun x => fsub (fz 1) x) l)).
  { intros x Hx. apply in_map_iff in Hx. destruct Hx as (y & <- & Hy). destruct (N y Hy). destruct y; try contradiction; split; discriminate. }
  assert (EF : finvals (map (fun x => fsub (fz 1) x) l) = map (fun q => 1 - q) (finvals l)).
  { clear NI NE. induction l as [|x l IH]; [reflexivity|]. assert (N' : noinf l) by (intros y Hy; apply N; right; exact Hy).
    destruct (N x (or_introl eq_refl)) as [A B]. destruct x as [| |q|]; try contradiction; cbn [map].
    - change (fsub (fz 1) NaN) with NaN. exact (IH N').
    - change (fsub (fz 1) (Fin q)) with (Fin (1 - q)). cbn [finvals map]. rewrite (IH N'). reflexivity. }
  rewrite (fmean_noinf _ NI) by (rewrite EF; destruct (finvals l); [contradiction|discriminate]). rewrite EF. unfold qlen. rewrite map_length.
  cbn [fmul fz]. f_equal.
  assert (ES : qsum (map (fun q => 1 - q) (finvals l)) = qz (Z.of_nat (List.length (finvals l))) - qsum (finvals l)).
  { clear. induction (finvals l) as [|a r IH]; [reflexivity|]. cbn [map qsum fold_right List.length] in *. unfold qsum in *. cbn [fold_right]. rewrite IH, Nat2Z.inj_succ, <- Z.add_1_r, qz_add. change (qz 1) with 1. ring. }
  rewrite ES. assert (NZ : qz (Z.of_nat (List.length (finvals l))) <> 0).
  { intro C. change 0 with (qz 0) in C. apply qz_inj in C. destruct (finvals l); [contradiction|discriminate C]. }
  set (n := qz (Z.of_nat (List.length (finvals l)))) in *. clearbody n. field. exact NZ.
Qed.

Definition amplitude (l : list fl) : fl := fsub (fquantile (qf 9 10) l) (fquantile (qf 1 10) l).
Lemma amplitude_spec : forall l, noinf l -> finvals l <> [] ->
  exists lo hi, is_percentile (qz 10) (finvals l) lo /\ is_percentile (qz 90) (finvals l) hi /\ amplitude l = Fin (hi - lo).
Proof.
  intros l N NE. unfold amplitude.
  rewrite (fquantile_noinf (qf 9 10) l N NE ltac:(discriminate) ltac:(discriminate)), (fquantile_noinf (qf 1 10) l N NE ltac:(discriminate) ltac:(discriminate)).
  pose proof (quantile_is (qf 1 10) (finvals l) NE ltac:(discriminate) ltac:(discriminate)) as P1.
  pose proof (quantile_is (qf 9 10) (finvals l) NE ltac:(discriminate) ltac:(discriminate)) as P9.
  assert (E1 : qz 100 * qf 1 10 = qz 10) by (apply Qc_is_canon; reflexivity). assert (E9 : qz 100 * qf 9 10 = qz 90) by (apply Qc_is_canon; reflexivity).
  rewrite E1 in P1. rewrite E9 in P9. eexists. eexists. split; [exact P1|]. split; [exact P9|reflexivity].
Qed.

Lemma finish_ok : forall F adf sig pi st d, finish F adf (Fin sig) pi st = Ok d ->
  (exists k, c_frame st = Some k /\ o_ratio d = k_ratio k /\ o_rates d = k_rates k /\ o_events d = k_events k) /\
  o_season d = c_season st /\ o_trend d = c_trend st /\ o_rate d = c_rate st /\
  composed pi (o_ratio d) (o_season d) (o_trend d) (o_total d) (o_residuals d) (o_shift d) /\
  adf (dropna (o_residuals d)) = Ok (o_adf d) /\
  (noinf (o_ratio d) -> finvals (o_ratio d) <> [] -> exists m, mean_of (o_ratio d) m /\ o_loss d = Fin (qz 100 * (1 - m))) /\
  (noinf pi -> noinf (o_total d) -> exists x, o_rmse d = fit_root F x /\ mean_square pi (o_total d) x) /\
  (noinf (o_ratio d) -> finvals (o_ratio d) <> [] -> noinf (o_residuals d) -> finvals (o_residuals d) <> [] ->
     exists lo hi lo' hi', is_percentile (qz 10) (finvals (o_ratio d)) lo /\ is_percentile (qz 90) (finvals (o_ratio d)) hi /\
       is_percentile (qz 10) (finvals (o_residuals d)) lo' /\ is_percentile (qz 90) (finvals (o_residuals d)) hi' /\ lo' < hi' /\
       (o_small d = true <-> hi - lo < sig * (hi' - lo'))).
Proof.
  intros F adf sig pi st d E. unfold finish in E. destruct (c_frame st) as [k|] eqn:EK; [|discriminate E].
  set (total := cols fmul (cols fmul (k_ratio k) (c_season st)) (c_trend st)) in E. set (residuals := cols fdiv pi total) in E.
  destruct (adf (dropna residuals)) as [test|e] eqn:EA; [|discriminate E]. cbn [bind] in E. fold (amplitude residuals) in E. fold (amplitude (k_ratio k)) in E.
  destruct (feq (amplitude residuals) (fz 0)) eqn:EZ; [discriminate E|]. injection E as <-. cbn [o_ratio o_rates o_events o_season o_trend o_total o_residuals o_rate o_loss o_shift o_rmse o_small o_adf].
  split; [exists k; auto|]. split; [reflexivity|]. split; [reflexivity|]. split; [reflexivity|]. split; [apply composed_spec|]. split; [exact EA|].
  split; [intros N NE; apply loss_mean; assumption|]. split; [intros NP NT; apply rmse_spec; assumption|].
  intros N NE NR NER. destruct (amplitude_spec _ N NE) as (lo & hi & P1 & P2 & EQ). destruct (amplitude_spec _ NR NER) as (lo' & hi' & P1' & P2' & EQ').
  exists lo, hi, lo', hi'. split; [exact P1|]. split; [exact P2|]. split; [exact P1'|]. split; [exact P2'|].
  rewrite EQ' in EZ |- *. rewrite EQ. assert (NZ : hi' - lo' <> 0) by (intro C; rewrite C in EZ; discriminate EZ).
  assert (LE : lo' <= hi') by (eapply percentile_mono; [| | |exact P1'|exact P2']; discriminate).
  assert (LT : lo' < hi') by (destruct (Qcle_lt_or_eq _ _ LE) as [L|L]; [exact L|subst; elim NZ; ring]).
  split; [exact LT|]. rewrite fdiv_fin by exact NZ. cbn [flt]. rewrite qlt_spec. assert (P : 0 < hi' - lo') by qlra.
  set (a := hi - lo). set (b := hi' - lo') in *. clearbody a b. pose proof (Qc_div_mul a b NZ) as DM. split; intro H.
  - rewrite <- DM. apply Qcmult_lt_compat_r; assumption.
  - destruct (Qclt_le_dec (a / b) sig) as [L|L]; [exact L|]. exfalso. assert (K : sig * b <= a / b * b) by (apply Qcmult_le_compat_r; [exact L|qlra]). rewrite DM in K. qlra.
Qed.

Lemma finish_raises : forall F adf sig pi st e, finish F adf sig pi st = Raise e ->
  (c_frame st = None /\ e = IndexError) \/
  exists k, c_frame st = Some k /\ let residuals := cols fdiv pi (cols fmul (cols fmul (k_ratio k) (c_season st)) (c_trend st)) in
    (adf (dropna residuals) = Raise e \/
     (e = ZeroDivisionError /\ (exists x, adf (dropna residuals) = Ok x) /\
      (noinf residuals -> finvals residuals <> [] -> exists v, is_percentile (qz 10) (finvals residuals) v /\ is_percentile (qz 90) (finvals residuals) v))).
Proof.
  intros F adf sig pi st e E. unfold finish in E. destruct (c_frame st) as [k|] eqn:EK; [|injection E as <-; left; auto]. right. exists k. split; [reflexivity|]. cbv zeta.
  set (total := cols fmul (cols fmul (k_ratio k) (c_season st)) (c_trend st)) in *. set (residuals := cols fdiv pi total) in *.
  destruct (adf (dropna residuals)) as [test|e'] eqn:EA; [|injection E as <-; left; reflexivity]. cbn [bind] in E. fold (amplitude residuals) in E. right.
  destruct (feq (amplitude residuals) (fz 0)) eqn:EZ; [|discriminate E]. injection E as <-. split; [reflexivity|]. split; [exists test; reflexivity|].
  intros N NE. destruct (amplitude_spec _ N NE) as (lo & hi & P1 & P2 & EQ). rewrite EQ in EZ. cbn [feq fz] in EZ. apply qeq_spec in EZ.
  exists lo. split; [exact P1|]. assert (E : hi = lo) by qlra. rewrite E in P2. exact P2.
Qed.

(** ** Properties of all states *)

Lemma carried_inv : forall (St : Type) (step : string -> bool -> nat -> St -> result (St * fl)) (P : St -> Prop),
  (forall c p ic st st' x, P st -> step c p ic st = Ok (st', x) -> P st') ->
  forall ic st fs ms r, carried_out step ic st fs ms r -> P st -> forall st', r = Ok st' -> P st'.
Proof.
  intros St step P H ic st fs ms r CO. induction CO as [ic st|ic st c p st' x fs ms r E CO IH|ic st c p e E]; intros HP st1 E1.
  - injection E1 as <-. exact HP.
  - apply IH; [|exact E1]. eapply H; eassumption.
  - discriminate E1.
Qed.

(** Where the parts of the state come from. *)
Definition from_filter (F : fits) (k : option kalman_frame) : Prop :=
  match k with None => True | Some k => exists input pce perfect prune, fit_soiling F input pce perfect prune = Ok k end.
Definition state_ok (F : fits) (stl : bool) (index : list Z) (st : cods_state) : Prop :=
  from_filter F (c_frame st) /\ (stl = false -> linear (List.length index) (c_trend st) (c_rate st)) /\ seasonal index (c_season st).

Lemma linear_trend_ok : forall n rate, linear n (linear_trend n rate) rate.
Proof.
  intros n rate. unfold linear, linear_trend. split; [rewrite map_length, seq_length; reflexivity|]. intros r -> i Hi. unfold value_at.
  rewrite nth_error_map_some, nth_error_seq. assert ((i <? n)%nat = true) as -> by (apply Nat.ltb_lt; exact Hi). reflexivity.
Qed.

Lemma periodic_seasonal : forall s index o, force_periodicity s index = Ok o -> seasonal index (vals o).
Proof.
  intros s index o E. unfold force_periodicity in E. destruct (negb _) in E; [discriminate E|]. injection E as <-. unfold seasonal, vals. rewrite map_map. split; [apply map_length|].
  intros i j t u A B D. rewrite !nth_error_map_some, A, B. cbn [snd]. rewrite D. reflexivity.
Qed.

Lemma step_ok : forall F stl ffill index pi c p ic st st' x, List.length pi = List.length index ->
  state_ok F stl index st -> cods_step F stl ffill index pi c p ic st = Ok (st', x) -> state_ok F stl index st'.
Proof.
  intros F stl ffill index pi c p ic st st' x LI (H1 & H2 & H3) E. unfold cods_step in E.
  assert (K : forall s1, (if String.eqb c "SR" then soiling_step F ffill pi p ic st else if String.eqb c "SC" then season_step F stl index pi st else if String.eqb c "Rd" then rate_step F pi st else Ok st) = Ok s1 -> state_ok F stl index s1).
  { intros s1 Es. destruct (String.eqb c "SR"); [|destruct (String.eqb c "SC"); [|destruct (String.eqb c "Rd")]].
    - unfold soiling_step in Es. destruct (if (2 <? ic)%nat then _ else _) as [[[pce sens] pr]|e]; [|discriminate Es]. cbn [bind] in Es.
      destruct (fit_soiling F _ pce p pr) as [k|] eqn:EF; [|discriminate Es]. cbn [bind] in Es. injection Es as <-. split; [|split]; cbn [c_frame c_trend c_rate c_season]; [|assumption|assumption].
      eexists. eexists. eexists. eexists. exact EF.
    - unfold season_step in Es. destruct (fit_season F _) as [[sm tr]|]; [|discriminate Es]. cbn [bind] in Es. destruct (force_periodicity _ _) as [o|] eqn:EP; [|discriminate Es]. cbn [bind] in Es.
      apply periodic_seasonal in EP. destruct stl; [destruct (fit_rate F _); [|discriminate Es]; cbn [bind] in Es|]; injection Es as <-; (split; [|split]); cbn [c_frame c_trend c_rate c_season]; try assumption. discriminate.
    - unfold rate_step in Es. destruct (fit_rate F _) as [rate|]; [|discriminate Es]. cbn [bind] in Es. injection Es as <-. split; [|split]; cbn [c_frame c_trend c_rate c_season]; try assumption.
      intros _. rewrite LI. apply linear_trend_ok.
    - injection Es as <-. split; [|split]; assumption. }
  destruct (if String.eqb c "SR" then _ else _) as [s1|]; [|discriminate E]. cbn [bind] in E. injection E as <- _. destruct (K s1 eq_refl) as (K1 & K2 & K3).
  unfold recombine. cbn [fst]. split; [|split]; cbn [c_frame c_trend c_rate c_season]; assumption.
Qed.

Lemma decompose_output : forall F adf order stl max sens crit prune sig ffill s d,
  snd (decompose F adf order stl max sens crit prune (Fin sig) ffill s) = Ok d ->
  let pi := vals s in
  (exists input pce perfect pruning k, fit_soiling F input pce perfect pruning = Ok k /\ o_ratio d = k_ratio k /\ o_rates d = k_rates k /\ o_events d = k_events k) /\
  (stl = false -> linear (List.length s) (o_trend d) (o_rate d)) /\ seasonal (times s) (o_season d) /\
  composed pi (o_ratio d) (o_season d) (o_trend d) (o_total d) (o_residuals d) (o_shift d) /\
  adf (dropna (o_residuals d)) = Ok (o_adf d) /\
  (noinf (o_ratio d) -> finvals (o_ratio d) <> [] -> exists m, mean_of (o_ratio d) m /\ o_loss d = Fin (qz 100 * (1 - m))) /\
  (noinf pi -> noinf (o_total d) -> exists x, o_rmse d = fit_root F x /\ mean_square pi (o_total d) x) /\
  (noinf (o_ratio d) -> finvals (o_ratio d) <> [] -> noinf (o_residuals d) -> finvals (o_residuals d) <> [] ->
     exists lo hi lo' hi', is_percentile (qz 10) (finvals (o_ratio d)) lo /\ is_percentile (qz 90) (finvals (o_ratio d)) hi /\
       is_percentile (qz 10) (finvals (o_residuals d)) lo' /\ is_percentile (qz 90) (finvals (o_residuals d)) hi' /\ lo' < hi' /\
       (o_small d = true <-> hi - lo < sig * (hi' - lo'))).
Proof.
  intros F adf order stl max sens crit prune sig ffill s d E pi.
  destruct (decompose F adf order stl max sens crit prune (Fin sig) ffill s) as [fitted r] eqn:ED. cbn [snd] in E. subst r.
  destruct (decompose_spec _ _ _ _ _ _ _ _ _ _ _ _ _ ED) as [(_ & _ & C)|[(_ & e & _ & _ & C)|(I & pce & errors & last & _ & R & C)]]; try discriminate C.
  destruct last as [st|e]; [|discriminate C]. cbn [bind] in C. destruct R as ((rest & _ & CO) & _).
  assert (LI : List.length (vals s) = List.length (times s)) by (unfold vals, times; rewrite !map_length; reflexivity).
  assert (LS : List.length (times s) = List.length s) by (unfold times; apply map_length).
  assert (LO : List.length (ones (vals s)) = List.length (times s)) by (unfold ones; rewrite map_length; exact LI).
  assert (IN : forall i, (i < List.length s)%nat -> nth_error (ones (vals s)) i = Some (fz 1)).
  { intros i Hi. unfold ones. rewrite nth_error_map_some. destruct (nth_error (vals s) i) eqn:En; [reflexivity|]. apply nth_error_None in En. rewrite LI, LS in En. lia. }
  assert (S0 : state_ok F stl (times s) st).
  { eapply (carried_inv _ _ (state_ok F stl (times s))); [|exact CO| |reflexivity].
    - intros c p ic st1 st2 x HP HS. eapply step_ok; [exact LI|exact HP|exact HS].
    - split; [exact Logic.I|]. cbn [c_trend c_rate c_season]. split.
      + intros _. split; [exact LO|]. intros r Er i Hi. injection Er as <-. rewrite LS in Hi. unfold value_at. rewrite (IN i Hi). unfold fz. do 2 f_equal. change (qz 1) with 1. change (qz 0) with 0. unfold Qcdiv. ring.
      + split; [exact LO|]. intros i j t u A B _. rewrite !IN; [reflexivity| |]; rewrite <- LS; apply nth_error_Some; congruence. }
  destruct S0 as (S1 & S2 & S3).
  destruct (finish_ok _ _ _ _ _ _ (eq_sym C)) as ((k & K1 & K2 & K3 & K4) & A1 & A2 & A3 & A4). rewrite A1, A2, A3 in *. rewrite K1 in S1. destruct S1 as (i1 & i2 & i3 & i4 & S1).
  split; [exists i1, i2, i3, i4, k; auto|]. split; [rewrite LS in S2; exact S2|]. split; [exact S3|exact A4].
Qed.
