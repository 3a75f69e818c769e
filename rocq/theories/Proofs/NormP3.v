(** Lemmas about irradiance_rescale. *)

From Coq Require Import QArith Qcanon List ZArith Bool Sorted Lia.
From Verif.Base Require Import QcExtra ISort Quantile Fl TimeSeries Calendar Rolling Segments.
From Verif.Spec Require Import Stats Interp Energy Filters Normalization.
From Verif.Model Require Import Interpolation Energy Filters Normalization.
From Verif.Proofs Require Import StatsP FlP InterpP EnergyP EnergyP6 FiltersP NormP NormP2.
Import ListNotations.
Open Scope Qc_scope.

(** ** The loop *)

Section Loop.
  Variable optimise : (fl -> fl) -> fl -> fl.
  Variable rows : list (fl * fl).
  Variable thr : fl.
  Definition next_factor (f : fl) : fl := optimise (mean_square (clear_rows f rows)) f.

  Lemma loop_step : forall n f prev, rescale_loop optimise rows thr n f prev =
    if fgt (fabs (fsub f prev)) thr then
      match n with O => Raise ConvergenceError | S n => rescale_loop optimise rows thr n (next_factor f) f end
    else Ok f.
  Proof. intros [| n] f prev; reflexivity. Qed.

  Lemma loop_ok : forall n f prev g, rescale_loop optimise rows thr n f prev = Ok g <->
    exists fs l p, tried next_factor thr prev f fs /\ (length fs <= n)%nat /\
      prev :: f :: fs = l ++ [p; g] /\ ~ far thr g p.
  Proof.
    assert (forall fs prev f l p g, tried next_factor thr prev f fs -> prev :: f :: fs = l ++ [p; g] ->
      ~ far thr g p -> (fs = [] /\ l = [] /\ p = prev /\ g = f) \/
      (exists fs' l', fs = next_factor f :: fs' /\ l = prev :: l' /\ far thr f prev /\
         tried next_factor thr f (next_factor f) fs' /\ f :: next_factor f :: fs' = l' ++ [p; g])) as K.
    { intros fs prev f l p g HT HE HN. inversion HT; subst.
      - destruct l as [| x [| y [| z l]]]; try discriminate. left. injection HE as -> ->. auto.
      - right. exists fs0. destruct l as [| x l]; [destruct fs0; discriminate |].
        injection HE as -> HE. exists l. auto. }
    induction n as [| n IH]; intros f prev g; rewrite loop_step.
    - destruct (fgt _ thr) eqn:E; split.
      + discriminate.
      + intros (fs & l & p & HT & HL & HE & HN). destruct fs; [| cbn in HL; lia].
        destruct (K _ _ _ _ _ _ HT HE HN) as [(_ & _ & -> & ->) | (fs' & l' & X & _)]; [| discriminate].
        elim HN. exact E.
      + intros H. injection H as <-. exists [], [], prev. split; [constructor |]. split; [cbn; lia |]. split; [reflexivity |].
        unfold far. rewrite E. discriminate.
      + intros (fs & l & p & HT & HL & HE & HN). destruct fs; [| cbn in HL; lia].
        destruct (K _ _ _ _ _ _ HT HE HN) as [(_ & _ & -> & ->) | (fs' & l' & X & _)]; [| discriminate]. reflexivity.
    - destruct (fgt _ thr) eqn:E; split.
      + intros H. apply IH in H. destruct H as (fs & l & p & HT & HL & HE & HN).
        exists (next_factor f :: fs), (prev :: l), p. split; [constructor; assumption |]. split; [cbn; lia |].
        split; [cbn [app]; rewrite HE; reflexivity | exact HN].
      + intros (fs & l & p & HT & HL & HE & HN). apply IH.
        destruct (K _ _ _ _ _ _ HT HE HN) as [(_ & _ & -> & ->) | (fs' & l' & -> & -> & _ & HT' & HE')]; [elim HN; exact E |].
        exists fs', l', p. cbn [length] in HL. split; [exact HT' |]. split; [lia |]. auto.
      + intros H. injection H as <-. exists [], [], prev. split; [constructor |]. split; [cbn; lia |]. split; [reflexivity |].
        unfold far. rewrite E. discriminate.
      + intros (fs & l & p & HT & HL & HE & HN).
        destruct (K _ _ _ _ _ _ HT HE HN) as [(_ & _ & -> & ->) | (fs' & l' & _ & _ & F & _)]; [reflexivity |].
        unfold far in F. congruence.
  Qed.

  Lemma loop_raise : forall n f prev e, rescale_loop optimise rows thr n f prev = Raise e <->
    e = ConvergenceError /\
    exists fs l p g, tried next_factor thr prev f fs /\ length fs = n /\
      prev :: f :: fs = l ++ [p; g] /\ far thr g p.
  Proof.
    induction n as [| n IH]; intros f prev e; rewrite loop_step.
    - destruct (fgt _ thr) eqn:E; split.
      + intros H. injection H as <-. split; [reflexivity |]. exists [], [], prev, f.
        split; [constructor |]. repeat split. exact E.
      + intros [-> _]. reflexivity.
      + discriminate.
      + intros (_ & fs & l & p & g & HT & HL & HE & HF). destruct fs; [| discriminate].
        destruct l as [| x [| y [| z l]]]; try discriminate. injection HE as -> ->.
        unfold far in HF. congruence.
    - destruct (fgt _ thr) eqn:E; split.
      + intros H. apply IH in H. destruct H as (-> & fs & l & p & g & HT & HL & HE & HF). split; [reflexivity |].
        exists (next_factor f :: fs), (prev :: l), p, g. split; [constructor; assumption |]. split; [cbn; lia |].
        split; [cbn [app]; rewrite HE; reflexivity | exact HF].
      + intros (-> & fs & l & p & g & HT & HL & HE & HF). apply IH. split; [reflexivity |].
        inversion HT; subst; [discriminate |]. exists fs0. destruct l as [| x l]; [destruct fs0; discriminate |].
        injection HE as -> HE. exists l, p, g. split; [assumption |]. split; [cbn in HL; lia | auto].
      + discriminate.
      + intros (_ & fs & l & p & g & HT & HL & HE & HF). inversion HT; subst; [discriminate |].
        match goal with H : far thr f prev |- _ => unfold far in H end. congruence.
  Qed.
End Loop.

(** ** The whole function *)

Lemma percentile90_value : forall s a, noinf (vals s) -> is_percentile (qz 90) (finvals (vals s)) a ->
  percentile90 s = Ok (Fin a).
Proof.
  intros s a HI HP. unfold percentile90. rewrite dropna_noinf by exact HI.
  assert (finvals (vals s) <> []) as Hne.
  { destruct HP as (l & k & t & [HA _] & _ & _ & _ & HK & _). intros E. rewrite E in HA.
    apply Permutation.Permutation_nil in HA. subst l. cbn in HK. lia. }
  destruct (finvals (vals s)) as [| x l] eqn:E; [congruence |].
  change (match map Fin (x :: l) with [] => Raise IndexError | l => np_percentile (qz 90) l end)
    with (np_percentile (qz 90) (map Fin (x :: l))).
  rewrite np_percentile_fin by discriminate. do 2 f_equal.
  symmetry. apply (is_percentile_unique (qz 90) (x :: l)); [discriminate | discriminate | discriminate | exact HP].
Qed.

Lemma rescale_iterative : forall optimise irrad sim n thr a b,
  noinf (vals irrad) -> noinf (vals sim) ->
  is_percentile (qz 90) (finvals (vals irrad)) a -> is_percentile (qz 90) (finvals (vals sim)) b ->
  let start := fdiv (Fin a) (Fin b) in
  let next f := optimise (mean_square (clear_rows f (pairs_of irrad sim))) f in
  (forall out, irradiance_rescale optimise irrad sim n Iterative thr = Ok out <->
     exists fs l p g, tried next thr (Fin 1) start fs /\ (length fs <= n)%nat /\
       Fin 1 :: start :: fs = l ++ [p; g] /\ ~ far thr g p /\ out = on_values (fmul g) sim) /\
  (forall e, irradiance_rescale optimise irrad sim n Iterative thr = Raise e <->
     e = ConvergenceError /\
     exists fs l p g, tried next thr (Fin 1) start fs /\ length fs = n /\
       Fin 1 :: start :: fs = l ++ [p; g] /\ far thr g p).
Proof.
  intros optimise irrad sim n thr a b Hi Hs Pa Pb start next.
  assert (irradiance_rescale optimise irrad sim n Iterative thr =
    bind (rescale_loop optimise (pairs_of irrad sim) thr n start (Fin 1)) (fun g => Ok (on_values (fmul g) sim))) as ->.
  { unfold irradiance_rescale, first_guess. rewrite (percentile90_value irrad a Hi Pa), (percentile90_value sim b Hs Pb). reflexivity. }
  split.
  - intros out. destruct (rescale_loop _ _ _ _ _ _) as [g0 | e] eqn:E; cbn [bind]; split.
    + intros H. apply loop_ok in E. destruct E as (fs & l & p & HT & HL & HE & HN).
      exists fs, l, p, g0. split; [exact HT |]. split; [exact HL |]. split; [exact HE |]. split; [exact HN |]. congruence.
    + intros (fs & l & p & g & HT & HL & HE & HN & ->).
      assert (rescale_loop optimise (pairs_of irrad sim) thr n start (Fin 1) = Ok g) as X.
      { apply loop_ok. exists fs, l, p. auto. }
      congruence.
    + discriminate.
    + intros (fs & l & p & g & HT & HL & HE & HN & ->).
      assert (rescale_loop optimise (pairs_of irrad sim) thr n start (Fin 1) = Ok g) as X.
      { apply loop_ok. exists fs, l, p. auto. }
      congruence.
  - intros e. pose proof (loop_raise optimise (pairs_of irrad sim) thr n start (Fin 1) e) as X.
    eapply iff_trans; [| exact X]. clear X.
    destruct (rescale_loop _ _ _ _ _ _) as [g0 | e0]; cbn [bind]; split; intros H; congruence.
Qed.

Lemma rescale_no_step : forall optimise irrad sim n thr a b,
  noinf (vals irrad) -> noinf (vals sim) ->
  is_percentile (qz 90) (finvals (vals irrad)) a -> is_percentile (qz 90) (finvals (vals sim)) b ->
  ~ far thr (fdiv (Fin a) (Fin b)) (Fin 1) ->
  irradiance_rescale optimise irrad sim n Iterative thr = Ok (on_values (fmul (fdiv (Fin a) (Fin b))) sim).
Proof.
  intros optimise irrad sim n thr a b Hi Hs Pa Pb HF.
  apply (rescale_iterative optimise irrad sim n thr a b Hi Hs Pa Pb).
  exists [], [], (Fin 1), (fdiv (Fin a) (Fin b)). split; [constructor |]. split; [cbn; lia |]. auto.
Qed.

Lemma rescale_single : forall optimise irrad sim n thr a b,
  noinf (vals irrad) -> noinf (vals sim) ->
  is_percentile (qz 90) (finvals (vals irrad)) a -> is_percentile (qz 90) (finvals (vals sim)) b ->
  irradiance_rescale optimise irrad sim n SingleOpt thr =
  Ok (on_values (fmul (optimise (mean_square_single (pairs_of irrad sim)) (fdiv (Fin a) (Fin b)))) sim).
Proof.
  intros optimise irrad sim n thr a b Hi Hs Pa Pb. unfold irradiance_rescale, first_guess.
  rewrite (percentile90_value irrad a Hi Pa), (percentile90_value sim b Hs Pb). reflexivity.
Qed.

Lemma rescale_other : forall optimise irrad sim n thr,
  irradiance_rescale optimise irrad sim n OtherMethod thr = Raise ValueError.
Proof. reflexivity. Qed.

Lemma rescale_no_data : forall optimise irrad sim n m thr, m <> OtherMethod ->
  (forall t v, In (t, v) irrad -> v = NaN) \/ (forall t v, In (t, v) sim -> v = NaN) ->
  noinf (vals irrad) ->
  irradiance_rescale optimise irrad sim n m thr = Raise IndexError.
Proof.
  intros optimise irrad sim n m thr Hm HD HI.
  assert (forall s, (forall t v, In (t, v) s -> v = NaN) -> percentile90 s = Raise IndexError) as K.
  { intros s Hs. unfold percentile90. assert (dropna (vals s) = []) as ->; [| reflexivity].
    induction s as [| [t v] s IH]; [reflexivity |]. rewrite (Hs t v) by (left; reflexivity).
    apply IH. intros t' v' H'. apply (Hs t'). right. exact H'. }
  assert (first_guess irrad sim = Raise IndexError) as E.
  { unfold first_guess. destruct HD as [HD | HD]; [rewrite (K irrad HD); reflexivity |]. rewrite (K sim HD).
    unfold percentile90. rewrite dropna_noinf by exact HI. destruct (finvals (vals irrad)) as [| x l]; [reflexivity |].
    change (match map Fin (x :: l) with [] => Raise IndexError | l => np_percentile (qz 90) l end)
      with (np_percentile (qz 90) (map Fin (x :: l))).
    rewrite np_percentile_fin by discriminate. reflexivity. }
  unfold irradiance_rescale. destruct m; [rewrite E; reflexivity | rewrite E; reflexivity | congruence].
Qed.

(** ** The objective *)

Definition fins (p : Qc * Qc) : fl * fl := (Fin (fst p), Fin (snd p)).

Lemma filter_picked : forall (f : fl * fl -> bool) (P : Qc -> Qc -> Prop) rows ps,
  (forall r, In r rows -> (f r = true <-> exists i s, r = (Fin i, Fin s) /\ P i s)) ->
  picked P rows ps -> filter f rows = map fins ps.
Proof.
  intros f P rows ps Hf HP. induction HP as [| i s rows ps Hp HP IH | r rows ps Hr HP IH].
  - reflexivity.
  - cbn [filter map]. assert (f (Fin i, Fin s) = true) as -> by (apply Hf; [left; reflexivity | eauto]).
    rewrite IH by (intros r Hr; apply Hf; right; exact Hr). reflexivity.
  - cbn [filter]. assert (f r = false) as ->.
    { destruct (f r) eqn:E; [| reflexivity]. apply Hf in E; [| left; reflexivity].
      destruct E as (i & s & E & Hp). elim (Hr i s E Hp). }
    apply IH. intros r' Hr'. apply Hf. right. exact Hr'.
Qed.

Definition rows_noinf (rows : list (fl * fl)) : Prop :=
  forall p q, In (p, q) rows -> (p = NaN \/ exists x, p = Fin x) /\ (q = NaN \/ exists x, q = Fin x).

Lemma csi_ok_iff : forall g p q, (p = NaN \/ exists x, p = Fin x) -> (q = NaN \/ exists x, q = Fin x) ->
  (csi_ok (Fin g) (p, q) = true <-> exists i s, (p, q) = (Fin i, Fin s) /\ near_at g i s).
Proof.
  intros g p q Hp Hq. unfold csi_ok, csi_of. cbn [fst snd].
  destruct Hp as [-> | [i ->]].
  { cbn. split; [discriminate |]. intros (i & s & E & _). discriminate. }
  destruct Hq as [-> | [s ->]].
  { cbn. split; [discriminate |]. intros (i' & s & E & _). discriminate. }
  cbn [fmul fdiv]. destruct (qeq (g * s) 0) eqn:E.
  - split.
    + unfold inf_sgn. destruct (qlt 0 i); [| destruct (qlt i 0)]; unfold fge; cbn; try discriminate.
    + intros (i' & s' & E' & N & _). apply qeq_spec in E. injection E' as <- <-. elim (N E).
  - apply qeq_false in E. unfold fge, ff. cbn [fle]. rewrite andb_true_iff, !qle_spec. split.
    + intros [A B]. exists i, s. split; [reflexivity |]. split; auto.
    + intros (i' & s' & E' & _ & A & B). injection E' as <- <-. auto.
Qed.

Lemma mean_square_value : forall ps x, ps <> [] -> mean_square (map fins ps) (Fin x) = Fin (mean_sq ps x).
Proof.
  intros ps x Hne. unfold mean_square. rewrite map_map.
  set (f := fun p : Qc * Qc => (x * snd p - fst p) * (x * snd p - fst p)).
  erewrite map_ext; [| intros p; exact (eq_refl (Fin (f p)))]. rewrite <- map_map.
  rewrite fmean_noinf.
  - rewrite finvals_map_Fin. unfold mean_sq, qlen. rewrite map_length. reflexivity.
  - intros y Hy. apply in_map_iff in Hy. destruct Hy as (z & <- & _). split; discriminate.
  - rewrite finvals_map_Fin. destruct ps; [congruence | discriminate].
Qed.

Lemma mean_square_empty : forall x, mean_square [] x = NaN.
Proof. reflexivity. Qed.

Lemma objective_iterative : forall g rows ps x, rows_noinf rows -> picked (clear_at g) rows ps ->
  mean_square (clear_rows (Fin g) rows) (Fin x) = match ps with [] => NaN | _ => Fin (mean_sq ps x) end.
Proof.
  intros g rows ps x HR HP. unfold clear_rows. rewrite (filter_picked _ (clear_at g) rows ps).
  - destruct ps as [| p ps]; [reflexivity |]. apply mean_square_value. discriminate.
  - intros [p q] Hin. destruct (HR p q Hin) as [Hp Hq]. cbn [fst]. rewrite andb_true_iff, (csi_ok_iff g p q Hp Hq). split.
    + intros [(i & s & E & N) F]. exists i, s. split; [exact E |]. split; [exact N |]. injection E as -> ->.
      unfold fgt, fz in F. cbn in F. apply qlt_spec in F. exact F.
    + intros (i & s & E & N & F). split; [eauto |]. injection E as -> ->. unfold fgt, fz. cbn. apply qlt_spec, F.
  - exact HP.
Qed.

Lemma objective_single : forall rows ps x, rows_noinf rows -> picked (near_at x) rows ps ->
  mean_square_single rows (Fin x) = match ps with [] => NaN | _ => Fin (mean_sq ps x) end.
Proof.
  intros rows ps x HR HP. unfold mean_square_single. rewrite (filter_picked _ (near_at x) rows ps).
  - destruct ps as [| p ps]; [reflexivity |]. apply mean_square_value. discriminate.
  - intros [p q] Hin. destruct (HR p q Hin) as [Hp Hq]. apply csi_ok_iff; assumption.
  - exact HP.
Qed.

Lemma pairs_rows : forall irrad sim, NoDup (times irrad) -> NoDup (times sim) -> noinf (vals irrad) -> noinf (vals sim) ->
  rows_noinf (pairs_of irrad sim) /\
  (forall p q, In (p, q) (pairs_of irrad sim) <->
     exists t, (In t (times irrad) \/ In t (times sim)) /\ value_at irrad t p /\ value_at sim t q).
Proof.
  intros irrad sim Ni Ns Ii Is.
  assert (forall p q, In (p, q) (pairs_of irrad sim) <->
     exists t, (In t (times irrad) \/ In t (times sim)) /\ value_at irrad t p /\ value_at sim t q) as K.
  { intros p q. unfold pairs_of. rewrite in_map_iff. split.
    - intros ([t [p' q']] & E & H). cbn [snd] in E. injection E as -> ->. exists t. apply align_values in H; auto.
    - intros (t & H). exists (t, (p, q)). split; [reflexivity |]. apply align_values; auto. }
  split; [| exact K]. intros p q H. apply K in H. destruct H as (t & _ & Hp & Hq).
  split; [exact (value_noinf _ _ _ Ii Hp) | exact (value_noinf _ _ _ Is Hq)].
Qed.

Lemma picked_exists : forall (P : Qc -> Qc -> Prop) rows, (forall i s, P i s \/ ~ P i s) -> exists ps, picked P rows ps.
Proof.
  intros P rows HD. induction rows as [| [p q] rows [ps IH]]; [exists []; constructor |].
  destruct p as [| | i |]; try (exists ps; apply picked_skip; [intros i' s' E; discriminate | exact IH]).
  destruct q as [| | s |]; try (exists ps; apply picked_skip; [intros i' s' E; discriminate | exact IH]).
  destruct (HD i s) as [H | H].
  - exists ((i, s) :: ps). apply picked_keep; assumption.
  - exists ps. apply picked_skip; [| exact IH]. intros i' s' E. injection E as <- <-. exact H.
Qed.

Lemma clear_at_dec : forall g i s, clear_at g i s \/ ~ clear_at g i s.
Proof.
  intros g i s. unfold clear_at, near_at.
  destruct (qeq (g * s) 0) eqn:E0; [apply qeq_spec in E0; right; tauto | apply qeq_false in E0].
  destruct (qle (qf 8 10) (i / (g * s))) eqn:E1; [apply qle_spec in E1 | right; intros [(_ & A & _) _]; apply qle_spec in A; congruence].
  destruct (qle (i / (g * s)) (qf 12 10)) eqn:E2; [apply qle_spec in E2 | right; intros [(_ & _ & A) _]; apply qle_spec in A; congruence].
  destruct (qlt (qz 200) i) eqn:E3; [apply qlt_spec in E3; left; auto | right; intros [_ A]; apply qlt_spec in A; congruence].
Qed.

(** ** Least squares *)

Definition sum_ss (ps : list (Qc * Qc)) : Qc := qsum (map (fun p => snd p * snd p) ps).
Definition sum_si (ps : list (Qc * Qc)) : Qc := qsum (map (fun p => snd p * fst p) ps).
Definition sum_ii (ps : list (Qc * Qc)) : Qc := qsum (map (fun p => fst p * fst p) ps).

Lemma mean_sq_expand : forall ps x, ps <> [] ->
  mean_sq ps x * qz (Z.of_nat (length ps)) = x * x * sum_ss ps - (1 + 1) * x * sum_si ps + sum_ii ps.
Proof.
  intros ps x Hne. unfold mean_sq. rewrite Qc_div_mul.
  - clear Hne. unfold sum_ss, sum_si, sum_ii. induction ps as [| [i s] ps IH]; cbn [map fst snd]; rewrite ?qsum_nil, ?qsum_cons; [ring |].
    rewrite IH. ring.
  - apply qz_neq0. destruct ps; [congruence | cbn; lia].
Qed.

Lemma square_nonneg : forall x : Qc, 0 <= x * x.
Proof. intros x. qnra. Qed.

Lemma least_squares : forall ps x, ps <> [] -> 0 < sum_ss ps -> (forall y, mean_sq ps x <= mean_sq ps y) ->
  x * sum_ss ps = sum_si ps.
Proof.
  intros ps x Hne HS HM. set (n := qz (Z.of_nat (length ps))).
  assert (0 < n) as Hn by (apply qz_pos; destruct ps; [congruence | cbn; lia]).
  set (y := sum_si ps / sum_ss ps). assert (y * sum_ss ps = sum_si ps) as HY by (apply Qc_div_mul, Qc_pos_neq, HS).
  assert (mean_sq ps x * n <= mean_sq ps y * n) as H by (apply Qcmult_le_compat_r; [apply HM | apply Qclt_le_weak, Hn]).
  unfold n in H. rewrite !mean_sq_expand in H by exact Hne. rewrite <- HY in *.
  assert ((x - y) * (x - y) * sum_ss ps <= 0) as K by (set (S := sum_ss ps) in *; qlra || qnra).
  assert (x = y) as ->; [| reflexivity].
  destruct (qeq (x - y) 0) eqn:E; [apply qeq_spec in E; rewrite <- (Qcplus_0_r y), <- E; ring | apply qeq_false in E].
  exfalso. assert (0 < (x - y) * (x - y)) as P.
  { assert (0 <= (x - y) * (x - y)) as N0 by apply square_nonneg. apply Qcle_lt_or_eq in N0. destruct N0 as [N0 | N0]; [exact N0 |].
    symmetry in N0. apply Qcmult_integral in N0. tauto. }
  assert (0 < (x - y) * (x - y) * sum_ss ps) as P2 by (apply Qc_mul_pos; assumption).
  apply (Qclt_not_le _ _ P2 K).
Qed.

Lemma picked_all : forall P rows ps p, picked P rows ps -> In p ps -> P (fst p) (snd p) /\ In (Fin (fst p), Fin (snd p)) rows.
Proof.
  intros P rows ps p HP. induction HP as [| i s rows ps Hp HP IH | r rows ps Hr HP IH]; intros Hin.
  - destruct Hin.
  - destruct Hin as [<- | Hin]; [cbn; auto |]. destruct (IH Hin). auto with datatypes.
  - destruct (IH Hin). auto with datatypes.
Qed.

Lemma clear_bounds : forall g i s, 0 < g -> clear_at g i s -> 0 < s /\ qf 8 10 * g * s <= i /\ i <= qf 12 10 * g * s.
Proof.
  intros g i s Hg [(N & A & B) C].
  assert (0 < g * s) as P.
  { destruct (qlt 0 (g * s)) eqn:E; [apply qlt_spec, E |]. apply qlt_false in E. exfalso.
    apply Qcle_lt_or_eq in E. destruct E as [E | E]; [| congruence].
    assert (i = i / (g * s) * (g * s)) as EI by (symmetry; apply Qc_div_mul, N).
    set (r := i / (g * s)) in *. set (u := g * s) in *. assert (0 < r) by (assert (0 < qf 8 10) by reflexivity; qlra).
    assert (0 < qz 200) by reflexivity. assert (i <= 0) by (rewrite EI; qnra). qlra. }
  assert (0 < s) as Ps.
  { destruct (qlt 0 s) eqn:E; [apply qlt_spec, E |]. apply qlt_false in E. exfalso.
    assert (g * s <= 0) by qnra. apply (Qclt_not_le _ _ P). assumption. }
  split; [exact Ps |].
  assert (i = i / (g * s) * (g * s)) as EI by (symmetry; apply Qc_div_mul, N).
  set (r := i / (g * s)) in *. set (lo := qf 8 10) in *. set (hi := qf 12 10) in *. split; rewrite EI.
  - replace (lo * g * s) with (lo * (g * s)) by ring. apply Qcmult_le_compat_r; [exact A | apply Qclt_le_weak, P].
  - replace (hi * g * s) with (hi * (g * s)) by ring. apply Qcmult_le_compat_r; [exact B | apply Qclt_le_weak, P].
Qed.

Lemma sums_bounds : forall g ps, 0 < g -> ps <> [] -> (forall p, In p ps -> clear_at g (fst p) (snd p)) ->
  0 < sum_ss ps /\ qf 8 10 * g * sum_ss ps <= sum_si ps /\ sum_si ps <= qf 12 10 * g * sum_ss ps.
Proof.
  intros g ps Hg Hne HA.
  assert (forall qs, (forall p, In p qs -> clear_at g (fst p) (snd p)) ->
    0 <= sum_ss qs /\ qf 8 10 * g * sum_ss qs <= sum_si qs /\ sum_si qs <= qf 12 10 * g * sum_ss qs) as K.
  { induction qs as [| [i s] qs IH]; intros Hq.
    - unfold sum_ss, sum_si. cbn [map]. rewrite qsum_nil. split; [apply Qcle_refl |]. split; rewrite Qcmult_0_r; apply Qcle_refl.
    - destruct IH as (I0 & I1 & I2); [intros p Hp; apply Hq; right; exact Hp |].
      destruct (clear_bounds g i s Hg (Hq (i, s) (or_introl eq_refl))) as (Ps & B1 & B2).
      unfold sum_ss, sum_si in *. cbn [map fst snd]. rewrite !qsum_cons.
      set (SS := qsum (map (fun p => snd p * snd p) qs)) in *. set (SI := qsum (map (fun p => snd p * fst p) qs)) in *.
      set (lo := qf 8 10) in *. set (hi := qf 12 10) in *.
      assert (s * (lo * g * s) <= s * i) as C1.
      { rewrite (Qcmult_comm s (lo * g * s)), (Qcmult_comm s i). apply Qcmult_le_compat_r; [exact B1 | apply Qclt_le_weak, Ps]. }
      assert (s * i <= s * (hi * g * s)) as C2.
      { rewrite (Qcmult_comm s (hi * g * s)), (Qcmult_comm s i). apply Qcmult_le_compat_r; [exact B2 | apply Qclt_le_weak, Ps]. }
      split; [assert (0 <= s * s) by apply square_nonneg; qlra |].
      split.
      + replace (lo * g * (s * s + SS)) with (s * (lo * g * s) + lo * g * SS) by ring. qlra.
      + replace (hi * g * (s * s + SS)) with (s * (hi * g * s) + hi * g * SS) by ring. qlra. }
  destruct (K ps HA) as (K0 & K1 & K2). split; [| auto].
  destruct ps as [| [i s] ps]; [congruence |].
  destruct (clear_bounds g i s Hg (HA (i, s) (or_introl eq_refl))) as (Ps & _).
  destruct (K ps) as (K3 & _); [intros p Hp; apply HA; right; exact Hp |].
  unfold sum_ss in *. cbn [map fst snd]. rewrite qsum_cons. assert (0 < s * s) by (apply Qc_mul_pos; assumption). qlra.
Qed.

Lemma next_least_squares : forall optimise g irrad sim,
  NoDup (times irrad) -> NoDup (times sim) -> noinf (vals irrad) -> noinf (vals sim) -> 0 < g ->
  forall ps, picked (clear_at g) (pairs_of irrad sim) ps -> ps <> [] ->
  let objective := mean_square (clear_rows (Fin g) (pairs_of irrad sim)) in
  minimises optimise objective (Fin g) ->
  exists x, optimise objective (Fin g) = Fin x /\
    x * qsum (map (fun p => snd p * snd p) ps) = qsum (map (fun p => snd p * fst p) ps) /\
    qf 8 10 * g <= x /\ x <= qf 12 10 * g.
Proof.
  intros optimise g irrad sim Ni Ns Ii Is Hg ps HP Hne objective (x & Ex & HM).
  destruct (pairs_rows irrad sim Ni Ns Ii Is) as [HR _].
  assert (forall y, objective (Fin y) = Fin (mean_sq ps y)) as HO.
  { intros y. unfold objective. rewrite (objective_iterative g _ ps y HR HP). destruct ps; [congruence | reflexivity]. }
  destruct (sums_bounds g ps Hg Hne) as (B0 & B1 & B2); [intros p Hp; apply (picked_all _ _ _ _ HP Hp) |].
  assert (x * sum_ss ps = sum_si ps) as HX.
  { apply least_squares; auto. intros y. specialize (HM y). rewrite !HO in HM. cbn [fle] in HM. apply qle_spec, HM. }
  exists x. split; [exact Ex |]. split; [exact HX |]. rewrite <- HX in B1, B2. split.
  - apply Qcmult_lt_0_le_reg_r with (sum_ss ps); assumption.
  - apply Qcmult_lt_0_le_reg_r with (sum_ss ps); assumption.
Qed.

(** ** Proportional series *)

Lemma picked_in : forall (P : Qc -> Qc -> Prop) rows ps i s, picked P rows ps -> In (Fin i, Fin s) rows -> P i s -> In (i, s) ps.
Proof.
  intros P rows ps i s HP. induction HP as [| i' s' rows ps Hp HP IH | r rows ps Hr HP IH]; intros Hin Hi.
  - destruct Hin.
  - destruct Hin as [E | Hin]; [injection E as -> ->; left; reflexivity | right; auto].
  - destruct Hin as [E | Hin]; [elim (Hr i s E Hi) | auto].
Qed.

Lemma is_percentile_scale : forall k p l v, 0 < k -> is_percentile p l v -> is_percentile p (map (fun q => k * q) l) (k * v).
Proof.
  intros k p l v Hk (s & j & t & [HP HS] & T0 & T1 & E & Hj & ->).
  assert (forall n d, nth n (map (fun q => k * q) s) (k * d) = k * nth n s d) as HN.
  { intros n d. apply (map_nth (fun q => k * q)). }
  exists (map (fun q => k * q) s), j, t. rewrite map_length. split; [split |].
  - apply Permutation.Permutation_map, HP.
  - clear - Hk HS. induction HS as [| a s HS IH HR]; cbn [map]; constructor; [exact IH |].
    destruct HR as [| b s H]; cbn [map]; constructor. rewrite (Qcmult_comm k a), (Qcmult_comm k b).
    apply Qcmult_le_compat_r; [exact H | apply Qclt_le_weak, Hk].
  - split; [exact T0 |]. split; [exact T1 |]. split; [exact E |]. split; [exact Hj |].
    assert (nth j (map (fun q => k * q) s) 0 = k * nth j s 0) as E0 by (rewrite <- HN; f_equal; ring).
    rewrite E0, HN. ring.
Qed.

Lemma finvals_map_values : forall f s, finvals (vals (map_values f s)) = map f (finvals (vals s)).
Proof.
  intros f s. induction s as [| [t v] s IH]; [reflexivity |].
  destruct v; cbn [map_values vals map fst snd finvals] in *; unfold vals, map_values in *; rewrite ?IH; reflexivity.
Qed.

Lemma noinf_map_values : forall f s, noinf (vals s) -> noinf (vals (map_values f s)).
Proof.
  intros f s H x Hx. unfold vals, map_values in Hx. rewrite map_map in Hx. apply in_map_iff in Hx. destruct Hx as ([t v] & <- & Hin).
  cbn [snd]. destruct (H v); [unfold vals; apply in_map_iff; exists (t, v); auto |]. destruct v; split; congruence.
Qed.

Lemma on_values_mul : forall k s, 0 < k -> noinf (vals s) -> on_values (fmul (Fin k)) s = map_values (fun q => k * q) s.
Proof.
  intros k s Hk HI. unfold on_values, map_values. apply map_ext_in. intros [t v] Hin. cbn [fst snd]. f_equal.
  destruct (HI v); [unfold vals; apply in_map_iff; exists (t, v); auto |]. destruct v; try congruence; reflexivity.
Qed.

Lemma rescale_proportional : forall optimise n th k sim b,
  sorted_index sim -> noinf (vals sim) -> 0 < k -> 0 <= th -> (1 <= n)%nat ->
  is_percentile (qz 90) (finvals (vals sim)) b -> b <> 0 ->
  (exists t q, In (t, Fin q) sim /\ qz 200 < k * q) ->
  minimises optimise (mean_square (clear_rows (Fin k) (pairs_of (map_values (fun q => k * q) sim) sim))) (Fin k) ->
  irradiance_rescale optimise (map_values (fun q => k * q) sim) sim n Iterative (Fin th) = Ok (map_values (fun q => k * q) sim).
Proof.
  intros optimise n th k sim b HS HI Hk Hth Hn HP Hb (t & q & Hin & Hq) HM.
  set (irrad := map_values (fun q => k * q) sim) in *.
  assert (noinf (vals irrad)) as HI' by (apply noinf_map_values, HI).
  assert (NoDup (times sim)) as Ns by (apply sorted_index_NoDup, HS).
  assert (NoDup (times irrad)) as Ni by (unfold irrad; rewrite map_values_times; exact Ns).
  assert (is_percentile (qz 90) (finvals (vals irrad)) (k * b)) as HP'.
  { unfold irrad. rewrite finvals_map_values. apply is_percentile_scale; assumption. }
  assert (fdiv (Fin (k * b)) (Fin b) = Fin k) as ES.
  { cbn [fdiv]. rewrite (proj2 (qeq_false b 0) Hb). f_equal. field. exact Hb. }
  destruct (fgt (fabs (fsub (Fin k) (Fin 1))) (Fin th)) eqn:EF.
  - destruct (pairs_rows irrad sim Ni Ns HI' HI) as [_ HR].
    assert (forall p s, In (p, s) (pairs_of irrad sim) -> p = match s with Fin s => Fin (k * s) | e => e end) as HK.
    { intros p s H. apply HR in H. destruct H as (u & _ & Hp & Hs).
      apply (value_at_unique irrad u); [exact Ni | exact Hp |].
      unfold irrad. rewrite map_values_on. apply value_at_on_values; [reflexivity |]. exists s. split; [exact Hs | reflexivity]. }
    destruct (picked_exists (clear_at k) (pairs_of irrad sim) (clear_at_dec k)) as [ps Hps].
    assert (0 < k * q) as Pq by (assert (0 < qz 200) by reflexivity; qlra).
    assert (In (k * q, q) ps) as Hps'.
    { apply (picked_in _ _ _ _ _ Hps).
      - apply HR. exists t. assert (In t (times sim)) by (apply in_map_iff; exists (t, Fin q); auto). split; [auto |].
        split; [| left; exact Hin]. left. unfold irrad, map_values. apply in_map_iff. exists (t, Fin q). auto.
      - split; [| exact Hq]. assert (k * q <> 0) as N by (apply Qc_pos_neq, Pq). split; [exact N |].
        assert (k * q / (k * q) = 1) as -> by (field; split; intros X; apply N; rewrite X; ring).
        split; discriminate. }
    destruct (next_least_squares optimise k irrad sim Ni Ns HI' HI Hk ps Hps) as (x & Ex & Hx & _);
      [intros X; rewrite X in Hps'; exact Hps' | exact HM |].
    assert (x = k) as ->.
    { destruct (sums_bounds k ps Hk) as (B0 & _);
        [intros X; rewrite X in Hps'; exact Hps' | intros p Hp; apply (picked_all _ _ _ _ Hps Hp) |].
      unfold sum_ss in B0. set (SS := qsum (map (fun p => snd p * snd p) ps)) in *.
      assert (qsum (map (fun p => snd p * fst p) ps) = k * SS) as E.
      { unfold SS. clear - Hps HK. rewrite <- qsum_map_scale. apply qsum_map_ext. intros [i s] Hp.
        destruct (picked_all _ _ _ _ Hps Hp) as [_ H]. apply HK in H. cbn [fst snd] in *. injection H as ->. ring. }
      rewrite E in Hx. assert (SS <> 0) by (apply Qc_pos_neq, B0). apply (f_equal (fun z => z / SS)) in Hx.
      assert (x * SS / SS = x) as X1 by (field; assumption). assert (k * SS / SS = k) as X2 by (field; assumption). congruence. }
    apply (rescale_iterative optimise irrad sim n (Fin th) (k * b) b HI' HI HP' HP). rewrite ES.
    exists [Fin k], [Fin 1], (Fin k), (Fin k). split.
    { pose proof (tried_more (fun f => optimise (mean_square (clear_rows f (pairs_of irrad sim))) f) (Fin th)
                    (Fin 1) (Fin k) [] EF (tried_stop _ _ _ _)) as X.
      cbv beta in X. rewrite Ex in X. exact X. }
    split; [cbn; lia |]. split; [reflexivity |]. split.
    + unfold far. cbn [fsub fneg fadd fabs]. unfold fgt. cbn [flt]. replace (k + - k) with 0 by ring.
      intros X. apply qlt_spec in X. assert (qabs 0 = 0) as E0 by reflexivity. rewrite E0 in X. apply (Qclt_not_le _ _ X Hth).
    + symmetry. apply on_values_mul; assumption.
  - rewrite (rescale_no_step optimise irrad sim n (Fin th) (k * b) b HI' HI HP' HP).
    + rewrite ES. f_equal. apply on_values_mul; assumption.
    + rewrite ES. unfold far. rewrite EF. discriminate.
Qed.
