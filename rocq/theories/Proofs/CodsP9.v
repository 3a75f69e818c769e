(** Proofs about the CODS bootstrap. *)

From Coq Require Import QArith Qcanon List ZArith Bool Arith Lia String.
From Verif.Base Require Import QcExtra ISort Quantile Fl TimeSeries Calendar Rolling.
From Verif.Spec Require Import Stats Soiling Cods Seasonal CodsRun CodsBoot.
From Verif.Model Require Import Soiling CodsTools CodsKalman Cods.
From Verif.Proofs Require Import FlP StatsP FiltersP FiltersP2 SoilP2 CodsP CodsP3 CodsP4 CodsP5 CodsP6 CodsP7 CodsP8.
Import ListNotations.
Open Scope list_scope.
Open Scope Qc_scope.

(** ** Repetitions and combinations *)

Lemma rounded_spec : forall reps, next_multiple 16 reps (rounded_reps reps).
Proof.
  intros reps. unfold next_multiple, rounded_reps. pose proof (Nat.div_mod reps 16 ltac:(lia)) as D. pose proof (Nat.mod_upper_bound reps 16 ltac:(lia)) as U.
  destruct (Nat.eqb_spec (reps mod 16) 0) as [E|E].
  - split; [exists (reps / 16)%nat; lia|]. lia.
  - split; [exists (S (reps / 16)); lia|]. lia.
Qed.
Lemma next_multiple_unique : forall m n r r', (0 < m)%nat -> next_multiple m n r -> next_multiple m n r' -> r = r'.
Proof.
  intros m n r r' M ((k & ->) & A1 & A2) ((k' & ->) & B1 & B2). assert (k = k') as ->; [|reflexivity].
  destruct (Nat.lt_trichotomy k k') as [L|[L|L]]; [|exact L|]; exfalso.
  - assert (m * S k <= m * k')%nat by (apply Nat.mul_le_mono_l; lia). lia.
  - assert (m * S k' <= m * k)%nat by (apply Nat.mul_le_mono_l; lia). lia.
Qed.

Lemma combinations_spec : forall orders sens prune fill,
  match combinations orders sens prune fill with
  | Ok l => (2 <= List.length orders)%nat /\ (2 <= List.length sens)%nat /\ (2 <= List.length prune)%nat /\ (2 <= List.length fill)%nat /\
            l = all_choices (firstn 2 orders) (firstn 2 sens) (firstn 2 prune) (firstn 2 fill)
  | Raise e => e = IndexError /\ (List.length orders < 2 \/ List.length sens < 2 \/ List.length prune < 2 \/ List.length fill < 2)%nat
  end.
Proof.
  intros [|o0 [|o1 os]] [|a0 [|a1 sa]] [|b0 [|b1 bs]] [|c0 [|c1 cs]];
    try (cbn; split; [reflexivity|lia]; fail).
  change (2 <= 2 + List.length os /\ 2 <= 2 + List.length sa /\ 2 <= 2 + List.length bs /\ 2 <= 2 + List.length cs /\ all_choices [o0; o1] [a0; a1] [b0; b1] [c0; c1] = all_choices [o0; o1] [a0; a1] [b0; b1] [c0; c1])%nat.
  repeat (split; [lia|]). reflexivity.
Qed.
Lemma all_choices_length : forall A B C D (la : list A) (lb : list B) (lc : list C) (ld : list D),
  List.length (all_choices la lb lc ld) = (List.length la * (List.length lb * (List.length lc * List.length ld)))%nat.
Proof.
  assert (FM : forall A B (f : A -> list B) k l, (forall x, List.length (f x) = k) -> List.length (flat_map f l) = (List.length l * k)%nat).
  { intros A B f k l H. induction l as [|x l IH]; cbn; [reflexivity|]. rewrite app_length, H, IH. reflexivity. }
  intros. unfold all_choices. apply FM. intros a. apply FM. intros b. apply FM. intros c. apply map_length.
Qed.

Lemma initial_spec : forall fit l fitted, initial_fits fit l = Ok fitted ->
  exists used, Forall2 (fun c d => fit c = Ok d) used fitted /\
    (forall c, In c l -> In c used \/ fit c = Raise ValueError) /\ (List.length used = List.length l -> used = l) /\ (List.length used <= List.length l)%nat.
Proof.
  intros fit. induction l as [|c l IH]; intros fitted E; cbn [initial_fits] in E.
  - injection E as <-. exists []. split; [constructor|]. split; [intros c []|]. split; [reflexivity|cbn; lia].
  - destruct (fit c) as [d|e] eqn:Ec.
    + destruct (initial_fits fit l) as [r|e] eqn:Er; [|discriminate E]. cbn [bind] in E. injection E as <-.
      destruct (IH r eq_refl) as (used & F & A & Q & LE). exists (c :: used). split; [constructor; assumption|]. split; [|split].
      * intros x [<-|Hx]; [left; left; reflexivity|]. destruct (A x Hx) as [H|H]; [left; right; exact H|right; exact H].
      * cbn. intros H. f_equal. apply Q. lia.
      * cbn. lia.
    + destruct e; try discriminate E. destruct (IH fitted E) as (used & F & A & Q & LE). exists used. split; [exact F|]. split; [|split].
      * intros x [<-|Hx]; [right; exact Ec|exact (A x Hx)].
      * cbn. intros H. lia.
      * cbn. lia.
Qed.

(** ** Weights *)

Lemma np_sum_fin : forall l, np_sum (map Fin l) = Fin (qsum l).
Proof. induction l as [|x l IH]; [reflexivity|]. cbn [map]. unfold np_sum in *. cbn [fold_right]. rewrite IH. reflexivity. Qed.

Lemma one_share : forall d, o_ratio d <> [] -> exists f, share_of_ones (o_ratio d) f /\ one_fraction d = Fin f /\ 0 <= f.
Proof.
  intros d NE. unfold one_fraction, share_of_ones. eexists. split; [reflexivity|].
  assert (P : 0 < qz (Z.of_nat (List.length (o_ratio d)))).
  { apply qz_pos. destruct (o_ratio d); [congruence|]. cbn [List.length]. lia. }
  assert (EQ : filter (fun x => feq x (fz 1)) (o_ratio d) = filter (fun x => match x with Fin q => if Qc_eq_dec q 1 then true else false | _ => false end) (o_ratio d)).
  { apply filter_ext. intros [| |q|]; reflexivity. }
  rewrite EQ. unfold fz. split; [apply fdiv_fin; intros C; rewrite C in P; exact (Qclt_not_eq _ _ P eq_refl)|].
  unfold Qcdiv. assert (0 <= qz (Z.of_nat (List.length (filter (fun x => match x with Fin q => if Qc_eq_dec q 1 then true else false | _ => false end) (o_ratio d))))) as A by (apply (qz_le_i 0); lia).
  apply Qc_inv_pos in P. revert A P. generalize (/ qz (Z.of_nat (List.length (o_ratio d)))). generalize (qz (Z.of_nat (List.length (filter (fun x => match x with Fin q => if Qc_eq_dec q 1 then true else false | _ => false end) (o_ratio d))))).
  intros a b A P. qnra.
Qed.

Lemma qsum_pos : forall l, l <> [] -> (forall x, In x l -> 0 < x) -> 0 < qsum l.
Proof.
  intros [|x l] NE H; [congruence|]. rewrite qsum_cons. assert (0 < x) as X by (apply H; left; reflexivity).
  assert (0 <= qsum l) as Y by (apply qsum_nonneg, Forall_forall; intros y Hy; apply Qclt_le_weak, H; right; exact Hy). qlra.
Qed.

Lemma weights_spec : forall l errors, l <> [] -> errors_of l errors ->
  exists shares w, shares_of l shares /\ inverse_weights errors shares w /\ weights_of l = map Fin w.
Proof.
  intros l errors NE (E1 & E2 & E3).
  assert (X : exists shares raw, shares_of l shares /\ map (fun d => raw_weight (o_rmse d) (one_fraction d)) l = map Fin raw /\
     List.length raw = List.length errors /\ (forall x, In x raw -> 0 < x) /\
     forall i, (i < List.length errors)%nat -> nth i raw 0 * (nth i errors 0 * (1 + nth i shares 0)) = 1).
  { clear NE. revert errors E1 E2 E3. induction l as [|d l IH]; intros errors E1 E2 E3.
    - destruct errors; [|discriminate E1]. exists [], []. split; [constructor|]. split; [reflexivity|]. split; [reflexivity|]. split; [intros x []|]. intros i Hi. cbn in Hi. lia.
    - destruct errors as [|e errors]; [discriminate E1|]. cbn [map] in E1. assert (o_rmse d = Fin e) as Ed by congruence. assert (map o_rmse l = map Fin errors) as El by congruence. clear E1.
      destruct (IH errors El (fun x H => E2 x (or_intror H)) (fun x H => E3 x (or_intror H))) as (shares & raw & S & M & L & P & K).
      destruct (one_share d (E3 d (or_introl eq_refl))) as (f & F1 & F2 & F3).
      assert (0 < e) as Pe by (apply E2; left; reflexivity). assert (0 < 1 + f) as Pf by qlra.
      pose proof (Qc_inv_pos e Pe) as Ie. pose proof (Qc_inv_pos (1 + f) Pf) as If.
      assert (Ne : e <> 0) by (intros ->; exact (Qclt_not_eq _ _ Pe eq_refl)). assert (Nf : 1 + f <> 0) by (intros C; rewrite C in Pf; exact (Qclt_not_eq _ _ Pf eq_refl)).
      exists (f :: shares), (/ e * / (1 + f) :: raw). split; [constructor; assumption|]. split; [|split; [cbn; lia|split]].
      + cbn [map]. f_equal; [|exact M]. unfold raw_weight. rewrite Ed, F2. unfold fz. rewrite fdiv_fin by exact Ne. cbn [fadd]. change (qz 1) with 1.
        rewrite fdiv_fin by exact Nf. f_equal. unfold Qcdiv. ring.
      + intros x [<-|Hx]; [|apply P, Hx]. revert Ie If. generalize (/ e), (/ (1 + f)). intros a b A B. qnra.
      + intros [|i] Hi; cbn [nth]; [field; split; assumption|]. apply K. cbn in Hi. lia. }
  destruct X as (shares & raw & S & M & L & P & K).
  assert (NR : raw <> []) by (intros ->; destruct l; [congruence|discriminate M]).
  pose proof (qsum_pos raw NR P) as PS. assert (NS : qsum raw <> 0) by (intros C; rewrite C in PS; exact (Qclt_not_eq _ _ PS eq_refl)).
  exists shares, (map (Qcmult (/ qsum raw)) raw). split; [exact S|]. split.
  - unfold inverse_weights. rewrite map_length. split; [exact L|]. split; [|split].
    + intros x Hx. apply in_map_iff in Hx. destruct Hx as (y & <- & Hy). apply P in Hy. apply Qc_inv_pos in PS. revert Hy PS. generalize (/ qsum raw). intros a A B. qnra.
    + rewrite qsum_scale. field. exact NS.
    + intros i j Hi Hj.
      assert (N : forall i, (i < List.length raw)%nat -> nth i (map (Qcmult (/ qsum raw)) raw) 0 = / qsum raw * nth i raw 0).
      { intros m Hm. rewrite nth_indep with (d' := Qcmult (/ qsum raw) 0) by (rewrite map_length; exact Hm). apply map_nth. }
      rewrite !N by assumption. rewrite <- !Qcmult_assoc. rewrite !K by lia. reflexivity.
  - unfold weights_of, normalized_weights. rewrite M, np_sum_fin. cbv zeta. rewrite !map_map. apply map_ext. intros x. rewrite fdiv_fin by exact NS. f_equal. unfold Qcdiv. ring.
Qed.

(** A weighted mean lies between the bounds of the values. *)
Lemma weighted_between : forall w x m lo hi, weighted_mean w x m -> (forall y, In y w -> 0 < y) -> qsum w = 1 ->
  (forall y, In y x -> lo <= y) -> (forall y, In y x -> y <= hi) -> lo <= m /\ m <= hi.
Proof.
  intros w x m lo hi [L ->] P S B1 B2.
  assert (G : forall w x, List.length w = List.length x -> (forall y, In y w -> 0 < y) -> (forall y, In y x -> lo <= y) -> (forall y, In y x -> y <= hi) ->
    qsum w * lo <= qsum (map (fun p => fst p * snd p) (combine w x)) /\ qsum (map (fun p => fst p * snd p) (combine w x)) <= qsum w * hi).
  { clear. induction w as [|a w IH]; intros [|b x] L P B1 B2; try discriminate L; cbn [combine map].
    - rewrite !qsum_nil. split; qlra.
    - cbn [fst snd]. rewrite !qsum_cons. destruct (IH x ltac:(cbn in L; lia) (fun y H => P y (or_intror H)) (fun y H => B1 y (or_intror H)) (fun y H => B2 y (or_intror H))) as [H1 H2].
      assert (0 < a) as A by (apply P; left; reflexivity). assert (lo <= b) as B by (apply B1; left; reflexivity). assert (b <= hi) as C by (apply B2; left; reflexivity).
      set (s := qsum (map _ _)) in *. clearbody s. set (t := qsum w) in *. clearbody t. split; qnra. }
  destruct (G w x L P B1 B2) as [H1 H2]. rewrite S in H1, H2. set (s := qsum (map _ _)) in *. clearbody s. split; qlra.
Qed.

Lemma dot_fin : forall w x, List.length w = List.length x -> exists m, weighted_mean w x m /\ dot (map Fin x) (map Fin w) = Fin m.
Proof.
  intros w x L. eexists. split; [split; [exact L|reflexivity]|]. unfold dot, cols.
  assert (map (fun p => fmul (fst p) (snd p)) (combine (map Fin x) (map Fin w)) = map Fin (map (fun p => fst p * snd p) (combine w x))) as ->.
  { revert x L. induction w as [|a w IH]; intros [|b x] L; try discriminate L; [reflexivity|]. cbn [map combine fst snd fmul]. f_equal; [f_equal; ring|]. apply IH. cbn in L. lia. }
  apply np_sum_fin.
Qed.
Lemma weighted_fin : forall w x, List.length w = List.length x -> exists m, weighted_mean w x m /\ weighted (map Fin w) (map Fin x) = Fin m.
Proof.
  intros w x L. eexists. split; [split; [exact L|reflexivity]|]. unfold weighted, cols.
  assert (map (fun p => fmul (fst p) (snd p)) (combine (map Fin x) (map Fin w)) = map Fin (map (fun p => fst p * snd p) (combine w x))) as ->.
  { revert x L. induction w as [|a w IH]; intros [|b x] L; try discriminate L; [reflexivity|]. cbn [map combine fst snd fmul]. f_equal; [f_equal; ring|]. apply IH. cbn in L. lia. }
  rewrite fsum_noinf by apply fin_noinf. rewrite fin_vals. reflexivity.
Qed.

Lemma argmax_heaviest : forall w, w <> [] -> heaviest w (argmax (map Fin w)).
Proof.
  assert (G : forall l pre b, (b < List.length pre)%nat -> (forall j, (j < List.length pre)%nat -> nth j pre 0 <= nth b pre 0) -> (forall j, (j < b)%nat -> nth j pre 0 < nth b pre 0) ->
    heaviest (pre ++ l) (argmax_from (Fin (nth b pre 0)) b (List.length pre) (map Fin l))).
  { induction l as [|x l IH]; intros pre b Hb M F; cbn [map argmax_from].
    - rewrite app_nil_r. split; [exact Hb|]. split; assumption.
    - cbn [isnan orb]. change (flt (Fin (nth b pre 0)) (Fin x)) with (qlt (nth b pre 0) x). destruct (qlt (nth b pre 0) x) eqn:E; qb.
      + replace (pre ++ x :: l) with ((pre ++ [x]) ++ l) by (rewrite <- app_assoc; reflexivity).
        assert (nth (List.length pre) (pre ++ [x]) 0 = x) as EX by (rewrite app_nth2 by lia; rewrite Nat.sub_diag; reflexivity).
        specialize (IH (pre ++ [x]) (List.length pre)). rewrite EX, app_length in IH. cbn [List.length] in IH. rewrite Nat.add_1_r in IH. apply IH; [lia| |].
        * intros j Hj. destruct (Nat.eq_dec j (List.length pre)) as [->|N]; [rewrite EX; qlra|]. rewrite app_nth1 by lia. specialize (M j ltac:(lia)). qlra.
        * intros j Hj. rewrite app_nth1 by lia. specialize (M j Hj). qlra.
      + replace (pre ++ x :: l) with ((pre ++ [x]) ++ l) by (rewrite <- app_assoc; reflexivity).
        assert (nth b (pre ++ [x]) 0 = nth b pre 0) as EX by (apply app_nth1; exact Hb).
        specialize (IH (pre ++ [x]) b). rewrite EX, app_length in IH. cbn [List.length] in IH. rewrite Nat.add_1_r in IH. apply IH; [lia| |].
        * intros j Hj. destruct (Nat.eq_dec j (List.length pre)) as [->|N]; [rewrite app_nth2 by lia; rewrite Nat.sub_diag; exact E|]. rewrite app_nth1 by lia. apply M. lia.
        * intros j Hj. rewrite app_nth1 by lia. apply F, Hj. }
  intros [|x l] NE; [congruence|]. cbn [map argmax]. apply (G l [x] 0%nat); cbn; [lia| |]; intros j Hj; [|lia].
  destruct j as [|j]; [qlra|lia].
Qed.

(** ** The refits *)

Lemma refits_spec : forall samples seasons refit todo b saved, refits samples seasons refit b todo = Ok saved ->
  (forall i, (b <= i < b + todo)%nat -> (i < List.length samples)%nat /\ (i < List.length seasons)%nat) /\
  forall p, In p saved -> exists i x, (b <= i < b + todo)%nat /\ nth_error samples i = Some x /\ nth_error seasons i = Some (snd p) /\
     refit i (cols fdiv x (snd p)) = Ok (fst p) /\ stationary (fst p) = true.
Proof.
  intros samples seasons refit. induction todo as [|todo IH]; intros b saved E; cbn [refits] in E.
  - injection E as <-. split; [intros i Hi; lia|intros p []].
  - destruct (nth_error samples b) as [x|] eqn:Ex; [|discriminate E]. destruct (nth_error seasons b) as [y|] eqn:Ey; [|discriminate E].
    assert (B1 : (b < List.length samples)%nat) by (apply nth_error_Some; congruence). assert (B2 : (b < List.length seasons)%nat) by (apply nth_error_Some; congruence).
    destruct (refit b (cols fdiv x y)) as [d|e] eqn:ED.
    + destruct (refits samples seasons refit (S b) todo) as [r|e] eqn:ER; [|discriminate E]. cbn [bind] in E. injection E as <-. destruct (IH _ _ ER) as [H1 H2]. split.
      * intros i Hi. destruct (Nat.eq_dec i b) as [->|N]; [auto|]. apply H1. lia.
      * assert (K : forall p, In p r -> exists i x0, (b <= i < b + S todo)%nat /\ nth_error samples i = Some x0 /\ nth_error seasons i = Some (snd p) /\ refit i (cols fdiv x0 (snd p)) = Ok (fst p) /\ stationary (fst p) = true).
        { intros p Hp. destruct (H2 p Hp) as (i & x0 & Hi & K). exists i, x0. split; [lia|exact K]. }
        destruct (stationary d) eqn:ES; [|exact K]. intros p [<-|Hp]; [|apply K, Hp]. exists b, x. cbn [fst snd]. split; [lia|]. auto.
    + destruct e; try discriminate E. destruct (IH _ _ E) as [H1 H2]. split.
      * intros i Hi. destruct (Nat.eq_dec i b) as [->|N]; [auto|]. apply H1. lia.
      * intros p Hp. destruct (H2 p Hp) as (i & x0 & Hi & K). exists i, x0. split; [lia|exact K].
Qed.
(** Too few samples: if the refits raise nothing but ValueError, the run ends in a KeyError. *)
Lemma refits_short : forall samples seasons refit todo b, (forall i x e, refit i x = Raise e -> e = ValueError) ->
  (List.length samples < b + todo \/ List.length seasons < b + todo)%nat -> (b <= List.length samples)%nat -> (b <= List.length seasons)%nat -> (0 < todo)%nat ->
  refits samples seasons refit b todo = Raise KeyError.
Proof.
  intros samples seasons refit. induction todo as [|todo IH]; intros b V H B1 B2 P; [lia|]. cbn [refits].
  destruct (nth_error samples b) as [x|] eqn:Ex; [|reflexivity]. destruct (nth_error seasons b) as [y|] eqn:Ey; [|reflexivity].
  assert (C1 : (b < List.length samples)%nat) by (apply nth_error_Some; congruence). assert (C2 : (b < List.length seasons)%nat) by (apply nth_error_Some; congruence).
  assert (R : refits samples seasons refit (S b) todo = Raise KeyError) by (apply IH; [exact V|lia|lia|lia|lia]).
  destruct (refit b (cols fdiv x y)) as [d|e] eqn:ED; [rewrite R; reflexivity|]. rewrite (V _ _ _ ED). exact R.
Qed.

(** ** Stage 3 *)

Lemma pct : forall x, qz 100 * (x / qz 100) = x.
Proof. intros x. field. discriminate. Qed.
Lemma clip_limited : forall x, limited x (if flt x (fz 0) then fz 0 else clip_upper x).
Proof.
  intros x. unfold limited, clip_upper, fgt. destruct x as [| |q|]; [right; right; right; auto|right; left; auto| |right; right; left; auto].
  change (flt (Fin q) (fz 0)) with (qlt q 0). change (flt (fz 1) (Fin q)) with (qlt 1 q). change (fle (fz 0) (Fin q)) with (qle 0 q). change (fle (Fin q) (fz 1)) with (qle q 1).
  destruct (qlt q 0) eqn:E1; [right; left; auto|]. destruct (qlt 1 q) eqn:E2; [right; right; left; auto|]. left. unfold qlt in *.
  destruct (qle 0 q); [|discriminate E1]. destruct (qle q 1); [auto|discriminate E2].
Qed.

Lemma forall2_length : forall A B (R : A -> B -> Prop) a b, Forall2 R a b -> List.length a = List.length b.
Proof. intros A B R a b H. induction H; cbn; congruence. Qed.
Lemma across_fin : forall columns i x, row_values columns i x -> across columns i = map Fin x.
Proof.
  intros columns i x H. unfold across. induction H as [|c q cs qs E _ IH]; [reflexivity|]. cbn [map]. f_equal; [apply at_row_error, E|exact IH].
Qed.
Lemma row_length : forall columns i x, row_values columns i x -> List.length x = List.length columns.
Proof. intros columns i x H. symmetry. exact (forall2_length _ _ _ _ _ H). Qed.

Lemma rows_at : forall (f : nat -> fl) n i, (i < n)%nat -> nth_error (map f (seq 0 n)) i = Some (f i).
Proof. intros f n i H. rewrite nth_error_map_some, nth_error_seq. apply Nat.ltb_lt in H. rewrite H. reflexivity. Qed.

Lemma summarize_spec : forall cl pi last saved r, summarize cl pi last saved = Ok r -> summary_of cl pi last saved r.
Proof.
  intros cl pi last saved r E. unfold summarize in E. destruct saved as [|p0 ps] eqn:ES; [discriminate E|]. rewrite <- ES in *.
  set (low := (qz 50 - cl / qz 2) / qz 100) in *. set (high := (qz 50 + cl / qz 2) / qz 100) in *.
  destruct (negb _) eqn:EN in E; [discriminate E|]. cbv zeta in E. apply negb_false_iff in EN.
  apply andb_true_iff in EN. destruct EN as [EN N4]. apply andb_true_iff in EN. destruct EN as [EN N3]. apply andb_true_iff in EN. destruct EN as [N1 N2].
  apply qle_spec in N1, N2, N3, N4.
  injection E as <-. unfold summary_of. cbn [cr_small cr_ratio cr_trend cr_degradation cr_season cr_total cr_residuals cr_shift cr_loss cr_bt_ratio cr_ratio_low cr_ratio_high cr_events fst snd].
  assert (HL : qz 100 * low = qz 50 - cl / qz 2) by apply pct. assert (HH : qz 100 * high = qz 50 + cl / qz 2) by apply pct.
  assert (H2 : qz 2 * (cl / qz 2) = cl) by (field; discriminate).
  split; [rewrite ES; discriminate|].
  assert (BC : qz (-100) <= cl /\ cl <= qz 100).
  { clearbody low high. set (h := cl / qz 2) in *. clearbody h. rewrite (qz_opp 100 : qz (-100) = - qz 100). subst cl.
    assert (qz 100 = (1 + 1) * qz 50) as X by (apply Qc_is_canon; reflexivity). assert (qz 2 = 1 + 1) as Y by (apply Qc_is_canon; reflexivity). rewrite X in *. rewrite Y.
    assert (0 < qz 50) as P50 by (apply qz_pos; lia). set (f := qz 50) in *. clearbody f. split; qnra. }
  split; [exact (proj1 BC)|]. split; [exact (proj2 BC)|]. split; [reflexivity|].
  split. { induction (o_ratio last) as [|x l IH]; constructor; [apply clip_limited|exact IH]. }
  split; [apply linear_trend_ok|]. split; [apply composed_spec|].
  intros errors EO. assert (NE : map fst saved <> []) by (rewrite ES; discriminate).
  destruct (weights_spec _ errors NE EO) as (shares & w & S & W & EW). exists shares, w. split; [exact S|]. split; [exact W|]. rewrite EW.
  assert (LW : List.length w = List.length (map fst saved)).
  { destruct W as [L _]. rewrite L. destruct EO as [EO _]. rewrite <- (map_length Fin errors), <- EO, map_length. reflexivity. }
  assert (EST : forall x, List.length x = List.length w -> x <> [] -> estimate cl w x (dot (map Fin x) (map Fin w), np_quantile low (map Fin x), np_quantile high (map Fin x))).
  { intros x L N. destruct (dot_fin w x ltac:(lia)) as (m & M & ->). destruct (np_quantile_map low x N N1 N3) as (lo & -> & LO). destruct (np_quantile_map high x N N4 N2) as (hi & -> & HI).
    rewrite HL in LO. rewrite HH in HI. exists m, lo, hi. auto. }
  assert (PS : (0 < List.length (map fst saved))%nat) by (rewrite ES; cbn; lia).
  split; [|split; [|split; [|split]]].
  - intros x X. rewrite X. assert (List.length x = List.length w) as L by (rewrite LW, <- (map_length Fin x), <- X, map_length; reflexivity).
    apply EST; [exact L|]. intros ->. cbn in L. lia.
  - intros x X. rewrite X. assert (List.length x = List.length w) as L by (rewrite LW, <- (map_length Fin x), <- X, map_length; reflexivity).
    apply EST; [exact L|]. intros ->. cbn in L. lia.
  - intros i x Hi X. pose proof (row_length _ _ _ X) as L. rewrite map_length in L. apply across_fin in X.
    destruct (weighted_fin w x ltac:(lia)) as (m & M & EM). assert (NX : x <> []) by (intros ->; cbn in L; lia).
    exists m, (qquantile low x), (qquantile high x). unfold value_at. rewrite !rows_at by exact Hi. rewrite X, EM.
    rewrite (fquantile_noinf low), (fquantile_noinf high); try apply fin_noinf; try assumption; rewrite ?fin_vals; try assumption.
    repeat (split; [reflexivity|]). split; [exact M|]. rewrite <- HL, <- HH. split; apply quantile_is; assumption.
  - intros i x Hi X. pose proof (row_length _ _ _ X) as L. rewrite map_length in L. apply across_fin in X.
    rewrite map_length in LW. destruct (weighted_fin w x ltac:(lia)) as (m & M & EM). exists m. unfold value_at. rewrite rows_at by exact Hi. rewrite X, EM. auto.
  - intros i x Hi X. pose proof (forall2_length _ _ _ _ _ X) as L.
    assert (map (fun d => if nth i (o_events d) false then fz 1 else fz 0) (map fst saved) = map Fin x) as EX.
    { clear - X. induction X as [|d q ds qs H _ IH]; [reflexivity|]. cbn [map]. f_equal; [|exact IH]. destruct H as [[H ->]|[H ->]].
      - rewrite (nth_error_nth _ _ false H). reflexivity.
      - destruct (nth i (o_events d) false) eqn:EV; [|reflexivity]. exfalso. apply H.
        assert (i < List.length (o_events d))%nat as LI by (destruct (Nat.lt_ge_cases i (List.length (o_events d))) as [Q|Q]; [exact Q|rewrite nth_overflow in EV by exact Q; discriminate EV]).
        rewrite (nth_error_nth' (o_events d) false LI), EV. reflexivity. }
    destruct (weighted_fin w x ltac:(lia)) as (m & M & EM). exists m. unfold value_at. rewrite rows_at by exact Hi. rewrite EX, EM. auto.
Qed.

(** ** The whole run *)

Lemma count_more : forall A (p : A -> bool) (P : A -> Prop) m l, (forall x, p x = true <-> P x) ->
  ((m <? List.length (filter p l))%nat = true <-> more_than m P l).
Proof.
  intros A p P m l H. set (rows := filter (fun i => match nth_error l i with Some x => p x | None => false end) (seq 0 (List.length l))).
  assert (L : List.length rows = List.length (filter p l)).
  { unfold rows. clear. induction l as [|x l IH]; [reflexivity|]. cbn [List.length seq filter nth_error]. rewrite <- seq_shift.
    assert (G : forall q : nat -> bool, List.length (filter q (map S (seq 0 (List.length l)))) = List.length (filter (fun i => q (S i)) (seq 0 (List.length l)))).
    { intros q. clear IH. induction (seq 0 (List.length l)) as [|y ys IHy]; [reflexivity|]. cbn. destruct (q (S y)); cbn; rewrite IHy; reflexivity. }
    destruct (p x); cbn [List.length]; rewrite G; cbn [nth_error]; rewrite IH; reflexivity. }
  rewrite Nat.ltb_lt, <- L. split.
  - intros M. exists rows. split; [apply NoDup_filter, seq_NoDup|]. split; [exact M|]. intros i Hi. apply filter_In in Hi. destruct Hi as [_ Hi].
    destruct (nth_error l i) as [x|]; [|discriminate Hi]. exists x. split; [reflexivity|]. apply H, Hi.
  - intros (rs & N & M & R). apply Nat.lt_le_trans with (List.length rs); [exact M|]. apply NoDup_incl_length; [exact N|]. intros i Hi.
    destruct (R i Hi) as (x & E & X). apply filter_In. split; [apply in_seq; split; [lia|]; apply nth_error_Some; congruence|]. rewrite E. apply H, X.
Qed.

Lemma filter_short : forall A (p : A -> bool) l, (List.length (filter p l) <= List.length l)%nat.
Proof. intros A p l. induction l as [|x l IH]; cbn; [lia|]. destruct (p x); cbn; lia. Qed.
Lemma passes_spec : forall d, stationary d = true <-> passes d.
Proof. intros d. reflexivity. Qed.
Lemma failed_spec : forall d, negb (stationary d) || feq (fst (o_adf d)) (fz 0) = true <-> counts_as_failed d.
Proof.
  intros d. unfold counts_as_failed, passes, stationary. rewrite orb_true_iff, negb_true_iff. split; (intros [H|H]; [left|right]).
  - rewrite H. discriminate.
  - destruct (fst (o_adf d)) as [| |q|]; try discriminate H. exists q. split; [reflexivity|]. cbn in H. qb. exact H.
  - destruct (flt _ _); [elim H; reflexivity|reflexivity].
  - destruct H as (q & -> & ->). reflexivity.
Qed.
Lemma small_spec : forall d, o_small d = true <-> o_small d = true.
Proof. reflexivity. Qed.

Lemma flat_map_nth : forall A (f : nat -> nat -> A) per n i, (i < n * per)%nat ->
  nth_error (flat_map (fun k => map (f k) (seq 0 per)) (seq 0 n)) i = Some (f (i / per)%nat (i mod per)%nat).
Proof.
  intros A f per n i H. assert (P : (0 < per)%nat) by nia.
  assert (G : forall n k0 i, (i < n * per)%nat -> nth_error (flat_map (fun k => map (f k) (seq 0 per)) (seq k0 n)) i = Some (f (k0 + i / per)%nat (i mod per)%nat)).
  { clear n i H. induction n as [|n IH]; intros k0 i H; [lia|]. cbn [seq flat_map]. destruct (Nat.lt_ge_cases i per) as [L|L].
    - rewrite nth_error_app1 by (rewrite map_length, seq_length; exact L). rewrite nth_error_map_some, nth_error_seq. assert ((i <? per)%nat = true) as -> by (apply Nat.ltb_lt; exact L).
      rewrite Nat.div_small, Nat.mod_small by exact L. do 2 f_equal; lia.
    - rewrite nth_error_app2 by (rewrite map_length, seq_length; exact L). rewrite map_length, seq_length. rewrite IH by nia.
      assert (i = (i - per) + 1 * per)%nat as Ei by lia. f_equal. rewrite Ei at 3 4. rewrite Nat.div_add, Nat.mod_add by lia. f_equal. lia. }
  rewrite G by exact H. reflexivity.
Qed.
Lemma flat_map_rows : forall A (f : nat -> nat -> A) per n, List.length (flat_map (fun k => map (f k) (seq 0 per)) (seq 0 n)) = (n * per)%nat.
Proof.
  intros A f per n. assert (G : forall n k0, List.length (flat_map (fun k => map (f k) (seq 0 per)) (seq k0 n)) = (n * per)%nat); [|apply G].
  clear n. induction n as [|n IH]; intros k0; cbn [seq flat_map]; [reflexivity|]. rewrite app_length, map_length, seq_length, IH. lia.
Qed.
Lemma collect_weights : forall (w : list fl) n, match collect (map (fun m => bind (pick w m) (fun x => Ok (m, x))) (seq 0 n)) with
  | Ok l => (n <= List.length w)%nat /\ l = combine (seq 0 n) (firstn n w)
  | Raise e => e = IndexError /\ (List.length w < n)%nat
  end.
Proof.
  intros w n. assert (G : forall n k0, match collect (map (fun m => bind (pick w m) (fun x => Ok (m, x))) (seq k0 n)) with
    | Ok l => (n = 0 \/ k0 + n <= List.length w)%nat /\ l = combine (seq k0 n) (firstn n (skipn k0 w))
    | Raise e => e = IndexError /\ (List.length w < k0 + n)%nat end).
  { clear n. induction n as [|n IH]; intros k0; cbn [seq map collect]; [split; [left; reflexivity|reflexivity]|].
    unfold pick at 1. destruct (nth_error w k0) as [x|] eqn:E; cbn [bind]; [|apply nth_error_None in E; split; [reflexivity|lia]].
    specialize (IH (S k0)). destruct (collect _) as [l|e]; cbn [bind]; [|destruct IH as [-> IH]; split; [reflexivity|lia]].
    assert (k0 < List.length w)%nat as K by (apply nth_error_Some; congruence). destruct IH as [IH ->]. split; [lia|].
    assert (skipn k0 w = x :: skipn (S k0) w) as ->.
    { clear - E. revert k0 E. induction w as [|y w IH]; intros [|k0] E; try discriminate E; [injection E as ->; reflexivity|]. cbn [skipn]. rewrite (IH k0 E). reflexivity. }
    reflexivity. }
  specialize (G n 0%nat). destruct (collect _) as [l|e]; [|exact G]. destruct G as [H ->]. split; [lia|reflexivity].
Qed.

Section Whole.
Variables (orders : list (list string)) (sens prune : list fl) (fill : list bool) (reps : nat) (cl : Qc)
  (fit : choice -> result decomposition) (sampled : nat -> nat -> list fl) (draw : nat -> nat -> fl * Z)
  (refit : nat -> list fl -> result decomposition) (yoy : list fl -> result (fl * (fl * fl))) (s : series).
Let run := run_bootstrap orders sens prune fill reps cl fit sampled draw refit yoy s.
Let choices := all_choices (firstn 2 orders) (firstn 2 sens) (firstn 2 prune) (firstn 2 fill).
Let per := (rounded_reps reps / 16)%nat.

Lemma per_reps : (16 * per)%nat = rounded_reps reps.
Proof. unfold per. destruct (rounded_spec reps) as ((k & E) & _ & _). rewrite E. rewrite (Nat.mul_comm 16 k), Nat.div_mul by lia. lia. Qed.

Lemma choices_16 : (2 <= List.length orders)%nat -> (2 <= List.length sens)%nat -> (2 <= List.length prune)%nat -> (2 <= List.length fill)%nat -> List.length choices = 16%nat.
Proof. intros A B C D. unfold choices. rewrite all_choices_length, !firstn_length. rewrite !Nat.min_l by assumption. reflexivity. Qed.

(** The bootstrap goes through only if all sixteen fits succeed and pass the test. *)
Lemma bootstrap_estimates : forall r, run = Ok r -> cr_small r = false ->
  exists fitted last saved, Forall2 (fun c d => fit c = Ok d) choices fitted /\ List.length fitted = 16%nat /\ nth_error fitted 15 = Some last /\
    (forall d, In d fitted -> passes d) /\ ~ more_than 8 counts_as_failed fitted /\ ~ more_than 8 (fun d => o_small d = true) fitted /\
    summary_of cl (vals s) last saved r /\
    forall p, In p saved -> passes (fst p) /\ exists i d, (i < rounded_reps reps)%nat /\ nth_error fitted (i / per) = Some d /\
      snd p = vals (seasonal_sample (combine (times s) (o_season d)) (fst (draw (i / per) (i mod per))) (snd (draw (i / per) (i mod per))))%nat /\
      refit i (cols fdiv (sampled (i / per) (i mod per)) (snd p))%nat = Ok (fst p).
Proof.
  intros r E SM. unfold run, run_bootstrap in E. pose proof (combinations_spec orders sens prune fill) as CS.
  destruct (combinations orders sens prune fill) as [ch|e]; [|discriminate E]. cbn [bind] in E. cbv zeta in E. destruct CS as (C1 & C2 & C3 & C4 & ->). fold choices in E. fold per in E.
  pose proof (choices_16 C1 C2 C3 C4) as C16.
  destruct (initial_fits fit choices) as [fitted|e] eqn:EI; [|discriminate E]. cbn [bind] in E.
  destruct (8 <? List.length (filter (fun d => negb (stationary d) || feq (fst (o_adf d)) (fz 0)) fitted))%nat eqn:EF; [discriminate E|].
  assert (NF : ~ more_than 8 counts_as_failed fitted) by (rewrite <- (count_more _ _ _ 8 fitted failed_spec), EF; discriminate).
  destruct fitted as [|d0 rest] eqn:EFit; [discriminate E|]. rewrite <- EFit in *.
  destruct (8 <? List.length (filter o_small fitted))%nat eqn:ESm.
  { destruct (yoy (vals s)) as [y|e]; [|discriminate E]. cbn [bind] in E. injection E as <-. discriminate SM. }
  assert (NS : ~ more_than 8 (fun d => o_small d = true) fitted) by (rewrite <- (count_more _ _ _ 8 fitted small_spec), ESm; discriminate).
  destruct (filter stationary fitted) as [|g gs] eqn:EG; [discriminate E|]. rewrite <- EG in E.
  pose proof (collect_weights (weights_of fitted) 16) as CW. destruct (collect _) as [nw|e]; [|discriminate E]. cbn [bind] in E. destruct CW as [CW ->].
  assert (LW : List.length (weights_of fitted) = List.length fitted) by (unfold weights_of, normalized_weights; rewrite !map_length; reflexivity).
  destruct (initial_spec _ _ _ EI) as (used & U1 & U2 & U3 & U4). pose proof (forall2_length _ _ _ _ _ U1) as UL. change (@List.length choice choices = 16%nat) in C16. rewrite C16 in U3, U4.
  assert (L16 : List.length fitted = 16%nat) by lia. rewrite (U3 ltac:(lia)) in U1.
  set (sel := filter (fun p => fgt (snd p) (fz 0)) (combine (seq 0 16) (firstn 16 (weights_of fitted)))) in *.
  set (signals := map (fun p => combine (times s) (o_season (nth (fst p) fitted d0))) sel) in *.
  pose proof (seasonal_samples_spec signals per draw) as SS. destruct (seasonal_samples signals per draw) as [seasons|e]; [|discriminate E]. cbn [bind] in E.
  destruct SS as (S1 & S2 & S3 & S4).
  destruct (refits _ _ refit 0 (rounded_reps reps)) as [saved|e] eqn:ER; [|discriminate E]. cbn [bind] in E.
  pose proof (summarize_spec _ _ _ _ _ E) as SU.
  destruct (refits_spec _ _ _ _ _ _ ER) as [R1 R2]. rewrite flat_map_rows, map_length, S3 in R1. pose proof per_reps as PR.
  assert (NZ : (0 < per)%nat).
  { destruct SU as [NE _]. destruct saved as [|p ps]; [congruence|]. destruct (R2 p (or_introl eq_refl)) as (i & x & Hi & _). lia. }
  destruct (R1 (rounded_reps reps - 1)%nat ltac:(lia)) as [R1a R1b].
  assert (LG : List.length (filter stationary fitted) = 16%nat).
  { assert (List.length (filter stationary fitted) <= List.length fitted)%nat as LE by apply filter_short. nia. }
  assert (LS : List.length sel = 16%nat).
  { assert (List.length sel <= List.length (combine (seq 0 16) (firstn 16 (weights_of fitted))))%nat as LE by apply filter_short.
    rewrite combine_length, seq_length, firstn_length, LW, L16 in LE. change (Nat.min 16 (Nat.min 16 16)) with 16%nat in LE. unfold signals in R1b. rewrite map_length in R1b. nia. }
  assert (FA : forall A (p : A -> bool) l, List.length (filter p l) = List.length l -> filter p l = l).
  { clear. intros A p l. induction l as [|x l IH]; intros H; [reflexivity|]. cbn in H |- *. destruct (p x); [cbn in H; f_equal; apply IH; lia|].
    pose proof (filter_short _ p l). lia. }
  assert (PA : forall d, In d fitted -> passes d).
  { intros d Hd. rewrite <- (FA _ stationary fitted ltac:(lia)) in Hd. apply filter_In in Hd. apply Hd. }
  assert (SE : sel = combine (seq 0 16) (firstn 16 (weights_of fitted))).
  { apply FA. fold sel. rewrite LS, combine_length, seq_length, firstn_length, LW, L16. reflexivity. }
  assert (SG : forall k, (k < 16)%nat -> nth_error signals k = Some (combine (times s) (o_season (nth k fitted d0)))).
  { intros k Hk. unfold signals. rewrite nth_error_map_some, SE, nth_error_combine, nth_error_seq. assert ((k <? 16)%nat = true) as -> by (apply Nat.ltb_lt; exact Hk).
    destruct (nth_error (firstn 16 (weights_of fitted)) k) as [x|] eqn:Ex; [reflexivity|]. apply nth_error_None in Ex. rewrite firstn_length, LW, L16 in Ex. cbn in Ex. lia. }
  exists fitted, (List.last fitted d0), saved. split; [exact U1|]. split; [exact L16|]. split; [|split; [exact PA|split; [exact NF|split; [exact NS|split; [exact SU|]]]]].
  - clear - L16. assert (G : forall (l : list decomposition) d, l <> [] -> nth_error l (List.length l - 1) = Some (List.last l d)).
    { induction l as [|x l IH]; intros d H; [congruence|]. destruct l as [|y l]; [reflexivity|]. cbn [List.length]. rewrite Nat.sub_succ, Nat.sub_0_r. cbn [nth_error List.last].
      specialize (IH d ltac:(discriminate)). cbn [List.length] in IH. rewrite Nat.sub_succ, Nat.sub_0_r in IH. exact IH. }
    specialize (G fitted d0). rewrite L16 in G. apply G. intros ->. discriminate L16.
  - intros p Hp. destruct (R2 p Hp) as (i & x & Hi & X1 & X2 & X3 & X4). split; [exact X4|]. assert (Hi' : (i < 16 * per)%nat) by lia.
    assert (IK : (i / per < 16)%nat) by (apply Nat.div_lt_upper_bound; lia). assert (IM : (i mod per < per)%nat) by (apply Nat.mod_upper_bound; lia).
    rewrite LG in X1. rewrite (flat_map_nth _ sampled per 16 i Hi') in X1. injection X1 as <-.
    exists i, (nth (i / per) fitted d0). split; [lia|]. split; [apply nth_error_nth'; lia|]. split; [|exact X3].
    rewrite nth_error_map_some in X2. pose proof (S4 (i / per)%nat (i mod per)%nat _ IM (SG _ IK)) as Q.
    assert ((i / per) * per + i mod per = i)%nat as EI' by (pose proof (Nat.div_mod i per ltac:(lia)); lia). rewrite EI' in Q. rewrite Q in X2. injection X2 as <-. reflexivity.
Qed.

(** A small soiling signal: year-on-year degradation, and the fit with the largest weight. *)
Lemma bootstrap_small : forall r, run = Ok r -> cr_small r = true ->
  exists used fitted best y b, Forall2 (fun c d => fit c = Ok d) used fitted /\ (forall c, In c choices -> In c used \/ fit c = Raise ValueError) /\
    ~ more_than 8 counts_as_failed fitted /\ more_than 8 (fun d => o_small d = true) fitted /\
    yoy (vals s) = Ok y /\ cr_degradation r = (fst y, fst (snd y), snd (snd y)) /\
    nth_error fitted b = Some best /\
    (forall errors, errors_of fitted errors -> exists shares w, shares_of fitted shares /\ inverse_weights errors shares w /\ heaviest w b) /\
    cr_ratio r = o_ratio best /\ cr_season r = o_season best /\ cr_trend r = o_trend best /\ cr_total r = o_total best /\ cr_residuals r = o_residuals best /\ cr_shift r = o_shift best /\
    cr_events r = map (fun b : bool => if b then Fin 1 else Fin 0) (o_events best) /\ cr_ratio_low r = [] /\ cr_ratio_high r = [] /\ cr_bt_ratio r = [] /\
    (exists top, cr_loss r = (Fin 0, Fin 0, top) /\ (noinf (o_ratio best) -> finvals (o_ratio best) <> [] -> exists m, mean_of (o_ratio best) m /\ top = Fin (1 - m))).
Proof.
  intros r E SM. unfold run, run_bootstrap in E. pose proof (combinations_spec orders sens prune fill) as CS.
  destruct (combinations orders sens prune fill) as [ch|e]; [|discriminate E]. cbn [bind] in E. cbv zeta in E. destruct CS as (C1 & C2 & C3 & C4 & ->). fold choices in E. fold per in E.
  destruct (initial_fits fit choices) as [fitted|e] eqn:EI; [|discriminate E]. cbn [bind] in E.
  destruct (8 <? List.length (filter (fun d => negb (stationary d) || feq (fst (o_adf d)) (fz 0)) fitted))%nat eqn:EF; [discriminate E|].
  assert (NF : ~ more_than 8 counts_as_failed fitted) by (rewrite <- (count_more _ _ _ 8 fitted failed_spec), EF; discriminate).
  destruct fitted as [|d0 rest] eqn:EFit; [discriminate E|]. rewrite <- EFit in *.
  destruct (8 <? List.length (filter o_small fitted))%nat eqn:ESm.
  - apply (count_more _ _ _ 8 fitted small_spec) in ESm. destruct (yoy (vals s)) as [y|e] eqn:EY; [|discriminate E]. cbn [bind] in E. injection E as <-.
    destruct (initial_spec _ _ _ EI) as (used & U1 & U2 & _ & _).
    assert (NE : fitted <> []) by (rewrite EFit; discriminate).
    assert (LW : List.length (weights_of fitted) = List.length fitted) by (unfold weights_of, normalized_weights; rewrite !map_length; reflexivity).
    set (b := argmax (weights_of fitted)). assert (B : (b < List.length fitted)%nat) by (rewrite <- LW; apply argmax_bound; intros C; rewrite C in LW; destruct fitted; [congruence|discriminate LW]).
    exists used, fitted, (nth b fitted d0), y, b. cbn [cr_degradation cr_ratio cr_season cr_trend cr_total cr_residuals cr_shift cr_events cr_ratio_low cr_ratio_high cr_bt_ratio cr_loss].
    split; [exact U1|]. split; [exact U2|]. split; [exact NF|]. split; [exact ESm|]. split; [reflexivity|]. split; [reflexivity|]. split; [apply nth_error_nth', B|]. split.
    { intros errors EO. destruct (weights_spec fitted errors NE EO) as (shares & w & S & W & EW). exists shares, w. split; [exact S|]. split; [exact W|]. unfold b. rewrite EW. apply argmax_heaviest.
      intros ->. rewrite EW in LW. destruct fitted; [congruence|discriminate LW]. }
    repeat (split; [reflexivity|]). eexists. split; [reflexivity|]. intros N1 N2. destruct (loss_mean _ N1 N2) as (m & M1 & M2). exists m. split; [exact M1|].
    destruct (fmean _) as [| |x|]; try discriminate M2. unfold fz, fmul in M2. apply (f_equal (fun v => match v with Fin q => q | _ => 0 end)) in M2. cbv beta iota in M2. f_equal.
    assert (qz 100 <> 0) as H100 by discriminate. assert (x = qz 100 * x / qz 100) as -> by (field; exact H100). rewrite (Qcmult_comm (qz 100) x). rewrite M2. field. exact H100.
  - destruct (filter stationary fitted) as [|g gs]; [discriminate E|]. destruct (collect _) as [nw|e]; [|discriminate E]. cbn [bind] in E.
    destruct (seasonal_samples _ _ _) as [seasons|e]; [|discriminate E]. cbn [bind] in E. destruct (refits _ _ _ _ _) as [saved|e]; [|discriminate E]. cbn [bind] in E.
    apply summarize_spec in E. destruct E as (_ & _ & _ & C & _). congruence.
Qed.
(** Failures. *)
Lemma bootstrap_alternatives : (List.length orders < 2 \/ List.length sens < 2 \/ List.length prune < 2 \/ List.length fill < 2)%nat -> run = Raise IndexError.
Proof.
  intros H. unfold run, run_bootstrap. pose proof (combinations_spec orders sens prune fill) as CS. destruct (combinations orders sens prune fill) as [ch|e]; [lia|].
  destruct CS as [-> _]. reflexivity.
Qed.
Hypothesis two : (2 <= List.length orders /\ 2 <= List.length sens /\ 2 <= List.length prune /\ 2 <= List.length fill)%nat.
Hypothesis only_value : forall c e, In c choices -> fit c = Raise e -> e = ValueError.
Let fitted := fits_of fit choices.

Lemma initial_all : initial_fits fit choices = Ok fitted.
Proof.
  unfold fitted, fits_of. revert only_value. generalize choices. intros l. induction l as [|c l IH]; intros V; [reflexivity|]. cbn [initial_fits flat_map].
  specialize (IH (fun x e H => V x e (or_intror H))). destruct (fit c) as [d|e] eqn:Ec; [rewrite IH; reflexivity|]. rewrite (V c e (or_introl eq_refl) Ec). exact IH.
Qed.
Lemma combinations_ok : combinations orders sens prune fill = Ok choices.
Proof. pose proof (combinations_spec orders sens prune fill) as CS. destruct (combinations orders sens prune fill) as [ch|e]; [|lia]. destruct CS as (_ & _ & _ & _ & ->). reflexivity. Qed.

Lemma bootstrap_unstable : more_than 8 counts_as_failed fitted -> run = Raise RuntimeError.
Proof.
  intros H. unfold run, run_bootstrap. rewrite combinations_ok. cbn [bind]. cbv zeta. rewrite initial_all. cbn [bind].
  apply (count_more _ _ _ 8 fitted failed_spec) in H. rewrite H. reflexivity.
Qed.
Lemma bootstrap_none : (forall d, In d fitted -> ~ passes d) -> ~ more_than 8 counts_as_failed fitted -> ~ more_than 8 (fun d => o_small d = true) fitted -> run = Raise ValueError.
Proof.
  intros N H1 H2. unfold run, run_bootstrap. rewrite combinations_ok. cbn [bind]. cbv zeta. rewrite initial_all. cbn [bind].
  rewrite <- (count_more _ _ _ 8 fitted failed_spec) in H1. rewrite <- (count_more _ _ _ 8 fitted small_spec) in H2.
  apply not_true_is_false in H1, H2. rewrite H1, H2. destruct fitted as [|d0 rest] eqn:E; [reflexivity|]. rewrite <- E in *.
  assert (filter stationary fitted = []) as ->; [|reflexivity]. destruct (filter stationary fitted) as [|d l] eqn:EF; [reflexivity|]. exfalso.
  assert (In d (filter stationary fitted)) as I by (rewrite EF; left; reflexivity). apply filter_In in I. destruct I as [I J]. exact (N d I J).
Qed.
Lemma bootstrap_few : (exists d, In d fitted /\ passes d) -> ~ more_than 8 counts_as_failed fitted -> ~ more_than 8 (fun d => o_small d = true) fitted ->
  (List.length fitted < 16)%nat -> run = Raise IndexError.
Proof.
  intros (d & Hd & P) H1 H2 L. unfold run, run_bootstrap. rewrite combinations_ok. cbn [bind]. cbv zeta. rewrite initial_all. cbn [bind].
  rewrite <- (count_more _ _ _ 8 fitted failed_spec) in H1. rewrite <- (count_more _ _ _ 8 fitted small_spec) in H2.
  apply not_true_is_false in H1, H2. rewrite H1, H2. destruct fitted as [|d0 rest] eqn:E; [destruct Hd|]. rewrite <- E in *.
  destruct (filter stationary fitted) as [|g gs] eqn:EG; [exfalso; assert (In d (filter stationary fitted)) as I by (apply filter_In; split; assumption); rewrite EG in I; destruct I|].
  pose proof (collect_weights (weights_of fitted) 16) as CW. assert (LW : List.length (weights_of fitted) = List.length fitted) by (unfold weights_of, normalized_weights; rewrite !map_length; reflexivity).
  destruct (collect _) as [nw|e]; [lia|]. destruct CW as [-> _]. reflexivity.
Qed.
(** A fit fails the test but the run goes on: there are fewer samples than repetitions. *)
Lemma bootstrap_short : forall errors, (exists d, In d fitted /\ passes d) -> (exists d, In d fitted /\ ~ passes d) -> ~ more_than 8 counts_as_failed fitted -> ~ more_than 8 (fun d => o_small d = true) fitted ->
  List.length fitted = 16%nat -> errors_of fitted errors -> (forall d, In d fitted -> List.length (o_season d) = List.length s) -> different_days s ->
  (forall i x e, refit i x = Raise e -> e = ValueError) -> (0 < reps)%nat -> run = Raise KeyError.
Proof.
  intros errors (d & Hd & P) (d' & Hd' & P') H1 H2 L EO LS DD V RP. unfold run, run_bootstrap. rewrite combinations_ok. cbn [bind]. cbv zeta. rewrite initial_all. cbn [bind].
  rewrite <- (count_more _ _ _ 8 fitted failed_spec) in H1. rewrite <- (count_more _ _ _ 8 fitted small_spec) in H2.
  apply not_true_is_false in H1, H2. rewrite H1, H2. destruct fitted as [|d0 rest] eqn:E; [destruct Hd|]. rewrite <- E in *.
  destruct (filter stationary fitted) as [|g gs] eqn:EG; [exfalso; assert (In d (filter stationary fitted)) as I by (apply filter_In; split; assumption); rewrite EG in I; destruct I|]. rewrite <- EG in *. clear EG.
  pose proof (collect_weights (weights_of fitted) 16) as CW. assert (LW : List.length (weights_of fitted) = List.length fitted) by (unfold weights_of, normalized_weights; rewrite !map_length; reflexivity).
  destruct (collect _) as [nw|e]; [|lia]. destruct CW as [_ ->]. cbn [bind]. fold per.
  destruct (weights_spec fitted errors ltac:(rewrite E; discriminate) EO) as (shares & w & _ & (W1 & W2 & _) & EW).
  assert (Lw : List.length w = 16%nat) by (rewrite <- (map_length Fin w), <- EW, LW; exact L).
  assert (FS : filter (fun p : nat * fl => fgt (snd p) (fz 0)) (combine (seq 0 16) (firstn 16 (weights_of fitted))) = combine (seq 0 16) (map Fin w)).
  { rewrite EW, firstn_all2 by (rewrite map_length; lia). clear - W2. assert (G : forall w (l : list nat), (forall x, In x w -> 0 < x) -> filter (fun p : nat * fl => fgt (snd p) (fz 0)) (combine l (map Fin w)) = combine l (map Fin w)).
    { clear. induction w as [|x w IH]; intros [|k l] W; try reflexivity. cbn [map combine filter snd]. change (fgt (Fin x) (fz 0)) with (qlt 0 x).
      assert (qlt 0 x = true) as -> by (apply qlt_spec, W; left; reflexivity). f_equal. apply IH. intros y Hy. apply W. right. exact Hy. }
    apply G, W2. }
  rewrite FS. set (signals := map _ _). assert (LSg : List.length signals = 16%nat) by (unfold signals; rewrite map_length, combine_length, seq_length, map_length, Lw; reflexivity).
  assert (DS : Forall different_days signals).
  { apply Forall_forall. intros x Hx. unfold signals in Hx. apply in_map_iff in Hx. destruct Hx as ([k v] & <- & Hk). cbn [fst]. apply in_combine_l in Hk. apply in_seq in Hk.
    assert (In (nth k fitted d0) fitted) as I by (apply nth_In; lia). specialize (LS _ I). unfold different_days in *.
    assert (map (fun r : Z * fl => ts_day (fst r)) (combine (times s) (o_season (nth k fitted d0))) = map (fun r : Z * fl => ts_day (fst r)) s) as ->; [|exact DD].
    rewrite <- (map_map fst ts_day), <- (map_map fst ts_day s). f_equal. clear - LS. unfold times. revert LS. generalize (o_season (nth k fitted d0)). induction s as [|[t v] l IH]; intros [|y m] H; try discriminate H; [reflexivity|]. cbn. f_equal. apply IH. cbn in H. lia. }
  pose proof (seasonal_samples_spec signals per draw) as SS. destruct (seasonal_samples signals per draw) as [seasons|e].
  - destruct SS as (_ & _ & S3 & _). cbn [bind]. pose proof per_reps as PR. pose proof (rounded_spec reps) as (_ & RL & _).
    assert (LG : (List.length (filter stationary fitted) < 16)%nat).
    { rewrite <- L. clear - Hd' P'. induction fitted as [|x l IH]; [destruct Hd'|]. destruct Hd' as [->|Hd'].
      - cbn. destruct (stationary d') eqn:ES; [elim P'; exact ES|]. pose proof (filter_short _ stationary l). lia.
      - specialize (IH Hd'). cbn. destruct (stationary x); cbn; lia. }
    rewrite refits_short; [reflexivity|exact V| | | |lia]; rewrite ?flat_map_rows, ?map_length, ?S3; [left; nia|lia|lia].
  - exfalso. destruct SS as [[C _]|(_ & _ & C)]; [rewrite C in LSg; discriminate LSg|exact (C DS)].
Qed.

End Whole.
