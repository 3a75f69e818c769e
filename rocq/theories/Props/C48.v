(** C48: weights, repetitions and estimates of the CODS bootstrap *)

From Coq Require Import QArith Qcanon List ZArith Bool Arith Lia Permutation Sorted.
From Verif.Base Require Import QcExtra ISort Quantile Fl TimeSeries Calendar Rolling.
From Verif.Spec Require Import Stats Soiling Cods Seasonal CodsRun CodsBoot.
From Verif.Model Require Import Soiling CodsTools CodsKalman Cods.
From Verif.Proofs Require Import FlP CodsP5 CodsP6 CodsP7 CodsP8 CodsP9 CodsP10.
Import ListNotations.
Open Scope list_scope.
Open Scope Qc_scope.
From Coq Require Import String.

(** The repetitions are rounded up to a multiple of 16. *)
Theorem C48_repetitions : forall reps, next_multiple 16 reps (rounded_reps reps).
Proof. exact rounded_spec. Qed.

(** Two alternatives of each parameter. *)
Theorem C48_combinations : forall orders sens prune fill,
  match combinations orders sens prune fill with
  | Ok l => (2 <= List.length orders)%nat /\ (2 <= List.length sens)%nat /\ (2 <= List.length prune)%nat /\ (2 <= List.length fill)%nat /\
            l = all_choices (firstn 2 orders) (firstn 2 sens) (firstn 2 prune) (firstn 2 fill)
  | Raise e => e = IndexError /\ (List.length orders < 2 \/ List.length sens < 2 \/ List.length prune < 2 \/ List.length fill < 2)%nat
  end.
Proof. exact combinations_spec. Qed.

(** The weights are positive, add up to one and are inverse to the errors. *)
Theorem C48_weights : forall l errors, l <> [] -> errors_of l errors ->
  exists shares w, shares_of l shares /\ inverse_weights errors shares w /\ weights_of l = map Fin w.
Proof. exact weights_spec. Qed.

(** A weighted mean lies between the values. *)
Theorem C48_between : forall w x m lo hi, weighted_mean w x m -> (forall y, In y w -> 0 < y) -> qsum w = 1 ->
  (forall y, In y x -> lo <= y) -> (forall y, In y x -> y <= hi) -> lo <= m /\ m <= hi.
Proof. exact weighted_between. Qed.

(** The estimates; every fit passed the test. *)
Theorem C48_estimates : forall (orders : list (list string)) (sens prune : list fl) (fill : list bool) (reps : nat) (cl : Qc)
    (fit : choice -> result decomposition) (sampled : nat -> nat -> list fl) (draw : nat -> nat -> fl * Z)
    (refit : nat -> list fl -> result decomposition) (yoy : list fl -> result (fl * (fl * fl))) (s : series),
  let run := run_bootstrap orders sens prune fill reps cl fit sampled draw refit yoy s in
  let choices := all_choices (firstn 2 orders) (firstn 2 sens) (firstn 2 prune) (firstn 2 fill) in
  let per := (rounded_reps reps / 16)%nat in
  forall r, run = Ok r -> cr_small r = false ->
  exists fitted last saved, Forall2 (fun c d => fit c = Ok d) choices fitted /\ List.length fitted = 16%nat /\ nth_error fitted 15 = Some last /\
    (forall d, In d fitted -> passes d) /\ ~ more_than 8 counts_as_failed fitted /\ ~ more_than 8 (fun d => o_small d = true) fitted /\
    summary_of cl (vals s) last saved r /\
    forall p, In p saved -> passes (fst p) /\ exists i d, (i < rounded_reps reps)%nat /\ nth_error fitted (i / per) = Some d /\
      snd p = vals (seasonal_sample (combine (times s) (o_season d)) (fst (draw (i / per) (i mod per))) (snd (draw (i / per) (i mod per))))%nat /\
      refit i (cols fdiv (sampled (i / per) (i mod per)) (snd p))%nat = Ok (fst p).
Proof. exact bootstrap_estimates. Qed.

(** The result for a small soiling signal. *)
Theorem C48_small : forall (orders : list (list string)) (sens prune : list fl) (fill : list bool) (reps : nat) (cl : Qc)
    (fit : choice -> result decomposition) (sampled : nat -> nat -> list fl) (draw : nat -> nat -> fl * Z)
    (refit : nat -> list fl -> result decomposition) (yoy : list fl -> result (fl * (fl * fl))) (s : series),
  let run := run_bootstrap orders sens prune fill reps cl fit sampled draw refit yoy s in
  let choices := all_choices (firstn 2 orders) (firstn 2 sens) (firstn 2 prune) (firstn 2 fill) in
  forall r, run = Ok r -> cr_small r = true ->
  exists used fitted best y b, Forall2 (fun c d => fit c = Ok d) used fitted /\ (forall c, In c choices -> In c used \/ fit c = Raise ValueError) /\
    ~ more_than 8 counts_as_failed fitted /\ more_than 8 (fun d => o_small d = true) fitted /\
    yoy (vals s) = Ok y /\ cr_degradation r = (fst y, fst (snd y), snd (snd y)) /\
    nth_error fitted b = Some best /\
    (forall errors, errors_of fitted errors -> exists shares w, shares_of fitted shares /\ inverse_weights errors shares w /\ heaviest w b) /\
    cr_ratio r = o_ratio best /\ cr_season r = o_season best /\ cr_trend r = o_trend best /\ cr_total r = o_total best /\ cr_residuals r = o_residuals best /\ cr_shift r = o_shift best /\
    cr_events r = map (fun b : bool => if b then Fin 1 else Fin 0) (o_events best) /\ cr_ratio_low r = [] /\ cr_ratio_high r = [] /\ cr_bt_ratio r = [] /\
    (exists top, cr_loss r = (Fin 0, Fin 0, top) /\ (noinf (o_ratio best) -> finvals (o_ratio best) <> [] -> exists m, mean_of (o_ratio best) m /\ top = Fin (1 - m))).
Proof. exact bootstrap_small. Qed.

(** Too few alternatives. *)
Theorem C48_alternatives : forall (orders : list (list string)) (sens prune : list fl) (fill : list bool) (reps : nat) (cl : Qc)
    (fit : choice -> result decomposition) (sampled : nat -> nat -> list fl) (draw : nat -> nat -> fl * Z)
    (refit : nat -> list fl -> result decomposition) (yoy : list fl -> result (fl * (fl * fl))) (s : series),
  let run := run_bootstrap orders sens prune fill reps cl fit sampled draw refit yoy s in
  (List.length orders < 2 \/ List.length sens < 2 \/ List.length prune < 2 \/ List.length fill < 2)%nat -> run = Raise IndexError.
Proof. exact bootstrap_alternatives. Qed.

(** More than eight failed fits. *)
Theorem C48_unstable : forall (orders : list (list string)) (sens prune : list fl) (fill : list bool) (reps : nat) (cl : Qc)
    (fit : choice -> result decomposition) (sampled : nat -> nat -> list fl) (draw : nat -> nat -> fl * Z)
    (refit : nat -> list fl -> result decomposition) (yoy : list fl -> result (fl * (fl * fl))) (s : series),
  let run := run_bootstrap orders sens prune fill reps cl fit sampled draw refit yoy s in
  let choices := all_choices (firstn 2 orders) (firstn 2 sens) (firstn 2 prune) (firstn 2 fill) in
  (2 <= List.length orders /\ 2 <= List.length sens /\ 2 <= List.length prune /\ 2 <= List.length fill)%nat ->
  (forall c e, In c choices -> fit c = Raise e -> e = ValueError) ->
  let fitted := fits_of fit choices in
  more_than 8 counts_as_failed fitted -> run = Raise RuntimeError.
Proof. exact bootstrap_unstable. Qed.

(** No fit at all passes. *)
Theorem C48_none : forall (orders : list (list string)) (sens prune : list fl) (fill : list bool) (reps : nat) (cl : Qc)
    (fit : choice -> result decomposition) (sampled : nat -> nat -> list fl) (draw : nat -> nat -> fl * Z)
    (refit : nat -> list fl -> result decomposition) (yoy : list fl -> result (fl * (fl * fl))) (s : series),
  let run := run_bootstrap orders sens prune fill reps cl fit sampled draw refit yoy s in
  let choices := all_choices (firstn 2 orders) (firstn 2 sens) (firstn 2 prune) (firstn 2 fill) in
  (2 <= List.length orders /\ 2 <= List.length sens /\ 2 <= List.length prune /\ 2 <= List.length fill)%nat ->
  (forall c e, In c choices -> fit c = Raise e -> e = ValueError) ->
  let fitted := fits_of fit choices in
  (forall d, In d fitted -> ~ passes d) -> ~ more_than 8 counts_as_failed fitted -> ~ more_than 8 (fun d => o_small d = true) fitted -> run = Raise ValueError.
Proof. exact bootstrap_none. Qed.

(** Fewer than sixteen fits. *)
Theorem C48_few : forall (orders : list (list string)) (sens prune : list fl) (fill : list bool) (reps : nat) (cl : Qc)
    (fit : choice -> result decomposition) (sampled : nat -> nat -> list fl) (draw : nat -> nat -> fl * Z)
    (refit : nat -> list fl -> result decomposition) (yoy : list fl -> result (fl * (fl * fl))) (s : series),
  let run := run_bootstrap orders sens prune fill reps cl fit sampled draw refit yoy s in
  let choices := all_choices (firstn 2 orders) (firstn 2 sens) (firstn 2 prune) (firstn 2 fill) in
  (2 <= List.length orders /\ 2 <= List.length sens /\ 2 <= List.length prune /\ 2 <= List.length fill)%nat ->
  (forall c e, In c choices -> fit c = Raise e -> e = ValueError) ->
  let fitted := fits_of fit choices in
  (exists d, In d fitted /\ passes d) -> ~ more_than 8 counts_as_failed fitted -> ~ more_than 8 (fun d => o_small d = true) fitted ->
  (List.length fitted < 16)%nat -> run = Raise IndexError.
Proof. exact bootstrap_few. Qed.

(** Sixteen fits of which one failed the test: there are too few samples. *)
Theorem C48_short : forall (orders : list (list string)) (sens prune : list fl) (fill : list bool) (reps : nat) (cl : Qc)
    (fit : choice -> result decomposition) (sampled : nat -> nat -> list fl) (draw : nat -> nat -> fl * Z)
    (refit : nat -> list fl -> result decomposition) (yoy : list fl -> result (fl * (fl * fl))) (s : series),
  let run := run_bootstrap orders sens prune fill reps cl fit sampled draw refit yoy s in
  let choices := all_choices (firstn 2 orders) (firstn 2 sens) (firstn 2 prune) (firstn 2 fill) in
  (2 <= List.length orders /\ 2 <= List.length sens /\ 2 <= List.length prune /\ 2 <= List.length fill)%nat ->
  (forall c e, In c choices -> fit c = Raise e -> e = ValueError) ->
  let fitted := fits_of fit choices in
  forall errors, (exists d, In d fitted /\ passes d) -> (exists d, In d fitted /\ ~ passes d) -> ~ more_than 8 counts_as_failed fitted -> ~ more_than 8 (fun d => o_small d = true) fitted ->
  List.length fitted = 16%nat -> errors_of fitted errors -> (forall d, In d fitted -> List.length (o_season d) = List.length s) -> different_days s ->
  (forall i x e, refit i x = Raise e -> e = ValueError) -> (0 < reps)%nat -> run = Raise KeyError.
Proof. exact bootstrap_short. Qed.

(** Three days; the first combination fits better than the others.  [bad] fits fail the test. *)
Definition three : series := [(0, fz 1); (86400000000000, ff 9 10); (172800000000000, ff 4 5)]%Z.
Definition flat (q error test : fl) : decomposition :=
  Decomp [q; q; q] [fz 0; fz 0; fz 0] [false; true; false] [fz 1; fz 1; fz 1] [fz 1; fz 1; fz 1] [q; q; q] [fz 1; fz 1; fz 1] (fz (-1)) (fz 2) (fz 1) error false (fz (-5), test).
Definition two_fits (test : choice -> fl) (c : choice) : result decomposition :=
  Ok (if feq (snd (fst (fst c))) (fz 1) then flat (ff 1 2) (fz 1) (test c) else flat (ff 3 4) (fz 2) (test c)).
Notation example_run fit reps := (run_bootstrap [["SR"]; ["SC"]]%string [fz 1; fz 2] [fz 1; fz 2] [true; false] reps%nat (qz 95) fit (fun _ _ => map snd three) (fun _ _ => (fz 1, 0%Z))
    (fun i _ => Ok (flat (ff (Z.of_nat (i mod 3)) 10) (fz 1) (if (i mod 5 =? 0)%nat then fz 1 else fz 0))) (fun _ => Ok (fz 1, (fz 0, fz 2))) three).
Definition good_fit : choice -> result decomposition := two_fits (fun _ => fz 0).
Definition shown {A : Type} (f : cods_result -> A) (r : result cods_result) : option A := match r with Ok x => Some (f x) | Raise _ => None end.
Example C48_example : rounded_reps 0 = 0%nat /\ rounded_reps 17 = 32%nat /\ rounded_reps 512 = 512%nat /\
  shown (fun r => (feq (fst (fst (cr_degradation r))) (fz (-1)), feq (fst (fst (cr_loss r))) (fz 2))) (example_run good_fit 1) = Some (true, true) /\
  shown (fun r => map (fun x => feq x (ff 3 4)) (cr_ratio r)) (example_run good_fit 1) = Some [true; true; true].
Proof. split; [reflexivity|]. split; [vm_compute; reflexivity|]. split; [vm_compute; reflexivity|]. split; [vm_compute; reflexivity|vm_compute; reflexivity]. Qed.
Definition is_error {A : Type} (e : exn) (r : result A) : bool := match r, e with Raise KeyError, KeyError => true | Raise IndexError, IndexError => true | Raise ValueError, ValueError => true | Raise RuntimeError, RuntimeError => true | _, _ => false end.
Example C48_errors :
  is_error RuntimeError (example_run (two_fits (fun _ => fz 1)) 1) = true /\
  is_error KeyError (example_run (two_fits (fun c => if feq (snd (fst (fst c))) (fz 1) && feq (snd (fst c)) (fz 1) then fz 1 else fz 0)) 1) = true /\
  is_error IndexError (example_run (fun c => if snd c then good_fit c else Raise ValueError) 1) = true /\
  is_error ValueError (example_run (fun c => Raise ValueError) 1) = true /\ is_error ValueError (example_run good_fit 0) = true.
Proof. split; [vm_compute; reflexivity|]. split; [vm_compute; reflexivity|]. split; [vm_compute; reflexivity|]. split; vm_compute; reflexivity. Qed.

(** The fit with the largest weight is not the one whose soiling ratio is returned. *)
Definition best_claim : Prop := forall orders sens prune fill reps cl fit sampled draw refit yoy s r fitted errors shares w b best,
  run_bootstrap orders sens prune fill reps cl fit sampled draw refit yoy s = Ok r -> cr_small r = false ->
  Forall2 (fun c d => fit c = Ok d) (all_choices (firstn 2 orders) (firstn 2 sens) (firstn 2 prune) (firstn 2 fill)) fitted ->
  errors_of fitted errors -> shares_of fitted shares -> inverse_weights errors shares w -> heaviest w b -> nth_error fitted b = Some best ->
  Forall2 limited (o_ratio best) (cr_ratio r).
Definition blocks {A : Type} (a b : A) : list A := [a; a; a; a; b; b; b; b; a; a; a; a; b; b; b; b].
Lemma weights_sum : qsum (blocks (qf 1 12) (qf 1 24)) = 1.
Proof. apply Qc_is_canon. vm_compute. reflexivity. Qed.
Lemma weights_equal : forall i, (i < 16)%nat -> nth i (blocks (qf 1 12) (qf 1 24)) 0 * (nth i (blocks 1 (qz 2)) 0 * (1 + nth i (blocks 0 0) 0)) = qf 1 12.
Proof. intros i Hi. do 16 (destruct i as [|i]; [apply Qc_is_canon; vm_compute; reflexivity|]). lia. Qed.
Lemma weights_heaviest : heaviest (blocks (qf 1 12) (qf 1 24)) 0.
Proof. split; [cbn; lia|]. split; [|intros j Hj; lia]. intros j Hj. cbn in Hj. do 16 (destruct j as [|j]; [cbn [nth blocks]; discriminate|]). lia. Qed.
Lemma no_ones : forall q e t, q <> 1 -> share_of_ones (o_ratio (flat (Fin q) e t)) 0.
Proof. intros q e t N. unfold share_of_ones, flat. cbn [o_ratio filter]. destruct (Qc_eq_dec q 1) as [C|_]; [elim N; exact C|]. apply Qc_is_canon. reflexivity. Qed.
Lemma example_tested : shown (fun r => (cr_small r, map (fun x => feq x (ff 3 4)) (cr_ratio r))) (example_run good_fit 1) = Some (false, [true; true; true]).
Proof. vm_compute. reflexivity. Qed.
Lemma example_result : exists r, example_run good_fit 1 = Ok r /\ cr_small r = false /\ map (fun x => feq x (ff 3 4)) (cr_ratio r) = [true; true; true].
Proof.
  pose proof example_tested as T. destruct (example_run good_fit 1) as [r|e]; [|discriminate T]. exists r. cbn [shown] in T.
  pose proof (f_equal (fun o => match o with Some p => fst p | None => true end) T) as A. pose proof (f_equal (fun o => match o with Some p => snd p | None => [] end) T) as B. auto.
Qed.
Theorem C48_best_refuted : ~ best_claim.
Proof.
  intros H. set (best := flat (ff 1 2) (fz 1) (fz 0)). set (other := flat (ff 3 4) (fz 2) (fz 0)).
  destruct example_result as (r & E & T1 & T2).
  specialize (H _ _ _ _ _ _ _ _ _ _ _ _ r (blocks best other) (blocks 1 (qz 2)) (blocks 0 0) (blocks (qf 1 12) (qf 1 24)) 0%nat best E T1).
  assert (L : Forall2 limited (o_ratio best) (cr_ratio r)).
  { apply H.
    - unfold blocks. cbn [firstn all_choices flat_map map app]. repeat constructor.
    - split; [reflexivity|]. split.
      + intros x Hx. cbn in Hx. repeat (destruct Hx as [<-|Hx]; [reflexivity|]). destruct Hx.
      + intros d Hd. cbn in Hd. repeat (destruct Hd as [<-|Hd]; [discriminate|]). destruct Hd.
    - assert (A1 : share_of_ones (o_ratio best) 0) by (apply no_ones; discriminate). assert (A2 : share_of_ones (o_ratio other) 0) by (apply no_ones; discriminate).
      unfold shares_of, blocks. repeat constructor; assumption.
    - split; [reflexivity|]. split; [intros x Hx; cbn in Hx; repeat (destruct Hx as [<-|Hx]; [reflexivity|]); destruct Hx|]. split; [exact weights_sum|].
      intros i j Hi Hj. rewrite (weights_equal i Hi), (weights_equal j Hj). reflexivity.
    - exact weights_heaviest.
    - reflexivity. }
  destruct (cr_ratio r) as [|x l]; [inversion L|]. cbn [map] in T2. assert (feq x (ff 3 4) = true) as X by congruence. inversion L as [|u v lu lv C _]. subst u v lu lv.
  destruct C as [(_ & _ & C)|[(C & _)|[(C & _)|(C & _)]]]; [|discriminate C|discriminate C|discriminate C]. subst x. discriminate X.
Qed.
Print Assumptions C48_best_refuted.

Print Assumptions C48_repetitions.
Print Assumptions C48_combinations.
Print Assumptions C48_weights.
Print Assumptions C48_between.
Print Assumptions C48_estimates.
Print Assumptions C48_small.
Print Assumptions C48_alternatives.
Print Assumptions C48_unstable.
Print Assumptions C48_none.
Print Assumptions C48_few.
Print Assumptions C48_short.
