(** Proofs about the single fits of the CODS decomposition. *)

From Coq Require Import QArith Qcanon List ZArith Bool Arith Lia String.
From Verif.Base Require Import QcExtra ISort Quantile Fl TimeSeries Calendar Rolling.
From Verif.Spec Require Import Stats Soiling Cods CodsRun CodsStep.
From Verif.Model Require Import Soiling CodsTools CodsKalman Cods.
From Verif.Proofs Require Import FlP StatsP FiltersP FiltersP2 SoilP2 CodsP5 CodsP6.
Import ListNotations.
Open Scope list_scope.
Open Scope Qc_scope.

Lemma quotient_cols : forall a b, quotient a b (cols fdiv a b).
Proof.
  intros a b. unfold quotient, value_at, missing_at. split; [apply cols_length|]. split.
  - intros i p q A B NZ. exists (p / q). split; [|apply Qc_div_mul; exact NZ]. rewrite cols_nth, A, B, fdiv_fin by exact NZ. reflexivity.
  - intros i x y A B M. rewrite cols_nth, A, B. destruct M as [->| ->]; [|destruct x]; reflexivity.
Qed.

Lemma over_map : forall a d, d <> 0 -> over a d (map (fun x => fdiv x (Fin d)) a).
Proof.
  intros a d NZ. unfold over, value_at, missing_at. split; [apply map_length|]. split.
  - intros i p A. exists (p / d). split; [|apply Qc_div_mul; exact NZ]. rewrite nth_error_map_some, A, fdiv_fin by exact NZ. reflexivity.
  - intros i A. rewrite nth_error_map_some, A. reflexivity.
Qed.

Lemma either_map : forall a b, either a b (map (fun p => fst p || snd p) (combine a b)).
Proof.
  intros a b. unfold either. split; [rewrite map_length, combine_length; reflexivity|].
  intros i x y A B. rewrite nth_error_map_some, nth_error_combine, A, B. reflexivity.
Qed.

Section Step.
Context (F : fits) (stl ffill : bool) (index : list Z) (pi : list fl) (perfect : bool) (ic : nat) (st st' : cods_state) (x : fl).

(** The part of a step after the fit. *)
Lemma step_total : forall c, cods_step F stl ffill index pi c perfect ic st = Ok (st', x) ->
  exists total, composed pi (c_trend st') (c_season st') (c_ratio st') total (c_residuals st') (c_shift st') /\
    (noinf pi -> noinf total -> exists y, x = fit_root F y /\ mean_square pi total y).
Proof.
  intros c E. unfold cods_step in E.
  destruct (if String.eqb c "SR" then _ else _) as [s1|]; [|discriminate E]. cbn [bind] in E. unfold recombine in E. injection E as <- <-.
  cbn [c_trend c_season c_ratio c_residuals c_shift]. eexists. split; [apply composed_spec|]. intros NP NT. apply rmse_spec; assumption.
Qed.

Lemma step_rate : cods_step F stl ffill index pi "Rd" perfect ic st = Ok (st', x) ->
  exists seasonless input, quotient pi (c_season st) seasonless /\ quotient seasonless (c_ratio st) input /\
    fit_rate F input = Ok (c_rate st') /\ linear (List.length pi) (c_trend st') (c_rate st') /\
    c_ratio st' = c_ratio st /\ c_season st' = c_season st /\ c_frame st' = c_frame st /\
    c_events st' = c_events st /\ c_sensitivity st' = c_sensitivity st /\ c_pruning st' = c_pruning st.
Proof.
  intros E. unfold cods_step in E. cbn [String.eqb Ascii.eqb Bool.eqb] in E. unfold rate_step in E.
  destruct (fit_rate F _) as [rate|] eqn:EF; [|discriminate E]. cbn [bind] in E. unfold recombine in E. injection E as <- _.
  eexists. eexists. split; [apply quotient_cols|]. split; [apply quotient_cols|].
  cbn [c_rate c_trend c_ratio c_season c_frame c_events c_sensitivity c_pruning]. split; [exact EF|]. split; [apply linear_trend_ok|]. repeat split.
Qed.

Lemma step_season : cods_step F stl ffill index pi "SC" perfect ic st = Ok (st', x) ->
  exists input smooth trend season, quotient pi (c_ratio st) input /\ fit_season F input = Ok (smooth, trend) /\
    force_periodicity (combine index smooth) index = Ok season /\ c_season st' = vals season /\ seasonal index (c_season st') /\
    (stl = false -> c_trend st' = c_trend st /\ c_rate st' = c_rate st) /\
    (stl = true -> fit_rate F (c_trend st') = Ok (c_rate st') /\ forall d, value_at trend 0 d -> d <> 0 -> over trend d (c_trend st')) /\
    c_ratio st' = c_ratio st /\ c_frame st' = c_frame st /\
    c_events st' = c_events st /\ c_sensitivity st' = c_sensitivity st /\ c_pruning st' = c_pruning st.
Proof.
  intros E. unfold cods_step in E. cbn [String.eqb Ascii.eqb Bool.eqb] in E. unfold season_step in E.
  destruct (fit_season F _) as [[smooth trend]|] eqn:EF; [|discriminate E]. cbn [bind] in E.
  destruct (force_periodicity _ _) as [o|] eqn:EP; [|discriminate E]. cbn [bind] in E.
  exists (cols fdiv pi (c_ratio st)), smooth, trend, o. split; [apply quotient_cols|]. split; [exact EF|]. split; [exact EP|].
  pose proof (periodic_seasonal _ _ _ EP) as PS.
  destruct stl.
  - destruct (fit_rate F _) as [rate|] eqn:ER; [|discriminate E]. cbn [bind] in E. unfold recombine in E. injection E as <- _.
    cbn [c_rate c_trend c_ratio c_season c_frame c_events c_sensitivity c_pruning]. split; [reflexivity|]. split; [exact PS|]. split; [discriminate|].
    split; [|repeat split]. intros _. split; [exact ER|]. intros d V NZ. assert (at_row trend 0 = Fin d) as ->; [|apply over_map; exact NZ].
    unfold value_at in V. unfold at_row. destruct trend; [discriminate V|]. injection V as <-. reflexivity.
  - cbn [bind] in E. unfold recombine in E. injection E as <- _.
    cbn [c_rate c_trend c_ratio c_season c_frame c_events c_sensitivity c_pruning]. split; [reflexivity|]. split; [exact PS|]. split; [intros _; split; reflexivity|].
    split; [discriminate|repeat split].
Qed.

Lemma step_soiling : cods_step F stl ffill index pi "SR" perfect ic st = Ok (st', x) ->
  exists trendless seasonless input k, quotient pi (c_trend st) trendless /\ quotient trendless (c_season st) seasonless /\
    (forall d, c_shift st = Fin d -> d <> 0 -> over seasonless d input) /\
    fit_soiling F input (c_events st') perfect (c_pruning st') = Ok k /\ c_frame st' = Some k /\ c_ratio st' = k_ratio k /\
    c_season st' = c_season st /\ c_trend st' = c_trend st /\ c_rate st' = c_rate st /\
    ((ic <= 2)%nat -> c_events st' = c_events st /\ c_sensitivity st' = c_sensitivity st /\ c_pruning st' = c_pruning st) /\
    ((2 < ic)%nat -> exists old found new, c_frame st = Some old /\
       (forall q, c_sensitivity st = Fin q -> c_sensitivity st' = Fin (qf 6 5 * q)) /\
       (forall q, c_pruning st = Fin q -> exists q', c_pruning st' = Fin q' /\ q' * qf 11 10 = q) /\
       ce_detection ffill 9 (c_sensitivity st') (c_residuals st) = found /\
       collapse_cleaning_events 5 (fst found) (diffs (snd found)) = Ok new /\ either (k_events old) new (c_events st')).
Proof.
  intros E. unfold cods_step in E. cbn [String.eqb Ascii.eqb Bool.eqb] in E. unfold soiling_step in E.
  destruct (if (2 <? ic)%nat then _ else _) as [[[pce sens] prune]|] eqn:EI; [|discriminate E]. cbn [bind] in E.
  destruct (fit_soiling F _ pce perfect prune) as [k|] eqn:EF; [|discriminate E]. cbn [bind] in E. unfold recombine in E. injection E as <- _.
  eexists. eexists. eexists. exists k. split; [apply quotient_cols|]. split; [apply quotient_cols|].
  cbn [c_rate c_trend c_ratio c_season c_frame c_events c_sensitivity c_pruning].
  split; [|split; [exact EF|]]; [intros d -> NZ; apply over_map; exact NZ|]. do 5 (split; [reflexivity|]).
  destruct (Nat.ltb_spec 2 ic) as [L|L].
  - split; [lia|]. intros _. destruct (c_frame st) as [old|]; [|discriminate EI].
    destruct (ce_detection ffill 9 _ _) as [ce rm9] eqn:EC. destruct (collapse_cleaning_events 5 ce (diffs rm9)) as [new|] eqn:EN; [|discriminate EI].
    cbn [bind] in EI. injection EI as <- <- <-. exists old, (ce, rm9), new. split; [reflexivity|].
    split; [intros q ->; cbn [fmul ff]; f_equal; apply Qcmult_comm|].
    split; [intros q ->; exists (q / qf 11 10); split; [reflexivity|apply Qc_div_mul; discriminate]|].
    split; [exact EC|]. cbn [fst snd]. split; [exact EN|apply either_map].
  - split; [|lia]. intros _. injection EI as <- <- <-. repeat split.
Qed.
End Step.

(** An entry of the order that names no component fits nothing. *)
Lemma step_other : forall F stl ffill index pi c perfect ic st st' x, c <> "SR"%string -> c <> "SC"%string -> c <> "Rd"%string ->
  cods_step F stl ffill index pi c perfect ic st = Ok (st', x) ->
  c_ratio st' = c_ratio st /\ c_season st' = c_season st /\ c_trend st' = c_trend st /\ c_rate st' = c_rate st /\ c_frame st' = c_frame st /\
  c_events st' = c_events st /\ c_sensitivity st' = c_sensitivity st /\ c_pruning st' = c_pruning st.
Proof.
  intros F stl ffill index pi c perfect ic st st' x H1 H2 H3 E. unfold cods_step in E.
  apply String.eqb_neq in H1, H2, H3. rewrite H1, H2, H3 in E. cbn [bind] in E. unfold recombine in E. injection E as <- _. repeat split.
Qed.
