(** C46: the output of the CODS decomposition *)

From Coq Require Import QArith Qcanon List ZArith Bool Arith Lia Permutation Sorted.
From Verif.Base Require Import QcExtra ISort Quantile Fl TimeSeries Calendar Rolling.
From Verif.Spec Require Import Stats Soiling Cods Seasonal CodsRun Kalman CodsStep.
From Verif.Model Require Import Soiling CodsTools CodsKalman Cods.
From Verif.Proofs Require Import FlP CodsP5 CodsP6 CodsP7 CodsP8 CodsP10 CodsP11.
Import ListNotations.
Open Scope list_scope.
Open Scope Qc_scope.
From Coq Require Import String.

(** Total model, residuals, losses and errors of the components returned. *)
Theorem C46_output : forall F adf order stl max sens crit prune sig ffill s d,
  snd (decompose F adf order stl max sens crit prune (Fin sig) ffill s) = Ok d ->
  let pi := vals s in
  (exists input pce perfect pruning k, fit_soiling F input pce perfect pruning = Ok k /\ o_ratio d = k_ratio k /\ o_rates d = k_rates k /\ o_events d = k_events k) /\
  (stl = false -> linear (List.length s) (o_trend d) (o_rate d)) /\ seasonal (times s) (o_season d) /\
  composed pi (o_ratio d) (o_season d) (o_trend d) (o_total d) (o_residuals d) (o_shift d) /\
  adf (dropna (o_residuals d)) = Ok (o_adf d) /\
  (noinf (o_ratio d) -> finvals (o_ratio d) <> [] -> exists m, mean_of (o_ratio d) m /\ o_loss d = Fin (qz 100 * (1 - m))) /\
  (noinf pi -> noinf (o_total d) -> exists x, o_rmse d = fit_root F x /\ mean_square pi (o_total d) x) /\
  (noinf (o_ratio d) -> finvals (o_ratio d) <> [] -> noinf (o_residuals d) -> finvals (o_residuals d) <> [] ->
     exists lo hi lo' hi', is_percentile (qz 10) (finvals (o_ratio d)) lo /\ is_percentile (qz 90) (finvals (o_ratio d)) hi /\
       is_percentile (qz 10) (finvals (o_residuals d)) lo' /\ is_percentile (qz 90) (finvals (o_residuals d)) hi' /\ lo' < hi' /\
       (o_small d = true <-> hi - lo < sig * (hi' - lo'))).
Proof. exact decompose_output. Qed.

(** With the Kalman filter. *)
Theorem C46_kalman : forall F rounds iterations pn renorm clip adf order stl max sens crit prune sig ffill s d,
  fit_soiling F = kalman_fit rounds iterations pn renorm clip ->
  snd (decompose F adf order stl max sens crit prune (Fin sig) ffill s) = Ok d ->
  (exists input pce perfect pruning k, kalman_filter_for_SR rounds input pn (ff 1 20) (ff 1 200) (ff 1 2000) iterations pruning renorm perfect (Some pce) clip true = Some (Ok k) /\
     o_ratio d = k_ratio k /\ o_rates d = k_rates k /\ o_events d = k_events k) /\
  (clip = true -> forall x, In x (o_ratio d) -> fle x (fz 1) = true \/ x = NaN) /\
  (clip = true -> noinf (o_ratio d) -> finvals (o_ratio d) <> [] -> exists loss, o_loss d = Fin loss /\ 0 <= loss).
Proof. exact decompose_kalman. Qed.

(** When the last step fails. *)
Theorem C46_failure : forall F adf sig pi st e, finish F adf sig pi st = Raise e ->
  (c_frame st = None /\ e = IndexError) \/
  exists k, c_frame st = Some k /\ let residuals := cols fdiv pi (cols fmul (cols fmul (k_ratio k) (c_season st)) (c_trend st)) in
    (adf (dropna residuals) = Raise e \/
     (e = ZeroDivisionError /\ (exists x, adf (dropna residuals) = Ok x) /\
      (noinf residuals -> finvals residuals <> [] -> exists v, is_percentile (qz 10) (finvals residuals) v /\ is_percentile (qz 90) (finvals residuals) v))).
Proof. exact finish_raises. Qed.

(** Every column has a value for every row. *)
Theorem C46_rows : forall fuel zs pn zstd rstd mr iterations prune renorm perfect p clip ffill fr,
  kalman_filter_for_SR fuel zs pn zstd rstd mr iterations prune renorm perfect p clip ffill = Some (Ok fr) ->
  List.length (k_level fr) = List.length zs /\ List.length (k_rate fr) = List.length zs /\ List.length (k_ratio fr) = List.length zs /\
  List.length (k_rates fr) = List.length zs /\ List.length (k_events fr) = List.length zs /\ List.length (k_days fr) = List.length zs.
Proof. exact frame_rows. Qed.

(** Days since cleaning. *)
Theorem C46_days : forall fuel zs pn zstd rstd mr iterations prune renorm perfect p clip ffill fr,
  kalman_filter_for_SR fuel zs pn zstd rstd mr iterations prune renorm perfect p clip ffill = Some (Ok fr) ->
  forall i, (i < List.length zs)%nat ->
  exists d, days_since_event (k_events fr) i d /\ nth_error (k_days fr) i = Some (Fin (qz (Z.of_nat d))).
Proof. exact frame_days. Qed.

(** Clipping. *)
Theorem C46_clip : forall fuel zs pn zstd rstd mr iterations prune renorm perfect p clip ffill fr,
  kalman_filter_for_SR fuel zs pn zstd rstd mr iterations prune renorm perfect p clip ffill = Some (Ok fr) ->
  clip = true -> forall x, In x (k_ratio fr) -> fle x (fz 1) = true \/ x = NaN.
Proof. exact frame_clip. Qed.

(** The soiling ratio in terms of the level found by the filter. *)
Theorem C46_ratio : forall fuel zs pn zstd rstd mr iterations prune renorm perfect p clip ffill fr,
  kalman_filter_for_SR fuel zs pn zstd rstd mr iterations prune renorm perfect p clip ffill = Some (Ok fr) ->
  forall levels, k_level fr = map Fin levels -> (perfect = true -> forall x, In x levels -> x <> 0) -> (0 < iterations)%nat ->
  exists before, List.length before = List.length zs /\
    (if perfect then forall i, (i < List.length zs)%nat -> perfect_ratio (k_events fr) levels i (nth i before 0) else before = levels) /\
    match renorm with
    | None => forall i, (i < List.length zs)%nat -> exists y, clipped clip (nth i before 0) y /\ nth_error (k_ratio fr) i = Some (Fin y)
    | Some q => 0 <= q -> q <= 1 ->
       (no_event (k_events fr) /\ k_ratio fr = map (fun _ => NaN) zs) \/
       exists d, renormalised q (k_events fr) before d /\
         (d <> 0 -> forall i, (i < List.length zs)%nat -> exists y, clipped clip (nth i before 0 / d) y /\ nth_error (k_ratio fr) i = Some (Fin y))
    end.
Proof. exact frame_ratio. Qed.

(** The soiling rates. *)
Theorem C46_rates : forall fuel zs pn zstd rstd mr iterations prune renorm perfect p clip ffill fr,
  kalman_filter_for_SR fuel zs pn zstd rstd mr iterations prune renorm perfect p clip ffill = Some (Ok fr) ->
  clip = true -> (0 < iterations)%nat -> forall i, (i < List.length zs)%nat ->
  (unchanged (k_ratio fr) i /\ nth_error (k_rates fr) i = Some (Fin 0)) \/ (~ unchanged (k_ratio fr) i /\ nth_error (k_rates fr) i = nth_error (k_rate fr) i).
Proof. exact frame_rates. Qed.

(** Without clipping the rates are never set. *)
Theorem C46_no_rates : forall fuel zs pn zstd rstd mr iterations prune renorm perfect p clip ffill fr,
  kalman_filter_for_SR fuel zs pn zstd rstd mr iterations prune renorm perfect p clip ffill = Some (Ok fr) ->
  clip = false -> k_rates fr = map (fun _ => NaN) zs.
Proof. exact frame_no_rates. Qed.

(** Without rounds nothing is. *)
Theorem C46_no_rounds : forall fuel zs pn zstd rstd mr iterations prune renorm perfect p clip ffill fr,
  kalman_filter_for_SR fuel zs pn zstd rstd mr iterations prune renorm perfect p clip ffill = Some (Ok fr) ->
  iterations = 0%nat -> k_ratio fr = map (fun _ => NaN) zs /\ k_rates fr = map (fun _ => NaN) zs.
Proof. exact frame_no_rounds. Qed.

(** A fit of the rate: the data without season and soiling are given to it, and the trend becomes a line. *)
Theorem C46_rate_fit : forall F stl ffill index pi perfect ic st st' x, cods_step F stl ffill index pi "Rd" perfect ic st = Ok (st', x) ->
  exists seasonless input, quotient pi (c_season st) seasonless /\ quotient seasonless (c_ratio st) input /\
    fit_rate F input = Ok (c_rate st') /\ linear (List.length pi) (c_trend st') (c_rate st') /\
    c_ratio st' = c_ratio st /\ c_season st' = c_season st /\ c_frame st' = c_frame st /\
    c_events st' = c_events st /\ c_sensitivity st' = c_sensitivity st /\ c_pruning st' = c_pruning st.
Proof. exact step_rate. Qed.

(** A fit of the season: the data without soiling are given to it; only a decomposition with STL changes trend and rate. *)
Theorem C46_season_fit : forall F stl ffill index pi perfect ic st st' x, cods_step F stl ffill index pi "SC" perfect ic st = Ok (st', x) ->
  exists input smooth trend season, quotient pi (c_ratio st) input /\ fit_season F input = Ok (smooth, trend) /\
    force_periodicity (combine index smooth) index = Ok season /\ c_season st' = vals season /\ seasonal index (c_season st') /\
    (stl = false -> c_trend st' = c_trend st /\ c_rate st' = c_rate st) /\
    (stl = true -> fit_rate F (c_trend st') = Ok (c_rate st') /\ forall d, value_at trend 0 d -> d <> 0 -> over trend d (c_trend st')) /\
    c_ratio st' = c_ratio st /\ c_frame st' = c_frame st /\
    c_events st' = c_events st /\ c_sensitivity st' = c_sensitivity st /\ c_pruning st' = c_pruning st.
Proof. exact step_season. Qed.

(** A fit of the soiling: the data without trend, season and mean residual are given to it; after the second fit the cleaning events
    are those found before or in the residuals, with thresholds changed. *)
Theorem C46_soiling_fit : forall F stl ffill index pi perfect ic st st' x, cods_step F stl ffill index pi "SR" perfect ic st = Ok (st', x) ->
  exists trendless seasonless input k, quotient pi (c_trend st) trendless /\ quotient trendless (c_season st) seasonless /\
    (forall d, c_shift st = Fin d -> d <> 0 -> over seasonless d input) /\
    fit_soiling F input (c_events st') perfect (c_pruning st') = Ok k /\ c_frame st' = Some k /\ c_ratio st' = k_ratio k /\
    c_season st' = c_season st /\ c_trend st' = c_trend st /\ c_rate st' = c_rate st /\
    ((ic <= 2)%nat -> c_events st' = c_events st /\ c_sensitivity st' = c_sensitivity st /\ c_pruning st' = c_pruning st) /\
    ((2 < ic)%nat -> exists old found new, c_frame st = Some old /\
       (forall q, c_sensitivity st = Fin q -> c_sensitivity st' = Fin (qf 6 5 * q)) /\
       (forall q, c_pruning st = Fin q -> exists q', c_pruning st' = Fin q' /\ q' * qf 11 10 = q) /\
       ce_detection ffill 9 (c_sensitivity st') (c_residuals st) = found /\
       collapse_cleaning_events 5 (fst found) (diffs (snd found)) = Ok new /\ either (k_events old) new (c_events st')).
Proof. exact step_soiling. Qed.

(** Other names fit nothing. *)
Theorem C46_other_fit : forall F stl ffill index pi c perfect ic st st' x, c <> "SR"%string -> c <> "SC"%string -> c <> "Rd"%string ->
  cods_step F stl ffill index pi c perfect ic st = Ok (st', x) ->
  c_ratio st' = c_ratio st /\ c_season st' = c_season st /\ c_trend st' = c_trend st /\ c_rate st' = c_rate st /\ c_frame st' = c_frame st /\
  c_events st' = c_events st /\ c_sensitivity st' = c_sensitivity st /\ c_pruning st' = c_pruning st.
Proof. exact step_other. Qed.

(** Every fit leaves residuals, shift and error of the product of the components. *)
Theorem C46_fit_total : forall F stl ffill index pi perfect ic st st' x, forall c, cods_step F stl ffill index pi c perfect ic st = Ok (st', x) ->
  exists total, composed pi (c_trend st') (c_season st') (c_ratio st') total (c_residuals st') (c_shift st') /\
    (noinf pi -> noinf total -> exists y, x = fit_root F y /\ mean_square pi total y).
Proof. exact step_total. Qed.

(** A fall by 1/100 a day over 15 days and five known cleanings. *)
Definition known : list bool := map (fun i => existsb (Nat.eqb i) [2; 4; 6; 10; 12]%nat) (seq 0 15).
Definition falling : list fl := map (fun i => fsub (fz 1) (ff (Z.of_nat i) 100)) (seq 0 15).
Definition example_fit (renorm : option Qc) (perfect : bool) : option (result kalman_frame) :=
  kalman_filter_for_SR 1 falling (fz 0) (fz 1) (fz 1) (fz 1) 1 (fz 100) renorm perfect (Some known) true true.
Definition shown {A : Type} (f : kalman_frame -> A) (x : option (result kalman_frame)) : option A := match x with Some (Ok k) => Some (f k) | _ => None end.
Example C46_example :
  shown k_days (example_fit None true) = Some (map fz [0; 1; 0; 1; 0; 1; 0; 1; 2; 3; 0; 1; 0; 1; 2]%Z) /\ shown k_events (example_fit None true) = Some known /\
  shown (fun k => feq (at_row (k_ratio k) 4) (fz 1)) (example_fit None true) = Some true /\
  shown k_ratio (kalman_filter_for_SR 1 (repeat (fz 1) 11) (fz 0) (fz 1) (fz 1) (fz 1) 1 (fz 1) (Some (qf 1 2)) true None true true) = Some (repeat NaN 11) /\
  shown k_rates (kalman_filter_for_SR 1 (repeat (fz 1) 11) (fz 0) (fz 1) (fz 1) (fz 1) 1 (fz 1) None true None false true) = Some (repeat NaN 11).
Proof. split; [fcompute|]. split; [vm_compute; reflexivity|]. split; [vm_compute; reflexivity|]. split; [vm_compute; reflexivity|]. vm_compute; reflexivity. Qed.
(** The level of the example has no zero. *)
Example C46_hypotheses : exists k levels, example_fit None true = Some (Ok k) /\ k_level k = map Fin levels /\ (forall x, In x levels -> x <> 0).
Proof.
  assert (H : match shown k_level (example_fit None true) with Some l => forallb (fun x => match x with Fin _ => negb (feq x (fz 0)) | _ => false end) l | None => false end = true) by (vm_compute; reflexivity).
  destruct (example_fit None true) as [[k|e]|]; try discriminate H. cbn [shown] in H. rewrite forallb_forall in H. exists k, (finvals (k_level k)). split; [reflexivity|].
  assert (A : forall x, In x (k_level k) -> exists q, x = Fin q /\ q <> 0).
  { intros x I. specialize (H x I). destruct x as [| |q|]; try discriminate H. exists q. split; [reflexivity|]. intros ->. discriminate H. }
  clear H. split.
  - induction (k_level k) as [|x l IH]; [reflexivity|]. destruct (A x (or_introl eq_refl)) as (q & -> & _). cbn. f_equal. apply IH. intros y I. apply A. right. exact I.
  - intros x I. apply finvals_In in I. destruct (A _ I) as (q & E & N). apply (f_equal (fun v => match v with Fin q => q | _ => 0 end)) in E. cbn in E. rewrite E. exact N.
Qed.

(** A decomposition into soiling and degradation, with the fits returning fixed components. *)
Definition fixed (n : nat) : fits := Fits
  (fun input _ _ _ => Ok (Frame input (map (fun _ => fz 0) input) (map (fun i => fsub (fz 1) (ff (Z.of_nat i) 100)) (seq 0 n)) (map (fun _ => fz 0) input) (map (fun i => (i =? 3)%nat) (seq 0 n)) []))
  (fun input => Ok (map (fun _ => fz 1) input, map (fun _ => fz 1) input)) (fun _ => Ok (ff (-1) 2)) (fun x => x).
Definition twelve : series := map (fun i => (Z.of_nat i * 86400000000000, if (i =? 5)%nat then NaN else ff (90 + Z.of_nat (i mod 4)) 100)%Z) (seq 0 12).
Example C46_decomposition :
  match snd (decompose (fixed 12) (fun _ => Ok (fz (-5), ff 1 100)) ["SR"; "Rd"]%string false 4 (ff 1 2) (ff 1 200) (ff 3 5) (Fin (qf 1 2)) true twelve) with
  | Ok d => [feq (at_row (o_trend d) 11) (Fin (1 + qz 11 * qf (-1) 2 / qz 100 / qz 365)); isnan (at_row (o_residuals d) 5); notnan (at_row (o_residuals d) 4); feq (o_loss d) (Fin (qz 11 / qz 2)); negb (o_small d)]
  | Raise _ => []
  end = [true; true; true; true; true].
Proof. vm_compute. reflexivity. Qed.

(** One fit of each kind; the third fit of the soiling looks for events in the residuals. *)
Definition begun : cods_state := CS (ones (vals twelve)) (ones (vals twelve)) (ones (vals twelve)) (Some (Frame [] [] [] [] (repeat false 12) [])) (fz 0) (vals twelve) (fz 1) (repeat false 12) (ff 1 2) (ff 3 5).
Definition shown_step (stl : bool) (c : string) (ic : nat) : list bool :=
  match cods_step (fixed 12) stl true (times twelve) (vals twelve) c true ic begun with
  | Ok (s, x) => [feq (at_row (c_trend s) 1) (fz 1); feq (c_rate s) (ff (-1) 2); feq (at_row (c_ratio s) 1) (fz 1); feq (c_sensitivity s) (ff 3 5); notnan (c_shift s)]
  | Raise _ => []
  end.
Example C46_steps : map (fun p => shown_step (fst (fst p)) (snd (fst p)) (snd p)) [(false, "Rd", 1%nat); (false, "SC", 2%nat); (true, "SC", 2%nat); (false, "SR", 2%nat); (false, "SR", 3%nat); (false, "PI", 3%nat)]%string =
  [[false; true; true; false; true]; [true; false; true; false; true]; [true; true; true; false; true]; [true; false; false; false; true]; [true; false; false; true; true]; [true; false; true; false; true]].
Proof. vm_compute. reflexivity. Qed.

Print Assumptions C46_output.
Print Assumptions C46_kalman.
Print Assumptions C46_failure.
Print Assumptions C46_rows.
Print Assumptions C46_days.
Print Assumptions C46_clip.
Print Assumptions C46_ratio.
Print Assumptions C46_rates.
Print Assumptions C46_no_rates.
Print Assumptions C46_no_rounds.
Print Assumptions C46_rate_fit.
Print Assumptions C46_season_fit.
Print Assumptions C46_soiling_fit.
Print Assumptions C46_other_fit.
Print Assumptions C46_fit_total.
