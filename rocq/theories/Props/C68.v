(** C68: what the rolling trend of a degradation analysis shows *)

From Coq Require Import QArith Qcanon List ZArith Bool Arith Lia Permutation Sorted.
From Verif.Base Require Import QcExtra ISort Quantile Fl TimeSeries Calendar Rolling.
From Verif.Spec Require Import Stats Time YoY Plots.
From Verif.Model Require Import Utilities Bootstrap YearOnYear Clipping Plots.
From Verif.Proofs Require Import StatsP FlP YoYP YoYP2 PlotsP PlotsP2 PlotsP3 PlotsP4.
Import ListNotations.
Open Scope list_scope.
Open Scope Qc_scope.
From Verif.Props Require Import YoYDemo.

Section Claims.
Context (infer : list Z -> option (Z -> Z)) (sortv : series -> series) (choice : nat -> list (list nat)) (starts : list (list nat)).


(** When there is a figure, and its curve. *)
Theorem C68_figure : forall lower upper, forall info days ci,
  (forall e, degradation_timeseries_plot lower upper info days ci = Raise e <->
     (e = KeyError /\ p_values info = None) \/ (e = ValueError /\ exists values, p_values info = Some values /\ ~ ordered (times values))) /\
  (forall f, degradation_timeseries_plot lower upper info days ci = Ok f -> exists values, p_values info = Some values /\ ordered (times values) /\
     map fst (t_curve f) = times values /\ (forall i t v, nth_error (t_curve f) i = Some (t, v) -> curve_shows days values i v) /\
     t_level f = fmedian (vals values) /\ (forall qs, numbers (vals values) qs -> median_shown qs (t_level f)) /\ (t_band f = None <-> ci = false)).
Proof. exact trend_drawn. Qed.

(** The band around the curve, when all values are numbers. *)
Theorem C68_band : forall lower upper, forall info days values qs f, p_values info = Some values -> vals values = map Fin qs -> degradation_timeseries_plot lower upper info days true = Ok f ->
  exists band, t_band f = Some band /\ map fst band = times values /\
    forall i t lo hi, nth_error band i = Some (t, (lo, hi)) -> exists ws, last_days days values i ws /\
      (~ enough days ws -> lo = NaN /\ hi = NaN) /\
      (enough days ws -> drawn (length ws) (lower i (length ws)) -> resampled (qf 25 10) ws (lower i (length ws)) lo /\ within_limits ws lo) /\
      (enough days ws -> drawn (length ws) (upper i (length ws)) -> resampled (qf 975 10) ws (upper i (length ws)) hi /\ within_limits ws hi).
Proof. exact band_spec. Qed.

(** With the same draws for both limits the lower limit is not above the upper one. *)
Theorem C68_same_draws : forall draw info days values qs f band i t lo hi ws, p_values info = Some values -> vals values = map Fin qs ->
  degradation_timeseries_plot draw draw info days true = Ok f -> t_band f = Some band -> nth_error band i = Some (t, (lo, hi)) ->
  last_days days values i ws -> enough days ws -> drawn (length ws) (draw i (length ws)) -> exists x y, lo = Fin x /\ hi = Fin y /\ x <= y.
Proof. exact same_draws. Qed.

(** Values at least three days apart: the curve is empty, however complete the values are. *)
Theorem C68_sparse : forall lower upper info days values ci f, p_values info = Some values -> (8 <= days)%Z -> apart 3 (times values) ->
  degradation_timeseries_plot lower upper info days ci = Ok f -> forall t v, In (t, v) (t_curve f) -> v = NaN.
Proof. exact sparse_missing. Qed.

(** Daily values: the curve starts as soon as there are half as many values as days. *)
Theorem C68_daily : forall lower upper info days values qs start ci f, p_values info = Some values -> (1 <= days)%Z ->
  vals values = map Fin qs -> (forall i t, nth_error (times values) i = Some t -> t = (start + Z.of_nat i * day_length)%Z) ->
  degradation_timeseries_plot lower upper info days ci = Ok f -> forall i t v, nth_error (t_curve f) i = Some (t, v) ->
  (v = NaN <-> (Z.of_nat i + 1 < days / 2)%Z).
Proof. exact daily_shown. Qed.

(** There is a figure after every analysis with the simple bootstrap; its level is the rate. *)
Theorem C68_run : forall lower upper rc ep cl y o info days ci, NoDup (times y) ->
  degradation_year_on_year infer sortv choice starts rc ep cl Simple y = Ok o -> info_of Simple o = Some info ->
  exists f, degradation_timeseries_plot lower upper info days ci = Ok f /\ map fst (t_curve f) = times (yo_values o) /\ t_level f = yo_rate o.
Proof. exact (run_trend infer sortv choice starts). Qed.

(** There is none for an analysis with circular blocks. *)
Theorem C68_blocks : forall lower upper L o info days ci, info_of (CircularBlock L) o = Some info -> degradation_timeseries_plot lower upper info days ci = Raise KeyError.
Proof. exact run_trend_blocks. Qed.

End Claims.

Definition step_days (g : Z) (l : list fl) : series := combine (map (fun i => (Z.of_nat i * (g * day_length))%Z) (seq 0 (length l))) l.
Definition some_info (s : series) : yoy_info := YoyInfo (Some s) (fz 1) [].
Definition all_of (_ n : nat) : list (list nat) := [seq 0 n].
Definition first_of (_ _ : nat) : list (list nat) := [[0%nat]].
Definition trend_of (s : series) (days : Z) (lower upper : nat -> nat -> list (list nat)) : trend_figure :=
  match degradation_timeseries_plot lower upper (some_info s) days true with Ok f => f | Raise _ => TrendFigure None [] NaN end.

(** The limits come from separate draws: the lower limit can be above the upper one. *)
Theorem C68_crossed_refuted : exists lower upper info values qs f band t a b, p_values info = Some values /\ vals values = map Fin qs /\
  degradation_timeseries_plot lower upper info 2 true = Ok f /\ t_band f = Some band /\ nth_error band 1 = Some (t, (Fin a, Fin b)) /\
  drawn 2 (lower 1%nat 2%nat) /\ drawn 2 (upper 1%nat 2%nat) /\ b < a.
Proof.
  exists (fun _ _ => [[1%nat]]), first_of, (some_info (step_days 1 [fz 1; fz 2])), (step_days 1 [fz 1; fz 2]), [qz 1; qz 2], (trend_of (step_days 1 [fz 1; fz 2]) 2 (fun _ _ => [[1%nat]]) first_of).
  eexists. eexists. exists (qz 2), (qz 1). split; [reflexivity |]. split; [reflexivity |]. split; [vm_compute; reflexivity |]. split; [vm_compute; reflexivity |]. split; [vm_compute; reflexivity |].
  split; [| split; [| reflexivity]]; (split; [discriminate |]; intros d [<- | []]; split; [discriminate |]; intros i [<- | []]; repeat constructor).
Qed.
(** A window does not need half of its rows, as documented, but half as many rows as days: weekly values without a gap give no curve. *)
Theorem C68_half_refuted : exists values qs f, vals values = map Fin qs /\ times values = [0; 7 * day_length; 14 * day_length]%Z /\
  degradation_timeseries_plot all_of all_of (some_info values) 14 true = Ok f /\ vals (t_curve f) = [NaN; NaN; NaN].
Proof.
  exists (step_days 7 [fz 1; fz 2; fz 3]), [qz 1; qz 2; qz 3], (trend_of (step_days 7 [fz 1; fz 2; fz 3]) 14 all_of all_of).
  split; [reflexivity |]. split; [reflexivity |]. split; [vm_compute; reflexivity | vm_compute; reflexivity].
Qed.

Definition daily : series := step_days 1 [fz 3; fz 1; fz 2; fz 5; fz 4].
Definition number (v : fl) : option Q := match v with Fin q => Some (this q) | _ => None end.
Definition two_numbers (v : Z * (fl * fl)) : option Q * option Q := (number (fst (snd v)), number (snd (snd v))).
Example C68_example :
  map number (vals (t_curve (trend_of daily 4 all_of all_of))) = [None; Some 2; Some 2; Some (5 # 2); Some 3]%Q /\ number (t_level (trend_of daily 4 all_of all_of)) = Some 3%Q /\
  option_map (map two_numbers) (t_band (trend_of daily 4 first_of all_of)) = Some [(None, None); (Some 3, Some 2); (Some 3, Some 2); (Some 3, Some (5 # 2)); (Some 1, Some 3)]%Q /\
  degradation_timeseries_plot all_of all_of (some_info [(0%Z, fz 1); (5%Z, fz 1); (3%Z, fz 1)]) 4 true = Raise ValueError /\
  map number (vals (t_curve (trend_of (rev daily) 4 all_of all_of))) = [None; Some (9 # 2); Some 4; Some 3; Some (5 # 2)]%Q.
Proof. split; [vm_compute; reflexivity |]. split; [vm_compute; reflexivity |]. split; [vm_compute; reflexivity |]. split; [vm_compute; reflexivity |]. vm_compute. reflexivity. Qed.
Example C68_hypotheses : p_values (some_info daily) = Some daily /\ vals daily = map Fin [qz 3; qz 1; qz 2; qz 5; qz 4] /\
  (forall i t, nth_error (times daily) i = Some t -> t = (0 + Z.of_nat i * day_length)%Z) /\
  degradation_timeseries_plot all_of all_of (some_info daily) 4 true = Ok (trend_of daily 4 all_of all_of) /\
  last_days 4 daily 4 [qz 1; qz 2; qz 5; qz 4] /\ enough 4 [qz 1; qz 2; qz 5; qz 4] /\ drawn 4 (all_of 4 4) /\
  apart 3 (times (step_days 3 [fz 1; fz 2; fz 3])) /\
  degradation_timeseries_plot all_of all_of (some_info (step_days 3 [fz 1; fz 2; fz 3])) 8 true = Ok (trend_of (step_days 3 [fz 1; fz 2; fz 3]) 8 all_of all_of) /\
  (exists o info, NoDup (times demo_input) /\ degradation_year_on_year demo_infer demo_sortv demo_choice [] false (qz 95) (qz 68) Simple demo_input = Ok o /\ info_of Simple o = Some info).
Proof.
  split; [reflexivity |]. split; [reflexivity |].
  split. { intros i t H. do 5 (destruct i as [| i]; [injection H as <-; reflexivity |]). destruct i; discriminate H. }
  split; [vm_compute; reflexivity |].
  split. { change daily with [(0, fz 3); (86400000000000, fz 1); (172800000000000, fz 2); (259200000000000, fz 5); (345600000000000, fz 4)]%Z.
    exists (345600000000000)%Z, (fz 4). split; [reflexivity |]. apply at_skip; [left; unfold day_length; lia |]. do 4 (apply at_take; [unfold day_length; lia |]). apply at_nil. }
  split; [unfold enough; cbn; lia |]. split. { split; [discriminate |]. intros d [<- | []]. split; [discriminate |]. intros i Hi. apply in_seq in Hi. lia. }
  split; [repeat first [apply Sorted_cons | apply Sorted_nil | apply HdRel_cons; vm_compute; discriminate | apply HdRel_nil] |]. split; [vm_compute; reflexivity |].
  destruct (degradation_year_on_year demo_infer demo_sortv demo_choice [] false (qz 95) (qz 68) Simple demo_input) as [o |] eqn:E; [| exfalso; vm_compute in E; discriminate E].
  exists o. eexists. split; [exact demo_nodup |]. split; [reflexivity | reflexivity].
Qed.

Print Assumptions C68_figure.
Print Assumptions C68_band.
Print Assumptions C68_same_draws.
Print Assumptions C68_sparse.
Print Assumptions C68_daily.
Print Assumptions C68_run.
Print Assumptions C68_blocks.
