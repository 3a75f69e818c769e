(** C86: energies of the past do not change as the record grows *)

From Coq Require Import QArith Qcanon List ZArith Bool Arith Lia Permutation Sorted.
From Verif.Base Require Import QcExtra ISort Quantile Fl TimeSeries Calendar Rolling.
From Verif.Spec Require Import Stats Interp Energy Normalization Window.
From Verif.Model Require Import Interpolation Energy Normalization.
From Verif.Proofs Require Import StatsP InterpP EnergyP EnergyP2 GrowP GrowP2 GrowP3.
Import ListNotations.
Open Scope list_scope.
Open Scope Qc_scope.

(** Intervals longer than the median step, with the same limit: up to any time reached by a known value, the energies are the same. *)
Theorem C86_aggregated : forall old new, sorted_index (old ++ new) -> noinf (vals (old ++ new)) -> (2 <= length old)%nat ->
  forall freq freq' width max med med' e, is_median (gaps_between (times old)) med -> is_median (gaps_between (times (old ++ new))) med' ->
  (0 < width)%Z -> med < qz width -> med' < qz width -> the_limit max med = the_limit max med' ->
  energy_from_power freq old (Some width) max RightLabeled = Ok e ->
  exists e', energy_from_power freq' (old ++ new) (Some width) max RightLabeled = Ok e' /\ forall b, reached old b -> up_to b e' = up_to b e.
Proof. exact grow_long. Qed.

(** The same for instantaneous power. *)
Theorem C86_trapezoids : forall old new, sorted_index (old ++ new) -> noinf (vals (old ++ new)) -> (2 <= length old)%nat ->
  forall freq freq' width max med med' e, is_median (gaps_between (times old)) med -> is_median (gaps_between (times (old ++ new))) med' ->
  (0 < width)%Z -> med < qz width -> med' < qz width -> the_limit max med = the_limit max med' ->
  energy_from_power freq old (Some width) max Instantaneous = Ok e ->
  exists e', energy_from_power freq' (old ++ new) (Some width) max Instantaneous = Ok e' /\ forall b, reached old b -> up_to b e' = up_to b e.
Proof. exact grow_trap. Qed.

(** The same for intervals up to the median step; the default interval must be the same. *)
Theorem C86_upsampled : forall old new, sorted_index (old ++ new) -> noinf (vals (old ++ new)) -> (2 <= length old)%nat ->
  forall freq freq' target width max med med' limit e, is_median (gaps_between (times old)) med -> is_median (gaps_between (times (old ++ new))) med' ->
  width = match target with Some w => w | None => qfloor med end -> width = match target with Some w => w | None => qfloor med' end ->
  limit = the_limit max med -> limit = the_limit max med' -> (0 < width)%Z -> qz width <= med -> qz width <= med' -> 0 <= limit ->
  energy_from_power freq old target max RightLabeled = Ok e ->
  exists e', energy_from_power freq' (old ++ new) target max RightLabeled = Ok e' /\ forall b, reached old b -> up_to b e' = up_to b e.
Proof. exact grow_short. Qed.

(** The same for instantaneous power and intervals up to the median step, up to any label with a known value. *)
Theorem C86_upsampled_trapezoids : forall old new, sorted_index (old ++ new) -> noinf (vals (old ++ new)) -> (2 <= length old)%nat ->
  forall freq freq' target width max med med' limit e, is_median (gaps_between (times old)) med -> is_median (gaps_between (times (old ++ new))) med' ->
  width = match target with Some w => w | None => qfloor med end -> width = match target with Some w => w | None => qfloor med' end ->
  limit = the_limit max med -> limit = the_limit max med' -> (0 < width)%Z -> qz width <= med -> qz width <= med' -> 0 <= limit ->
  energy_from_power freq old target max Instantaneous = Ok e ->
  exists e', energy_from_power freq' (old ++ new) target max Instantaneous = Ok e' /\ 
    forall b, (exists g q, on_grid old width g /\ interp old limit g (Fin q) /\ (b <= g)%Z) -> up_to b e' = up_to b e.
Proof. exact grow_short_inst. Qed.

(** Interpolated values. *)
Theorem C86_interpolated : forall old new, sorted_index (old ++ new) -> forall limit t v, reached old t -> (interp (old ++ new) limit t v <-> interp old limit t v).
Proof. exact interp_grow. Qed.

(** Normalised energy in bins that end before the new data. *)
Theorem C86_daily : forall en ins en' ins' w, times en = times ins -> times en' = times ins' -> noinf (vals (ins ++ ins')) -> noinf (vals (en ++ en')) ->
  (0 < w)%Z -> sorted_index (ins ++ ins') -> ins <> [] ->
  forall b, (b <= final_time ins)%Z -> (forall t, In t (times ins') -> (b + w <= t)%Z) ->
  up_to b (aggregation_insol (en ++ en') (ins ++ ins') w) = up_to b (aggregation_insol en ins w).
Proof. exact grow_days. Qed.

(** Ten-minute power, one step twice as long, a missing value; later the logger is set to twenty minutes. *)
Definition minutes (m : Z) : Z := (m * 60000000000)%Z.
Definition past : series :=
  [(minutes 0, fz 6); (minutes 10, fz 12); (minutes 20, fz 6); (minutes 40, fz 3); (minutes 50, fz 6); (minutes 60, fz 12); (minutes 70, NaN); (minutes 80, fz 6); (minutes 95, fz 12)].
Definition future : series := map (fun k => (minutes (95 + 20 * Z.of_nat k), fz (Z.of_nat k))) (seq 1 9).
Definition half_hours (freq_max : option Qc) (pt : power_type) (power : series) : series :=
  match energy_from_power None power (Some (minutes 30)) freq_max pt with Ok e => e | Raise _ => [] end.
Definition limit : Qc := qz (minutes 25).

Definition is_ok {A : Type} (r : result A) : bool := match r with Ok _ => true | Raise _ => false end.
Definition quarters (power : series) : series :=
  match energy_from_power None power (Some (minutes 15)) (Some limit) RightLabeled with Ok e => e | Raise _ => [] end.

Example C86_example :
  half_hours (Some limit) RightLabeled past = [(minutes 30, ff 7 2); (minutes 60, ff 7 2); (minutes 90, fz 4); (minutes 120, fz 1)] /\
  half_hours (Some limit) RightLabeled (past ++ future) =
    [(minutes 30, ff 7 2); (minutes 60, ff 7 2); (minutes 90, fz 4); (minutes 120, ff 3 2); (minutes 150, ff 5 4); (minutes 180, fz 2);
     (minutes 210, ff 11 4); (minutes 240, ff 7 2); (minutes 270, ff 17 4); (minutes 300, ff 3 4)] /\
  half_hours (Some limit) Instantaneous past = [(minutes 30, ff 31 8); (minutes 60, ff 23 8); (minutes 90, ff 13 3); (minutes 120, ff 71 12)] /\
  up_to (minutes 120) (half_hours (Some limit) Instantaneous (past ++ future)) =
    [(minutes 30, ff 31 8); (minutes 60, ff 23 8); (minutes 90, ff 13 3); (minutes 120, ff 305 96)].
Proof. repeat split; fcompute. Qed.

Lemma half_hours_is : forall max pt p, is_ok (energy_from_power None p (Some (minutes 30)) max pt) = true -> energy_from_power None p (Some (minutes 30)) max pt = Ok (half_hours max pt p).
Proof. intros max pt p H. unfold half_hours. destruct (energy_from_power None p (Some (minutes 30)) max pt); [reflexivity | discriminate H]. Qed.
Lemma quarters_is : forall p, is_ok (energy_from_power None p (Some (minutes 15)) (Some limit) RightLabeled) = true ->
  energy_from_power None p (Some (minutes 15)) (Some limit) RightLabeled = Ok (quarters p).
Proof. intros p H. unfold quarters. destruct (energy_from_power None p (Some (minutes 15)) (Some limit) RightLabeled); [reflexivity | discriminate H]. Qed.

Lemma past_sorted : sorted_index (past ++ future).
Proof. unfold sorted_index. repeat (first [apply SSorted_nil | apply SSorted_cons]); repeat (first [apply Forall_nil | apply Forall_cons; [reflexivity|]]). Qed.
Lemma past_noinf : noinf (vals (past ++ future)).
Proof. intros x Hx. cbn in Hx. repeat (destruct Hx as [<- | Hx]; [split; discriminate |]). destruct Hx. Qed.
Lemma past_median : is_median (gaps_between (times past)) (qz (minutes 10)).
Proof.
  assert (qmedian (gaps_between (times past)) = qz (minutes 10)) as <- by (apply Qc_is_canon; vm_compute; reflexivity). apply qmedian_spec. discriminate.
Qed.
Lemma whole_median : is_median (gaps_between (times (past ++ future))) (qz (minutes 20)).
Proof.
  assert (qmedian (gaps_between (times (past ++ future))) = qz (minutes 20)) as <- by (apply Qc_is_canon; vm_compute; reflexivity). apply qmedian_spec. discriminate.
Qed.
Lemma past_reached : reached past (minutes 95).
Proof. exists (minutes 95), (qz 12). split; [cbn; auto 12 | lia]. Qed.

(** The theorems apply to this record. *)
Example C86_applied :
  up_to (minutes 95) (half_hours (Some limit) RightLabeled (past ++ future)) = up_to (minutes 95) (half_hours (Some limit) RightLabeled past) /\
  up_to (minutes 95) (half_hours (Some limit) Instantaneous (past ++ future)) = up_to (minutes 95) (half_hours (Some limit) Instantaneous past).
Proof.
  split.
  - assert (exists e, energy_from_power None past (Some (minutes 30)) (Some limit) RightLabeled = Ok e) as (e & E) by (eexists; vm_compute; reflexivity).
    destruct (C86_aggregated past future past_sorted past_noinf ltac:(cbn; lia) None None (minutes 30) (Some limit) _ _ e past_median whole_median
                ltac:(reflexivity) ltac:(reflexivity) ltac:(reflexivity) eq_refl E) as (e' & E' & H).
    unfold half_hours. rewrite E, E'. exact (H _ past_reached).
  - assert (exists e, energy_from_power None past (Some (minutes 30)) (Some limit) Instantaneous = Ok e) as (e & E) by (eexists; vm_compute; reflexivity).
    destruct (C86_trapezoids past future past_sorted past_noinf ltac:(cbn; lia) None None (minutes 30) (Some limit) _ _ e past_median whole_median
                ltac:(reflexivity) ltac:(reflexivity) ltac:(reflexivity) eq_refl E) as (e' & E' & H).
    unfold half_hours. rewrite E, E'. exact (H _ past_reached).
Qed.

(** With five-minute intervals, and day by day. *)
Definition fives (power : series) : series :=
  match energy_from_power None power (Some (minutes 5)) (Some limit) RightLabeled with Ok e => e | Raise _ => [] end.
Example C86_applied_upsampled :
  up_to (minutes 95) (fives (past ++ future)) = up_to (minutes 95) (fives past) /\ length (up_to (minutes 95) (fives past)) = 19%nat /\
  length (filter (fun r => notnan (snd r)) (fives past)) = 19%nat.
Proof.
  split; [| split; vm_compute; reflexivity].
  assert (exists e, energy_from_power None past (Some (minutes 5)) (Some limit) RightLabeled = Ok e) as (e & E) by (eexists; vm_compute; reflexivity).
  destruct (C86_upsampled past future past_sorted past_noinf ltac:(cbn; lia) None None (Some (minutes 5)) (minutes 5) (Some limit) _ _ limit e past_median whole_median
              eq_refl eq_refl eq_refl eq_refl ltac:(reflexivity) ltac:(discriminate) ltac:(discriminate) ltac:(discriminate) E) as (e' & E' & H).
  unfold fives. rewrite E, E'. exact (H _ past_reached).
Qed.
Definition fives_trap (power : series) : series :=
  match energy_from_power None power (Some (minutes 5)) (Some limit) Instantaneous with Ok e => e | Raise _ => [] end.
Example C86_applied_upsampled_trapezoids :
  up_to (minutes 95) (fives_trap (past ++ future)) = up_to (minutes 95) (fives_trap past) /\
  length (filter (fun r => notnan (snd r)) (fives_trap past)) = 19%nat.
Proof.
  split; [| vm_compute; reflexivity].
  assert (exists e, energy_from_power None past (Some (minutes 5)) (Some limit) Instantaneous = Ok e) as (e & E) by (eexists; vm_compute; reflexivity).
  destruct (C86_upsampled_trapezoids past future past_sorted past_noinf ltac:(cbn; lia) None None (Some (minutes 5)) (minutes 5) (Some limit) _ _ limit e past_median whole_median
              eq_refl eq_refl eq_refl eq_refl ltac:(reflexivity) ltac:(discriminate) ltac:(discriminate) ltac:(discriminate) E) as (e' & E' & H).
  unfold fives_trap. rewrite E, E'. apply H. exists (minutes 95), (qz 12). split; [exists 19%Z; split; [lia | split; [reflexivity | cbv; discriminate]] |].
  split; [apply interp_point; cbn; auto 12 | lia].
Qed.

(** A known value off the labels is not enough there: a value held over a gap disappears when the record goes on. *)
Definition held_over : series := [(minutes 0, fz 6); (minutes 10, fz 12); (minutes 20, NaN); (minutes 27, fz 6)].
Definition goes_on : series := [(minutes 30, fz 6); (minutes 40, fz 6)].
Definition tens (power : series) : series :=
  match energy_from_power None power (Some (minutes 10)) (Some (qz (minutes 10))) Instantaneous with Ok e => e | Raise _ => [] end.
Lemma tens_is : forall p, is_ok (energy_from_power None p (Some (minutes 10)) (Some (qz (minutes 10))) Instantaneous) = true ->
  energy_from_power None p (Some (minutes 10)) (Some (qz (minutes 10))) Instantaneous = Ok (tens p).
Proof. intros p H. unfold tens. destruct (energy_from_power None p (Some (minutes 10)) (Some (qz (minutes 10))) Instantaneous); [reflexivity | discriminate H]. Qed.
Lemma held_ok : energy_from_power None held_over (Some (minutes 10)) (Some (qz (minutes 10))) Instantaneous = Ok (tens held_over).
Proof. apply tens_is. vm_compute. reflexivity. Qed.
Lemma goes_ok : energy_from_power None (held_over ++ goes_on) (Some (minutes 10)) (Some (qz (minutes 10))) Instantaneous = Ok (tens (held_over ++ goes_on)).
Proof. apply tens_is. vm_compute. reflexivity. Qed.
Lemma held_known : map (fun r => notnan (snd r)) (up_to (minutes 27) (tens held_over)) = [true; true].
Proof. vm_compute. reflexivity. Qed.
Lemma goes_known : map (fun r => notnan (snd r)) (up_to (minutes 27) (tens (held_over ++ goes_on))) = [true; false].
Proof. vm_compute. reflexivity. Qed.
Lemma held_sorted : sorted_index (held_over ++ goes_on).
Proof. unfold sorted_index. repeat (first [apply SSorted_nil | apply SSorted_cons]); repeat (first [apply Forall_nil | apply Forall_cons; [reflexivity|]]). Qed.
Lemma held_noinf : noinf (vals (held_over ++ goes_on)).
Proof. intros x Hx. cbn in Hx. repeat (destruct Hx as [<- | Hx]; [split; discriminate |]). destruct Hx. Qed.
Lemma held_median : is_median (gaps_between (times held_over)) (qz (minutes 10)).
Proof.
  assert (qmedian (gaps_between (times held_over)) = qz (minutes 10)) as <- by (apply Qc_is_canon; vm_compute; reflexivity). apply qmedian_spec. discriminate.
Qed.
Lemma goes_median : is_median (gaps_between (times (held_over ++ goes_on))) (qz (minutes 10)).
Proof.
  assert (qmedian (gaps_between (times (held_over ++ goes_on))) = qz (minutes 10)) as <- by (apply Qc_is_canon; vm_compute; reflexivity). apply qmedian_spec. discriminate.
Qed.
Theorem C86_upsampled_hold_refuted : ~ (forall old new, sorted_index (old ++ new) -> noinf (vals (old ++ new)) -> (2 <= length old)%nat ->
  forall freq width max med med' e e', is_median (gaps_between (times old)) med -> is_median (gaps_between (times (old ++ new))) med' ->
  (0 < width)%Z -> qz width <= med -> qz width <= med' ->
  energy_from_power freq old (Some width) (Some max) Instantaneous = Ok e -> energy_from_power freq (old ++ new) (Some width) (Some max) Instantaneous = Ok e' ->
  forall b, reached old b -> up_to b e' = up_to b e).
Proof.
  intros H. pose proof goes_known as X.
  rewrite (H held_over goes_on held_sorted held_noinf ltac:(cbn; lia) None (minutes 10) (qz (minutes 10)) _ _ _ _ held_median goes_median
             ltac:(reflexivity) ltac:(discriminate) ltac:(discriminate) held_ok goes_ok (minutes 27)), held_known in X; [discriminate X |].
  exists (minutes 27), (qz 6). split; [cbn; auto 12 | lia].
Qed.
Definition hour (h : Z) : Z := (h * 3600000000000)%Z.
Definition sun : series := [(hour 30, fz 100); (hour 31, fz 300); (hour 55, fz 200); (hour 56, fz 200)].
Definition ratio : series := [(hour 30, fz 1); (hour 31, ff 1 2); (hour 55, fz 1); (hour 56, NaN)].
Example C86_applied_daily :
  up_to (hour 24) (aggregation_insol (ratio ++ [(hour 57, fz 3)]) (sun ++ [(hour 57, fz 100)]) (hour 24)) = [(hour 24, ff 5 8)] /\
  aggregation_insol ratio sun (hour 24) = [(hour 24, ff 5 8); (hour 48, ff 1 2)].
Proof.
  assert (aggregation_insol ratio sun (hour 24) = [(hour 24, ff 5 8); (hour 48, ff 1 2)]) as E by fcompute. split; [| exact E].
  rewrite (C86_daily ratio sun [(hour 57, fz 3)] [(hour 57, fz 100)] (hour 24)).
  - rewrite E. reflexivity.
  - reflexivity.
  - reflexivity.
  - intros x Hx. cbn in Hx. repeat (destruct Hx as [<- | Hx]; [split; discriminate |]). destruct Hx.
  - intros x Hx. cbn in Hx. repeat (destruct Hx as [<- | Hx]; [split; discriminate |]). destruct Hx.
  - reflexivity.
  - unfold sorted_index. repeat (first [apply SSorted_nil | apply SSorted_cons]); repeat (first [apply Forall_nil | apply Forall_cons; [reflexivity |]]).
  - discriminate.
  - cbv. discriminate.
  - intros t [<- | []]. cbv. discriminate.
Qed.

Lemma past_ok : energy_from_power None past (Some (minutes 30)) None RightLabeled = Ok (half_hours None RightLabeled past).
Proof. apply half_hours_is. vm_compute. reflexivity. Qed.
Lemma whole_ok : energy_from_power None (past ++ future) (Some (minutes 30)) None RightLabeled = Ok (half_hours None RightLabeled (past ++ future)).
Proof. apply half_hours_is. vm_compute. reflexivity. Qed.
Lemma past_known : map (fun r => notnan (snd r)) (up_to (minutes 95) (half_hours None RightLabeled past)) = [false; true; false].
Proof. vm_compute. reflexivity. Qed.
Lemma whole_known : map (fun r => notnan (snd r)) (up_to (minutes 95) (half_hours None RightLabeled (past ++ future))) = [true; true; true].
Proof. vm_compute. reflexivity. Qed.

(** The default limit is the median step, which changes: the first half-hour has no energy until the logger is slower. *)
Theorem C86_default_limit_refuted : ~ (forall freq old new width e e' b, sorted_index (old ++ new) -> noinf (vals (old ++ new)) -> (2 <= length old)%nat -> (0 < width)%Z ->
  energy_from_power freq old (Some width) None RightLabeled = Ok e -> energy_from_power freq (old ++ new) (Some width) None RightLabeled = Ok e' ->
  reached old b -> up_to b e' = up_to b e).
Proof.
  intros H. pose proof whole_known as X.
  rewrite (H None past future (minutes 30) _ _ (minutes 95) past_sorted past_noinf ltac:(cbn; lia) ltac:(reflexivity) past_ok whole_ok past_reached), past_known in X. discriminate X.
Qed.

Definition high (r : Z * fl) : bool := match snd r with Fin q => qlt (qf 12 5) q | _ => false end.
Lemma past_quarters : energy_from_power None past (Some (minutes 15)) (Some limit) RightLabeled = Ok (quarters past).
Proof. apply quarters_is. vm_compute. reflexivity. Qed.
Lemma whole_quarters : energy_from_power None (past ++ future) (Some (minutes 15)) (Some limit) RightLabeled = Ok (quarters (past ++ future)).
Proof. apply quarters_is. vm_compute. reflexivity. Qed.
Lemma past_high : map high (up_to (minutes 30) (quarters past)) = [true; false].
Proof. vm_compute. reflexivity. Qed.
Lemma whole_high : map high (up_to (minutes 30) (quarters (past ++ future))) = [false; false].
Proof. vm_compute. reflexivity. Qed.
Lemma start_reached : reached past (minutes 30).
Proof. exists (minutes 95), (qz 12). split; [cbn; auto 12 | unfold minutes; lia]. Qed.

(** With a given limit the method still depends on which side of the median step the interval lies. *)
Theorem C86_any_interval_refuted : ~ (forall freq old new width max e e' b, sorted_index (old ++ new) -> noinf (vals (old ++ new)) -> (2 <= length old)%nat -> (0 < width)%Z ->
  energy_from_power freq old (Some width) (Some max) RightLabeled = Ok e -> energy_from_power freq (old ++ new) (Some width) (Some max) RightLabeled = Ok e' ->
  reached old b -> up_to b e' = up_to b e).
Proof.
  intros H. pose proof whole_high as X.
  rewrite (H None past future (minutes 15) limit _ _ (minutes 30) past_sorted past_noinf ltac:(cbn; lia) ltac:(reflexivity) past_quarters whole_quarters start_reached), past_high in X. discriminate X.
Qed.

Lemma past_limit_ok : energy_from_power None past (Some (minutes 30)) (Some limit) RightLabeled = Ok (half_hours (Some limit) RightLabeled past).
Proof. apply half_hours_is. vm_compute. reflexivity. Qed.
Lemma whole_limit_ok : energy_from_power None (past ++ future) (Some (minutes 30)) (Some limit) RightLabeled = Ok (half_hours (Some limit) RightLabeled (past ++ future)).
Proof. apply half_hours_is. vm_compute. reflexivity. Qed.

(** The last interval is not complete. *)
Theorem C86_last_interval_refuted : ~ (forall old new, sorted_index (old ++ new) -> noinf (vals (old ++ new)) -> (2 <= length old)%nat ->
  forall freq width max med med' e e', is_median (gaps_between (times old)) med -> is_median (gaps_between (times (old ++ new))) med' ->
  (0 < width)%Z -> med < qz width -> med' < qz width -> the_limit max med = the_limit max med' ->
  energy_from_power freq old (Some width) max RightLabeled = Ok e -> energy_from_power freq (old ++ new) (Some width) max RightLabeled = Ok e' ->
  forall p, In p e -> In p e').
Proof.
  intros H. destruct C86_example as (X & X' & _). 
  assert (In (minutes 120, fz 1) (half_hours (Some limit) RightLabeled (past ++ future))) as I.
  { apply (H past future past_sorted past_noinf ltac:(cbn; lia) None (minutes 30) (Some limit) _ _ (half_hours (Some limit) RightLabeled past) _ past_median whole_median
                ltac:(reflexivity) ltac:(reflexivity) ltac:(reflexivity) eq_refl
                past_limit_ok whole_limit_ok). rewrite X. right. right. right. left. reflexivity. }
  rewrite X' in I. cbn in I. repeat (destruct I as [I | I]; [discriminate I |]). destruct I.
Qed.
Print Assumptions C86_upsampled_hold_refuted.
Print Assumptions C86_default_limit_refuted.
Print Assumptions C86_any_interval_refuted.
Print Assumptions C86_last_interval_refuted.

Print Assumptions C86_aggregated.
Print Assumptions C86_trapezoids.
Print Assumptions C86_upsampled.
Print Assumptions C86_upsampled_trapezoids.
Print Assumptions C86_interpolated.
Print Assumptions C86_daily.
