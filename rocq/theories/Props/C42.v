(** C42: levels of invalid intervals *)

From Coq Require Import QArith Qcanon List ZArith Bool Arith Lia Permutation Sorted.
From Verif.Base Require Import QcExtra ISort Quantile Fl TimeSeries Calendar Rolling.
From Verif.Spec Require Import Stats Filters Theil Soiling.
From Verif.Model Require Import Soiling SoilingSummary.
From Verif.Proofs Require Import StatsP FiltersP2 SoilP SoilP2 SoilP4 SoilP5 SoilP8 SoilP9 SoilP10 SoilP11 SoilP12 SoilP13 SoilP14.
Import ListNotations.
Open Scope list_scope.
Open Scope Qc_scope.
From Verif.Spec Require Import SoilingTable SoilingSummary.
From Coq Require Import String.

(** Start levels for any order of the groups, and of the invalid intervals for ascending order. *)
Theorem C42_starts : forall m d table ls visit, List.length ls = List.length table -> (forall x, In x table -> snd x <> PInf /\ snd x <> NInf) ->
  (forall l, set_order l (visit l)) ->
  let valid := map (fun x => i_valid (fst x)) table in
  let loss k := nth k ls 0 in
  let recovery k := match nth k (map snd table) NaN with Fin q => q | _ => 1 end in
  exists starts, random_starts m visit d table (map Fin ls) = Ok (map Fin starts) /\ List.length starts = List.length table /\
    levels_ok (match m with HalfNorm => true | RandomClean => false end) (dr_clean d) valid loss recovery (fun k => nth k starts 0) /\
    ((forall l, visit l = zset l) -> fill_ok (dr_level d) valid loss (fun k => nth k starts 0)) /\
    ((m = RandomClean -> forall k, 0 <= dr_clean d k /\ dr_clean d k <= 1) -> (forall k, 0 <= dr_level d k /\ dr_level d k <= 1) -> (forall q, In q ls -> q <= 0) ->
     forall s, In s starts -> s <= 1).
Proof. exact random_starts_spec. Qed.

(** Such a level lies between its neighbours. *)
Theorem C42_between : forall u valid loss start, in_unit u -> fill_ok u valid loss start -> forall k p n, nth_error valid k = Some false ->
  last_end valid loss start k p -> next_begin valid start k n -> (p <= start k /\ start k <= n) \/ (n <= start k /\ start k <= p).
Proof. exact fill_between. Qed.

(** Adjacent invalid intervals share one level. *)
Theorem C42_shared : forall u valid loss start, fill_ok u valid loss start -> forall k, nth_error valid k = Some false -> nth_error valid (S k) = Some false -> start (S k) = start k.
Proof. exact fill_shared. Qed.

(** Twenty days: two falling stretches with a short one between them, a gap of two days
    without data and a last falling stretch. *)
Definition day (k : Z) : Z := (k * ns_day)%Z.
Definition levels : list fl := map (fun z => ff z 100) [100; 98; 96; 94; 92; 90; 100; 98; 100; 98; 96; 94; 92; 90]%Z ++ [NaN; NaN] ++ map (fun z => ff z 100) [95; 93; 91; 89]%Z.
Definition daily_pm : series := combine (map (fun k => day (Z.of_nat k)) (seq 0 20)) levels.
Definition sunshine : series := map (fun r => (fst r, fz 5)) daily_pm.
Definition no_margin : list (Z * Qc) -> Qc := fun _ => 0.
Definition demo_table : result (fl * list day_row) := calc_daily_df daily_pm sunshine None 1 (Some (ff 1 100)) false "shift" (fz 0) (ff 3 2).
Definition demo_rows : list day_row := match demo_table with Ok p => snd p | Raise _ => [] end.
Definition demo_result : result srr_intervals := calc_result_df (theil_fit no_margin) demo_rows false (fz 500) (ff 1 20) 3.
Definition demo_intervals : srr_intervals := match demo_result with Ok s => s | Raise _ => SrrIntervals [] [] end.
Definition half_draws : draws := Draws (fun _ => qf 1 2) (fun _ => qf 1 2) (fun _ => qf 1 2).

Lemma levels_noinf : noinf (vals daily_pm).
Proof.
  intros x Hx. unfold vals, daily_pm in Hx. apply in_map_iff in Hx. destruct Hx as ([t v] & <- & H). apply in_combine_r in H. cbn [snd]. unfold levels in H. rewrite !in_app_iff, !in_map_iff in H.
  destruct H as [(z & <- & _) | [[<- | [<- | []]] | (z & <- & _)]]; split; discriminate.
Qed.
Lemma sunshine_noinf : noinf (vals sunshine).
Proof. intros x Hx. unfold vals, sunshine in Hx. rewrite map_map in Hx. apply in_map_iff in Hx. destruct Hx as (r & <- & _). split; discriminate. Qed.

(** A valid interval losing 1/10, an invalid one, seven valid ones losing 1/100 each, and an
    invalid one: groups 1 and 8. *)
Definition piece (valid : bool) : interval * fl := (Interval 0 0 5 0 (fz 0) (fz 0) (fz 0) (fz 0) (fz 1) (fz 1) valid, if valid then ff 1 20 else NaN).
Definition ten_pieces : list (interval * fl) := piece true :: piece false :: repeat (piece true) 7 ++ [piece false].
Definition ten_losses : list Qc := qf (-1) 10 :: 0 :: repeat (qf (-1) 100) 7 ++ [0].
(** CPython visits the set {1, 8} in the order 8, 1. *)
Definition hash_order (l : list Z) : list Z := rev (zset l).

Example C42_example :
  random_starts HalfNorm zset half_draws (firstn 3 ten_pieces) (map Fin (firstn 3 ten_losses)) = Ok [fz 1; ff 227 240; ff 119 120] /\
  hash_order [1; 8]%Z = [8; 1]%Z.
Proof. fcompute. Qed.
Example C42_hypotheses : List.length ten_losses = List.length ten_pieces /\ (forall x, In x ten_pieces -> snd x <> PInf /\ snd x <> NInf) /\ (forall l, set_order l (hash_order l)) /\
  in_unit (dr_level half_draws) /\ in_unit (dr_clean half_draws) /\ (forall q, In q ten_losses -> q <= 0).
Proof.
  split; [reflexivity |]. split.
  { intros x Hx. unfold ten_pieces in Hx. repeat (destruct Hx as [<- | Hx]; [split; discriminate |]). destruct Hx. }
  split; [exact reverse_order |].
  split; [intros k; split; vm_compute; discriminate |]. split; [intros k; split; vm_compute; discriminate |].
  intros q Hq. unfold ten_losses in Hq. repeat (destruct Hq as [<- | Hq]; [vm_compute; discriminate |]). destruct Hq.
Qed.

(** Not true: that the levels belong to their own neighbours in every iteration order.  Here
    interval 1 lies between 9/10 and 19/20, but gets the level 3167/3200 of the other group. *)
Theorem C42_order_refuted : ~ (forall m d table ls visit starts, List.length ls = List.length table -> (forall x, In x table -> snd x <> PInf /\ snd x <> NInf) ->
  (forall l, set_order l (visit l)) -> in_unit (dr_level d) -> in_unit (dr_clean d) -> (forall q, In q ls -> q <= 0) ->
  random_starts m visit d table (map Fin ls) = Ok (map Fin starts) ->
  fill_ok (dr_level d) (map (fun x => i_valid (fst x)) table) (fun k => nth k ls 0) (fun k => nth k starts 0)).
Proof.
  intros H. destruct C42_hypotheses as (H1 & H2 & H3 & H4 & H5 & H6). destruct (random_starts_spec RandomClean half_draws ten_pieces ten_losses hash_order H1 H2 H3) as (starts & E & L & _).
  specialize (H _ _ _ _ _ _ H1 H2 H3 H4 H5 H6 E). pose proof (fill_between _ _ _ _ H4 H 1%nat (qf 9 10) (qf 19 20) eq_refl) as B.
  assert (exists v, random_starts RandomClean hash_order half_draws ten_pieces (map Fin ten_losses) = Ok v /\ nth 0 v NaN = fz 1 /\ nth 1 v NaN = ff 3167 3200 /\ nth 2 v NaN = ff 19 20) as (v & EV & V0 & V1 & V2) by (eexists; split; [vm_compute; reflexivity |]; repeat split; fcompute).
  rewrite E in EV. injection EV as <-. assert (forall k, (k < 10)%nat -> nth k (map Fin starts) NaN = Fin (nth k starts 0)) as NS.
  { intros k Hk. apply nth_error_nth. rewrite nth_error_map_some. rewrite (nth_error_nth' starts 0) by (rewrite L; exact Hk). reflexivity. }
  rewrite NS in V0, V1, V2 by lia. injection V0 as V0. injection V1 as V1. injection V2 as V2.
  destruct B as [[_ B] | [_ B]].
  - left. exists 0%nat. split; [split; [lia |]; split; [reflexivity | intros; lia] |]. rewrite V0. qc_canon.
  - left. exists 2%nat. split; [split; [lia |]; split; [reflexivity | intros; lia] |]. rewrite V2. reflexivity.
  - rewrite V1 in B. vm_compute in B. apply B. reflexivity.
  - rewrite V1 in B. vm_compute in B. apply B. reflexivity.
Qed.
Print Assumptions C42_order_refuted.

Print Assumptions C42_starts.
Print Assumptions C42_between.
Print Assumptions C42_shared.
