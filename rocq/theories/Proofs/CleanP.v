(** Proofs about the soiling analysis of a performance that never changes. *)

From Coq Require Import QArith Qcanon List ZArith Bool Arith Lia String Sorted.
From Verif.Base Require Import QcExtra ISort Quantile Fl TimeSeries Calendar Rolling Segments.
From Verif.Spec Require Import Stats Filters Theil Soiling SoilingTable Clean.
From Verif.Model Require Import Soiling.
From Verif.Proofs Require Import FlP StatsP FiltersP2 SoilP SoilP2 SoilP3 SoilP4 SoilP5 SoilP6 SoilP7 SoilP8 SoilP9 SoilP10 SoilP11 SoilP12 SoilP13 SoilP14 SteadyP.
Import ListNotations.
Open Scope list_scope.
Open Scope Qc_scope.

(** ** Constant lists *)

Definition same_or_missing (c : Qc) (l : list fl) : Prop := forall x, In x l -> x = Fin c \/ x = NaN.

Lemma same_noinf : forall c l, same_or_missing c l -> noinf l.
Proof. intros c l H x I. destruct (H x I) as [->| ->]; split; discriminate. Qed.
Lemma same_finvals : forall c l q, same_or_missing c l -> In q (finvals l) -> q = c.
Proof. intros c l q H I. apply finvals_In in I. destruct (H _ I) as [E|E]; [injection E as ->; reflexivity|discriminate E]. Qed.

Lemma qmedian_same : forall c l, l <> [] -> (forall q, In q l -> q = c) -> qmedian l = c.
Proof.
  intros c l N H. rewrite qmedian_quantile by exact N. destruct (qquantile_bounds (qf 1 2) l c c N) as [A B]; [discriminate|discriminate|intros q I; rewrite (H q I); split; apply Qcle_refl|].
  apply Qcle_antisym; assumption.
Qed.
Lemma median_same : forall c l, same_or_missing c l -> In (Fin c) l -> fmedian l = Fin c.
Proof.
  intros c l H I. apply finvals_In in I. rewrite fmedian_noinf; [|exact (same_noinf c l H)|destruct (finvals l); [contradiction|discriminate]].
  f_equal. apply qmedian_same; [destruct (finvals l); [contradiction|discriminate]|]. intros q. apply same_finvals. exact H.
Qed.
Lemma median_cases : forall c l, same_or_missing c l -> fmedian l = Fin c \/ fmedian l = NaN.
Proof.
  intros c l H. destruct (finvals l) as [|q r] eqn:E.
  - right. unfold fmedian. rewrite (dropna_noinf l (same_noinf c l H)), E. reflexivity.
  - left. apply median_same; [exact H|]. apply finvals_In. rewrite E. left. apply (same_finvals c l); [exact H|]. rewrite E. left. reflexivity.
Qed.

(** ** The daily table *)

Lemma ffill_same : forall c k l last age, same_or_missing c l -> last = Fin c \/ last = NaN -> same_or_missing c (ffill_from k last age l).
Proof.
  intros c k. induction l as [|x l IH]; intros last age H HL y I; [destruct I|]. cbn [ffill_from] in I.
  assert (H' : same_or_missing c l) by (intros z J; apply H; right; exact J).
  destruct (isnan x) eqn:E.
  - destruct I as [<-|I]; [destruct (age <? k)%nat; auto|]. exact (IH _ _ H' HL y I).
  - destruct I as [<-|I]; [apply H; left; reflexivity|]. exact (IH _ _ H' (H x (or_introl eq_refl)) y I).
Qed.
Lemma roll_same : forall c k index l, same_or_missing c l -> same_or_missing c (roll_medians k index l).
Proof.
  intros c k index l H x I. unfold roll_medians, rolling_median, vals in I. rewrite map_map in I. apply in_map_iff in I. destruct I as ([i [t y]] & <- & _). cbn [fst snd].
  destruct (k <=? _)%nat; [|right; reflexivity]. apply median_cases. intros z J. unfold window_values in J. apply in_map_iff in J. destruct J as ([j [u a]] & <- & J). cbn [snd].
  apply filter_In in J. destruct J as [J _]. apply in_combine_r, in_combine_r in J. unfold ffill_limit in J. apply (ffill_same c) in J; [|exact H|right; reflexivity]. destruct J as [->| ->]; [left|right]; reflexivity.
Qed.
Lemma at_row_in : forall l i, In (at_row l i) l \/ at_row l i = NaN.
Proof. intros l i. unfold at_row. destruct (nth_in_or_default i l NaN) as [H|H]; [left|right]; exact H. Qed.
Lemma at_row_same : forall c l i, same_or_missing c l -> at_row l i = Fin c \/ at_row l i = NaN.
Proof. intros c l i H. destruct (at_row_in l i) as [I|E]; [exact (H _ I)|right; exact E]. Qed.
Lemma diffs_same : forall c l, same_or_missing c l -> same_or_missing 0 (diffs l).
Proof.
  intros c l H x I. unfold diffs in I. apply in_map_iff in I. destruct I as (i & <- & _). destruct i as [|j]; [right; reflexivity|].
  destruct (at_row_same c l (S j) H) as [->| ->]; [|right; destruct (at_row l j); reflexivity]. destruct (at_row_same c l j H) as [->| ->]; [|right; reflexivity].
  left. cbn [fsub fneg fadd]. f_equal. ring.
Qed.
Lemma divided_same : forall c d l, d <> 0 -> same_or_missing c l -> same_or_missing (c / d) (map (fun x => fdiv x (Fin d)) l).
Proof.
  intros c d l D H x I. apply in_map_iff in I. destruct I as (y & <- & I). destruct (H y I) as [->| ->]; [left|right; reflexivity].
  cbn [fdiv]. destruct (qeq d 0) eqn:E; [apply qeq_spec in E; contradiction|reflexivity].
Qed.

Section Steady.
Context (v : Qc) (Hv : 0 < v).

Lemma v_nz : v <> 0.
Proof. intros E. rewrite E in Hv. discriminate Hv. Qed.

Definition scale_of (recenter : bool) : Qc := if recenter then v else 1.
Definition level_is (recenter : bool) : Qc := if recenter then 1 else v.
Lemma scale_nz : forall rc, scale_of rc <> 0.
Proof. intros []; [exact v_nz|discriminate]. Qed.
Lemma level_eq : forall rc, v / scale_of rc = level_is rc.
Proof. intros []; cbn [scale_of level_is]; unfold Qcdiv; [apply Qcmult_inv_r; exact v_nz|]. change (/ 1) with 1. ring. Qed.
Lemma level_pos : forall rc, 0 < level_is rc.
Proof. intros []; [reflexivity|exact Hv]. Qed.

Lemma span_in : forall pm r, In r (valid_part pm) -> In r pm.
Proof.
  intros pm r I. destruct (valid_part_spec pm) as [[_ E]|(pre & post & E & _)]; [rewrite E in I; destruct I|]. rewrite E. apply in_or_app. right. apply in_or_app. left. exact I.
Qed.
Lemma span_vals : forall pm, steady_at v pm -> same_or_missing v (vals (valid_part pm)).
Proof. intros pm H x I. unfold vals in I. apply in_map_iff in I. destruct I as ([t y] & <- & I). exact (H t y (span_in _ _ I)). Qed.

Lemma renorm_steady : forall pm rc x0 p, steady_at v pm -> valid_part pm = x0 :: p -> renorm_factor rc (valid_part pm) = Fin (scale_of rc).
Proof.
  intros pm rc [t0 y0] p H E. pose proof (span_vals pm H) as HS. rewrite E in *. unfold renorm_factor. destruct rc; [|reflexivity]. cbn [scale_of]. apply median_same.
  - intros x I. apply HS. unfold vals in *. apply in_map_iff in I. destruct I as (r & <- & I). apply filter_In in I. apply in_map. apply I.
  - assert (y0 = Fin v) as ->.
    { destruct (HS y0 (or_introl eq_refl)) as [G|G]; [exact G|]. exfalso. destruct (valid_part_spec pm) as [[_ N]|V]; [rewrite E in N; discriminate N|].
      destruct V as (pre & post & _ & _ & (t & y & p' & Q & NN) & _). rewrite E in Q. injection Q as _ Q _. apply NN. rewrite <- Q. exact G. }
    cbn [filter fst]. rewrite (proj2 (Z.leb_le t0 (t0 + 364 * ns_day)%Z)) by (unfold ns_day; lia). left. reflexivity.
Qed.

Lemma daily_steady : forall pm insolation precip day_scale thr rc c pthr factor r rows, steady_at v pm ->
  calc_daily_df pm insolation precip day_scale thr rc c pthr factor = Ok (r, rows) ->
  r = Fin (scale_of rc) /\ forall d, In d rows ->
    (d_pi_norm d = Fin (level_is rc) /\ In (d_date d, Fin v) pm \/ d_pi_norm d = Fin 0) /\ d_delta d = Fin 0 /\ d_insol d = fill0 (lookup insolation (d_date d)).
Proof.
  intros pm insolation precip day_scale thr rc c pthr factor r rows H E. unfold calc_daily_df in E. destruct (valid_part pm) as [|x0 p] eqn:EV; [discriminate E|].
  pose proof (renorm_steady pm rc x0 p H EV) as ER. rewrite EV in ER. rewrite ER in E. pose proof (span_vals pm H) as HS. rewrite EV in HS. pose proof (span_in pm) as HI. rewrite EV in HI. clear EV.
  set (s := x0 :: p) in *. clearbody s. destruct (day_scale =? 0)%nat; [discriminate E|]. destruct (combine_events _ _ _) as [l|]; [|discriminate E]. cbn [bind] in E.
  pose proof (divided_same v (scale_of rc) (vals s) (scale_nz rc) HS) as HP. rewrite level_eq in HP. set (pi := map (fun x => fdiv x (Fin (scale_of rc))) (vals s)) in *.
  pose proof (diffs_same _ _ (roll_same _ day_scale (times s) _ HP)) as HD. set (delta := diffs _) in *.
  injection E as <- <-. split; [reflexivity|]. intros d I. apply in_map_iff in I. destruct I as (i & <- & I). apply in_seq in I. cbn [d_pi_norm d_date d_delta d_insol].
  assert (List.length (times s) = List.length s) as LT by (unfold times; apply map_length).
  split; [|split].
  - destruct (at_row_same _ pi i HP) as [G|G]; rewrite G; [left|right; reflexivity]. split; [reflexivity|]. apply HI.
    assert (nth_error s i <> None) as NN by (apply nth_error_Some; lia). destruct (nth_error s i) as [[t y]|] eqn:En; [|contradiction].
    assert (nth i (times s) 0%Z = t) as -> by (apply nth_error_nth; unfold times; rewrite nth_error_map_some, En; reflexivity).
    assert (y = Fin v) as ->; [|apply (nth_error_In _ _ En)].
    assert (at_row pi i = fdiv y (Fin (scale_of rc))) as Ey by (unfold at_row, pi; apply nth_error_nth; unfold vals; rewrite !nth_error_map_some, En; reflexivity).
    destruct (HS y) as [->| ->]; [unfold vals; apply in_map_iff; exists (t, y); split; [reflexivity|apply (nth_error_In _ _ En)]|reflexivity|]. rewrite Ey in G. discriminate G.
  - destruct (at_row_same _ delta i HD) as [->| ->]; reflexivity.
  - rewrite joined_at by lia. reflexivity.
Qed.

(** ** The intervals *)

Definition flat_interval (i : interval) : Prop := i_slope i = Fin 0 /\ i_slope_low i = Fin 0 /\ i_slope_high i = Fin 0.

Lemma pymin_zero : forall l, (forall x, In x l -> x = Fin 0) -> l <> [] -> pymin l = Fin 0.
Proof.
  intros [|x l] H N; [contradiction|]. cbn [pymin]. rewrite (H x (or_introl eq_refl)). assert (H' : forall y, In y l -> y = Fin 0) by (intros y I; apply H; right; exact I). clear H N x.
  induction l as [|y l IH]; [reflexivity|]. cbn [fold_left]. rewrite (H' y (or_introl eq_refl)). change (flt (Fin 0) (Fin 0)) with false. cbv iota. apply IH. intros z I. apply H'. right. exact I.
Qed.
Lemma fsum_zero : forall l, (forall x, In x l -> x = Fin 0) -> fsum l = Fin 0.
Proof.
  induction l as [|x l IH]; intros H; [reflexivity|]. rewrite (H x (or_introl eq_refl)). change (fsum (Fin 0 :: l)) with (fadd (Fin 0) (fsum l)). rewrite IH by (intros y I; apply H; right; exact I).
  cbn [fadd]. f_equal.
Qed.

Lemma fit_steady : forall margin minimum rows r w i, (forall pts, 0 <= margin pts) -> (1 <= minimum)%Z -> 0 < w ->
  (forall d, In d rows -> (d_pi_norm d = Fin w \/ d_pi_norm d = Fin 0) /\ d_delta d = Fin 0) -> NoDup (map d_day rows) ->
  fit_interval (theil_fit margin) minimum rows r = Ok i ->
  flat_interval i /\ i_max_neg_step i = Fin 0 /\
  i_valid i = (minimum <? Z.of_nat (List.length (filter (fun d => fgt (d_pi_norm d) (fz 0)) rows)))%Z /\
  (i_valid i = true -> i_start_loss i = Fin w /\ i_end_loss i = Fin w).
Proof.
  intros margin minimum rows r w i HM H1 Hw HR ND E. unfold fit_interval in E. destruct rows as [|first rest] eqn:ER; [discriminate E|]. rewrite <- ER in *. cbv zeta in E.
  set (positive := filter (fun d => fgt (d_pi_norm d) (fz 0)) rows) in *. set (used := match positive with [] => rows | _ => positive end) in *.
  assert (HP : forall d, In d positive -> In d rows /\ d_pi_norm d = Fin w).
  { intros d I. unfold positive in I. apply filter_In in I. destruct I as [I G]. split; [exact I|]. destruct (HR d I) as [[P|P] _]; [exact P|]. rewrite P in G. discriminate G. }
  assert (HU : forall d, In d used -> In d rows) by (intros d I; unfold used in I; destruct positive as [|d0 p0] eqn:EP; [exact I|apply HP; exact I]).
  assert (NU : used <> []) by (unfold used; destruct positive as [|d0 p0] eqn:EP; [rewrite ER; discriminate|discriminate]).
  assert (ST : pymin (map d_delta used) = Fin 0).
  { apply pymin_zero; [|destruct used; [contradiction|discriminate]]. intros x I. apply in_map_iff in I. destruct I as (d & <- & I). apply HR. apply HU. exact I. }
  rewrite ST in E. destruct positive as [|d0 p0] eqn:EP.
  - assert (fsum (map d_pi_norm used) = Fin 0) as EZ.
    { apply fsum_zero. intros x I. apply in_map_iff in I. destruct I as (d & <- & I). unfold used in I. destruct (HR d I) as [[P|P] _]; [|exact P]. exfalso.
      assert (In d (filter (fun d => fgt (d_pi_norm d) (fz 0)) rows)) as J.
      { apply filter_In. split; [exact I|]. rewrite P. change (fgt (Fin w) (fz 0)) with (qlt 0 w). apply qlt_spec. exact Hw. }
      change (In d positive) in J. rewrite EP in J. destruct J. }
    rewrite EZ in E. change (fgt (Fin 0) (fz 0)) with false in E. rewrite andb_false_r in E. injection E as <-. cbn [i_slope i_slope_low i_slope_high i_max_neg_step i_valid i_start_loss i_end_loss].
    split; [split; [reflexivity|split; reflexivity]|]. split; [reflexivity|]. split; [|discriminate]. cbn [List.length Z.of_nat]. destruct (Z.ltb_spec minimum 0); [lia|reflexivity].
  - unfold used in *. clear used NU. rewrite <- EP in *.
    assert (fgt (fsum (map d_pi_norm positive)) (fz 0) = true) as EG.
    { assert (map d_pi_norm positive = map Fin (map (fun _ => w) positive)) as -> by (rewrite map_map; apply map_ext_in; intros d I; apply HP; exact I).
      rewrite EP. clear -Hw. assert (G : forall l : list day_row, exists q, fsum (map Fin (map (fun _ => w) l)) = Fin q /\ 0 <= q).
      { induction l as [|x l (q & IH & Q)]; [exists 0; split; [reflexivity|apply Qcle_refl]|]. exists (w + q). split; [|qlra]. cbn [map].
        change (fsum (Fin w :: map Fin (map (fun _ => w) l))) with (fadd (Fin w) (fsum (map Fin (map (fun _ => w) l)))). rewrite IH. reflexivity. }
      destruct (G p0) as (q & E & Q). cbn [map]. change (fsum (Fin w :: map Fin (map (fun _ => w) p0))) with (fadd (Fin w) (fsum (map Fin (map (fun _ => w) p0)))). rewrite E.
      change (fgt (fadd (Fin w) (Fin q)) (fz 0)) with (qlt 0 (w + q)). apply qlt_spec. qlra. }
    rewrite EG, andb_true_r in E. destruct (minimum <? _)%Z eqn:EM.
    + assert (theil_fit margin (map (fun d => (d_day d, d_pi_norm d)) positive) = (Fin 0, Fin w, Fin 0, Fin 0)) as ET.
      { assert (map (fun d => (d_day d, d_pi_norm d)) positive = map (fun p => (fst p, Fin (snd p))) (map (fun d => (d_day d, w)) positive)) as ->.
        { rewrite map_map. apply map_ext_in. intros d I. cbn [fst snd]. rewrite (proj2 (HP d I)). reflexivity. }
        rewrite theil_fit_finite. apply theil_line; [apply HM| |].
        - intros x y I. apply in_map_iff in I. destruct I as (d & Q & _). injection Q as _ <-. ring.
        - apply Z.ltb_lt in EM. assert (ND' : NoDup (map d_day positive)).
          { unfold positive. clear -ND. induction rows as [|d l IH]; [constructor|]. cbn [map] in ND. inversion ND as [|a b N1 N2]; subst. cbn [filter]. destruct (fgt _ _); [|apply IH; exact N2].
            cbn [map]. constructor; [|apply IH; exact N2]. intros C. apply N1. apply in_map_iff in C. destruct C as (d' & <- & C). apply filter_In in C. apply in_map. apply C. }
          destruct positive as [|a [|b l]]; [cbn in EM; lia|cbn in EM; lia|]. exists (d_day a, w), (d_day b, w). cbn [map fst]. split; [left; reflexivity|]. split; [right; left; reflexivity|].
          intros C. cbn [map] in ND'. inversion ND' as [|x y N1 N2]; subst. apply N1. left. symmetry. exact C. }
      rewrite ET in E. injection E as <-. cbn [i_slope i_slope_low i_slope_high i_max_neg_step i_valid i_start_loss i_end_loss]. change (flt (Fin 0) (fz 0)) with false. cbv iota.
      split; [split; [reflexivity|split; reflexivity]|]. split; [reflexivity|]. split; [symmetry; reflexivity|]. intros _. cbn [fmul fadd fz]. split; f_equal; ring.
    + injection E as <-. cbn [i_slope i_slope_low i_slope_high i_max_neg_step i_valid i_start_loss i_end_loss].
      split; [split; [reflexivity|split; reflexivity]|]. split; [reflexivity|]. split; [symmetry; reflexivity|discriminate].
Qed.

Lemma flatten_flat : forall bad i, flat_interval i -> flat_interval (flatten bad i).
Proof. intros bad i H. unfold flatten. destruct (bad i); [split; [reflexivity|split; reflexivity]|exact H]. Qed.
Lemma flatten_valid : forall bad i, i_valid (flatten bad i) = true -> bad i = false /\ flatten bad i = i.
Proof. intros bad i H. unfold flatten in *. destruct (bad i); [discriminate H|split; reflexivity]. Qed.

(** A valid interval of the table has days with a performance. *)
Lemma table_steady : forall margin minimum rows trim limit step w out, (forall pts, 0 <= margin pts) -> (1 <= minimum)%Z -> 0 < w ->
  (forall d, In d rows -> (d_pi_norm d = Fin w \/ d_pi_norm d = Fin 0) /\ d_delta d = Fin 0) -> NoDup (map d_day rows) ->
  calc_result_df (theil_fit margin) rows trim limit step minimum = Ok out ->
  (forall x, In x (s_table out) -> flat_interval (fst x) /\ (i_valid (fst x) = true -> i_start_loss (fst x) = Fin w /\ i_end_loss (fst x) = Fin w)) /\
  (forall a, In a (s_daily out) -> a_loss_perfect a = Fin 1) /\
  exists d a, In d rows /\ d_pi_norm d = Fin w /\ In a (s_daily out) /\ a_insol a = d_insol d.
Proof.
  intros margin minimum rows trim limit step w out HM H1 Hw HR ND E. unfold calc_result_df in E.
  destruct (map_result _ _) as [fits|] eqn:EF; [|discriminate E]. cbn [bind] in E. apply map_result_F2 in EF.
  assert (K : forall i, In i fits -> exists r, flat_interval i /\ (i_valid i = true -> i_start_loss i = Fin w /\ i_end_loss i = Fin w) /\
    (i_valid i = true -> exists d, In d rows /\ d_pi_norm d = Fin w /\ d_run d = r) /\ i_run i = r).
  { intros i I. destruct (Forall2_in_right _ _ _ _ _ i EF I) as (r & _ & Ei). exists r.
    assert (ND' : NoDup (map d_day (filter (fun d => (d_run d =? r)%Z) rows))).
    { clear -ND. induction rows as [|d l IH]; [constructor|]. cbn [map] in ND. inversion ND as [|a b N1 N2]; subst. cbn [filter]. destruct (d_run d =? r)%Z; [|apply IH; exact N2].
      cbn [map]. constructor; [|apply IH; exact N2]. intros C. apply N1. apply in_map_iff in C. destruct C as (d' & <- & C). apply filter_In in C. apply in_map. apply C. }
    destruct (fit_steady margin minimum _ r w i HM H1 Hw (fun d J => HR d (proj1 (proj1 (filter_In _ _ _) J))) ND' Ei) as (A & _ & B & C).
    split; [exact A|]. split; [exact C|]. split.
    - intros V. rewrite V in B. symmetry in B. apply Z.ltb_lt in B. destruct (filter (fun d => fgt (d_pi_norm d) (fz 0)) _) as [|d l] eqn:EP; [cbn in B; lia|].
      assert (In d (filter (fun d => fgt (d_pi_norm d) (fz 0)) (filter (fun d => (d_run d =? r)%Z) rows))) as J by (rewrite EP; left; reflexivity).
      apply filter_In in J. destruct J as [J G]. apply filter_In in J. destruct J as [J Q]. exists d. split; [exact J|]. split; [|apply Z.eqb_eq; exact Q].
      destruct (HR d J) as [[P|P] _]; [exact P|]. rewrite P in G. discriminate G.
    - clear -Ei. unfold fit_interval in Ei. destruct (filter _ rows); [discriminate Ei|]. cbv zeta in Ei. destruct (_ && _); [destruct (theil_fit _ _) as [[[? ?] ?] ?]|]; injection Ei as <-; reflexivity. }
  destruct fits as [|f0 fs] eqn:EFS; [discriminate E|]. rewrite <- EFS in *. set (table := map (flatten (rejected limit step)) fits) in *.
  destruct (filter i_valid table) as [|i0 l0] eqn:EV; [discriminate E|]. injection E as <-. cbn [s_table s_daily].
  assert (T : forall i, In i table -> flat_interval i /\ (i_valid i = true -> i_start_loss i = Fin w /\ i_end_loss i = Fin w)).
  { intros i I. unfold table in I. apply in_map_iff in I. destruct I as (f & <- & I). destruct (K f I) as (r & A & B & _ & _). split; [apply flatten_flat; exact A|].
    intros V. destruct (flatten_valid _ _ V) as [_ Ef]. rewrite Ef in *. exact (B V). }
  split; [intros x I; apply T; destruct x as [i rec]; apply in_combine_l in I; exact I|]. split.
  - intros a I. apply in_flat_map in I. destruct I as (d & _ & I). unfold analyze_row in I. destruct (filter (fun i => (i_run i =? d_run d)%Z) table) as [|i l] eqn:EI; [destruct I|]. destruct I as [<-|[]]. cbn [a_loss_perfect].
    assert (In i table) as J by (assert (In i (i :: l)) as Q by (left; reflexivity); rewrite <- EI in Q; apply filter_In in Q; apply Q).
    destruct (T i J) as [[S _] _]. rewrite S. cbn [fmul fz fadd]. unfold fill1. cbn [isnan]. f_equal. change (qz 1) with 1. ring.
  - assert (In i0 table /\ i_valid i0 = true) as [J V] by (apply filter_In; rewrite EV; left; reflexivity).
    unfold table in J. apply in_map_iff in J. destruct J as (f & Q & J). rewrite <- Q in V. destruct (flatten_valid _ _ V) as [_ Ef]. rewrite Ef in *. rewrite <- Q in *. clear Q i0.
    destruct (K f J) as (r & _ & _ & G & R). destruct (G V) as (d & D1 & D2 & D3). exists d.
    destruct (filter (fun i => (i_run i =? d_run d)%Z) table) as [|i l] eqn:EI.
    + exfalso. assert (In f (filter (fun i => (i_run i =? d_run d)%Z) table)) as C; [|rewrite EI in C; destruct C].
      apply filter_In. split; [unfold table; apply in_map_iff; exists f; split; [exact Ef|exact J]|]. apply Z.eqb_eq. congruence.
    + eexists. split; [exact D1|]. split; [exact D2|]. split; [apply in_flat_map; exists d; split; [exact D1|]; unfold analyze_row; rewrite EI; left; reflexivity|]. reflexivity.
Qed.
End Steady.

(** ** The realizations *)

Definition level_one (x : option (fl * fl)) : Prop := x = None \/ x = Some (Fin 1, Fin 1).
Definition kept_recovery (r : fl) : Prop := r = NaN \/ exists q, r = Fin q /\ 0 <= q /\ q <= 1.

Lemma next_one : forall m z r x, kept_recovery r -> next_level m z (Fin 1) r = Ok x -> x = Fin 1.
Proof.
  intros [|] z r x H E.
  - assert (clip01 (fadd (Fin 1) (fill1 r)) = Fin 1) as K.
    { destruct H as [->|(q & -> & Q0 & Q1)]; [reflexivity|]. unfold fill1, clip01. cbn [isnan fadd fz flt fgt]. change (qz 0) with 0. change (qz 1) with 1.
      destruct (qlt (1 + q) 0) eqn:E1; qb; [qlra|]. destruct (qlt 1 (1 + q)) eqn:E2; qb; [reflexivity|]. f_equal. qlra. }
    unfold next_level in E. rewrite K in E. injection E as <-. cbn [fsub fneg fadd fdiv fz]. change (qz 1) with 1. change (qeq (qz 3) 0) with false. cbv iota. cbn [fmul fabs fadd fneg fsub].
    f_equal. replace (z * ((1 + - (1)) / qz 3)) with 0; [reflexivity|]. unfold Qcdiv. ring.
  - unfold next_level, uniform in E. change (fz 1) with (Fin 1) in E. cbv iota in E. injection E as <-. apply (f_equal Fin). ring.
Qed.
Lemma valid_one : forall m z l k out, (forall i r x, In (i, r, x) l -> kept_recovery r /\ x = Fin 0) -> valid_levels m z k (Fin 1) l = Ok out -> Forall level_one out.
Proof.
  intros m z. induction l as [|[[i r] x] l IH]; intros k out H E; cbn [valid_levels] in E; [injection E as <-; constructor|].
  destruct (H i r x (or_introl eq_refl)) as [HR ->]. assert (H' : forall i r x, In (i, r, x) l -> kept_recovery r /\ x = Fin 0) by (intros i' r' x' I; apply (H i' r' x'); right; exact I).
  assert (fadd (Fin 1) (Fin 0) = Fin 1) as E1 by reflexivity. rewrite E1 in E. destruct (i_valid i).
  - destruct (next_level m (z k) (Fin 1) r) as [y|] eqn:EN; [|discriminate E]. cbn [bind] in E. rewrite (next_one _ _ _ _ HR EN) in E.
    destruct (valid_levels m z (S k) (Fin 1) l) as [rest|] eqn:EV; [|discriminate E]. injection E as <-. constructor; [right; reflexivity|exact (IH _ _ H' EV)].
  - destruct (valid_levels m z k (Fin 1) l) as [rest|] eqn:EV; [|discriminate E]. injection E as <-. constructor; [left; reflexivity|exact (IH _ _ H' EV)].
Qed.
Lemma previous_one : forall l x, Forall level_one l -> In x (previous_ends (Fin 1) l) -> x = Fin 1.
Proof.
  induction l as [|o l IH]; intros x H I; [destruct I|]. inversion H as [|a b Ho Hl]; subst. cbn [previous_ends] in I. destruct Ho as [->| ->]; (destruct I as [<-|I]; [reflexivity|exact (IH x Hl I)]).
Qed.
Lemma nexts_one : forall l x, Forall level_one l -> In x (next_starts l) -> x = Fin 1.
Proof.
  induction l as [|o l IH]; intros x H I; [destruct I|]. inversion H as [|a b Ho Hl]; subst. cbn [next_starts] in I. destruct Ho as [->| ->].
  - destruct I as [<-|I]; [|exact (IH x Hl I)]. destruct (next_starts l) as [|y r] eqn:E; [reflexivity|]. apply IH; [exact Hl|left; reflexivity].
  - destruct I as [<-|I]; [reflexivity|exact (IH x Hl I)].
Qed.
Lemma groups_one : forall u order k rows out x, (forall g lo hi, In (g, (lo, hi)) rows -> lo = Fin 1 /\ hi = Fin 1) -> group_levels u k order rows = Ok out -> In x out -> x = Fin 1.
Proof.
  intros u. induction order as [|g order IH]; intros k rows out x H E I; cbn [group_levels] in E; [injection E as <-; destruct I|].
  destruct (filter (fun r => (fst r =? g)%Z) rows) as [|[g' [lo hi]] others] eqn:EF; [discriminate E|].
  assert (In (g', (lo, hi)) rows) as J by (apply (proj1 (filter_In (fun r => (fst r =? g)%Z) (g', (lo, hi)) rows)); rewrite EF; left; reflexivity).
  destruct (H _ _ _ J) as [-> ->]. cbn [uniform bind] in E. destruct (group_levels u (S k) order rows) as [rest|] eqn:EG; [|discriminate E]. cbn [bind] in E. injection E as <-.
  assert (1 + (1 - 1) * u k = 1) as E1 by ring. rewrite E1 in I. destruct I as [<-|I]; [reflexivity|]. apply in_app_or in I. destruct I as [I|I]; [|exact (IH _ _ _ _ H EG I)].
  apply in_map_iff in I. destruct I as (y & <- & _). reflexivity.
Qed.
Lemma place_one : forall l levels x, Forall level_one l -> (forall y, In y levels -> y = Fin 1) -> In x (place_levels l levels) -> x = Fin 1 \/ x = NaN.
Proof.
  induction l as [|o l IH]; intros levels x H HL I; [destruct I|]. inversion H as [|a b Ho Hl]; subst. cbn [place_levels] in I. destruct Ho as [->| ->].
  - destruct levels as [|y levels].
    + destruct I as [<-|I]; [right; reflexivity|exact (IH [] x Hl HL I)].
    + destruct I as [<-|I]; [left; apply HL; left; reflexivity|]. apply (IH levels x Hl); [intros z J; apply HL; right; exact J|exact I].
  - destruct I as [<-|I]; [left; reflexivity|exact (IH levels x Hl HL I)].
Qed.
Lemma starts_one : forall method visit d (table : list (interval * fl)) losses l x, (forall t, In t table -> kept_recovery (snd t)) -> (forall y, In y losses -> y = Fin 0) ->
  starts_of method visit d table losses = Ok l -> In x l -> x = Fin 1 \/ x = NaN.
Proof.
  intros method visit d table losses l x HT HL E I.
  assert (R : forall m, random_starts m visit d table losses = Ok l -> x = Fin 1 \/ x = NaN).
  { intros m ER. unfold random_starts in ER. change (fz 1) with (Fin 1) in ER. destruct (valid_levels _ _ _ _ _) as [levels|] eqn:EV; [|discriminate ER]. cbn [bind] in ER.
    assert (HO : Forall level_one levels).
    { apply (valid_one _ _ _ _ _) with (2 := EV). intros i r y J. apply in_map_iff in J. destruct J as ([[i' r'] y'] & Q & J). cbn [fst snd] in Q. injection Q as <- <- <-.
      split; [apply (HT (i', r')); exact (in_combine_l _ _ _ _ J)|apply HL; exact (in_combine_r _ _ _ _ J)]. }
    destruct (group_levels _ _ _ _) as [fills|] eqn:EG; [|discriminate ER]. cbn [bind] in ER. injection ER as <-.
    apply (place_one levels fills x HO); [|exact I]. intros y J. apply (groups_one _ _ _ _ _ _) with (2 := EG) (3 := J).
    intros g lo hi K. apply in_map_iff in K. destruct K as ([p info] & Q & K). cbn [snd] in Q. subst info. apply filter_In in K. destruct K as [K _]. apply in_combine_r in K. apply in_combine_r in K.
    split; [apply (previous_one levels lo HO), (in_combine_l _ _ _ _ K)|apply (nexts_one levels hi HO), (in_combine_r _ _ _ _ K)]. }
  unfold starts_of in E. destruct (String.eqb method "half_norm_clean"); [exact (R _ E)|]. destruct (String.eqb method "random_clean"); [exact (R _ E)|].
  destruct (String.eqb method "perfect_clean"); [|discriminate E]. injection E as <-. apply in_map_iff in I. destruct I as (y & <- & _). left. reflexivity.
Qed.

Lemma realization_one : forall visit s d method, well_formed s -> (forall l, set_order l (visit l)) -> known_method method ->
  (forall x, In x (s_table s) -> i_slope_low (fst x) = Fin 0 /\ i_slope_high (fst x) = Fin 0) ->
  (forall a, In a (s_daily s) -> exists w, a_insol a = Fin w /\ 0 <= w) -> (exists a w, In a (s_daily s) /\ a_insol a = Fin w /\ 0 < w) ->
  realization method visit s d = Ok (map (fun _ => Fin 1) (s_daily s), Fin 1).
Proof.
  intros visit s d method WF HV KM HS HW (a0 & w0 & A0 & W0 & P0).
  assert (BD : bounded s (fun _ => (0, 0))) by (intros k Hk; destruct (row_at_In s k Hk) as (rec & I); apply (HS _ I)).
  destruct (starts_method visit s d WF HV (fun _ => (0, 0)) method KM) as (starts & ES & LS & _).
  set (ls := map _ (seq 0 (List.length (s_table s)))) in ES.
  assert (S1 : forall x, In x starts -> x = 1).
  { intros x I. assert (In (Fin x) (map Fin starts)) as J by (apply in_map; exact I).
    assert (HL : forall y, In y (map Fin ls) -> y = Fin 0); [|destruct (starts_one method visit d (s_table s) _ _ (Fin x) (wf_recovery s WF) HL ES J) as [Q|Q]; [injection Q as Q; exact Q|discriminate Q]].
    intros y K. apply in_map_iff in K. destruct K as (q & <- & K). unfold ls in K. apply in_map_iff in K. destruct K as (k & <- & _). unfold between. cbn [fst snd]. f_equal. ring. }
  destruct (realization_from visit s d WF (fun _ => (0, 0)) BD method starts ES LS) as (profile & ratio & ER & LP & HP & HR).
  assert (P1 : forall x, In x profile -> x = 1).
  { intros x I. apply (In_nth _ _ 0) in I. destruct I as (p & Hp & <-). rewrite LP in Hp. destruct (nth_error (s_daily s) p) as [a|] eqn:Ea; [|apply nth_error_None in Ea; lia].
    destruct (wf_daily s WF a (nth_error_In _ _ Ea)) as (x & Hx & Er & _). apply (In_nth _ _ (Interval 0 0 0 0 NaN NaN NaN NaN NaN NaN false, NaN)) in Hx. destruct Hx as (k & Hk & Ek).
    rewrite (HP p a k Ea Hk) by (unfold row_at; rewrite Ek; exact Er). rewrite (S1 (nth k starts 0)) by (apply nth_In; rewrite LS; exact Hk). unfold between. cbn [fst snd]. ring. }
  assert (noinf (map a_insol (s_daily s))) as NI by (intros y Hy; apply in_map_iff in Hy; destruct Hy as (a' & <- & Ha'); destruct (HW a' Ha') as (w' & -> & _); split; discriminate).
  destruct (HR NI) as [HR1 _]. rewrite ER. f_equal. f_equal.
  - rewrite <- (map_map (fun _ : analyzed => 1) Fin). f_equal. clear -P1 LP. revert profile P1 LP. induction (s_daily s) as [|a l IH]; intros [|x profile] P1 LP; try discriminate LP; [reflexivity|]. cbn [map].
    rewrite (P1 x (or_introl eq_refl)). f_equal. apply IH; [intros y I; apply P1; right; exact I|cbn in LP; lia].
  - set (kr := known_rows profile (map a_insol (s_daily s))) in *.
    assert (KR : forall rr, In rr kr -> fst rr = 1 /\ 0 <= snd rr).
    { intros [v w'] Hrr. unfold kr, known_rows in Hrr. apply in_flat_map in Hrr. destruct Hrr as ([v' f] & Hin & Hf). cbn [fst snd] in *. pose proof (in_combine_l _ _ _ _ Hin) as I1. apply in_combine_r in Hin. apply in_map_iff in Hin. destruct Hin as (a' & <- & Ha').
      destruct (HW a' Ha') as (w'' & Ew' & Pw'). rewrite Ew' in Hf. destruct Hf as [Hf|[]]. injection Hf as <- <-. auto. }
    assert (0 < qsum (map snd kr)) as PS.
    { assert (exists v, In (v, w0) kr) as (v & Iv).
      { apply In_nth_error in A0. destruct A0 as (p & Hp). assert (p < List.length profile)%nat as Lp by (rewrite LP; apply nth_error_Some; congruence). exists (nth p profile 0). unfold kr, known_rows. apply in_flat_map.
        exists (nth p profile 0, Fin w0). split; [|left; reflexivity]. apply (nth_error_In _ p). rewrite nth_error_combine, (nth_error_nth' profile 0 Lp), nth_error_map_some, Hp. cbn [option_map]. rewrite W0. reflexivity. }
      clear -KR Iv P0. induction kr as [|r l IH]; [destruct Iv|]. cbn [map]. rewrite qsum_cons. destruct (KR r (or_introl eq_refl)) as [_ K0].
      assert (0 <= qsum (map snd l)) as K1.
      { clear -KR. induction l as [|x l IH]; [discriminate|]. cbn [map]. rewrite qsum_cons. destruct (KR x (or_intror (or_introl eq_refl))) as [_ K]. assert (0 <= qsum (map snd l)); [|qlra]. apply IH. intros rr [<-|J]; apply KR; [left; reflexivity|right; right; exact J]. }
      destruct Iv as [->|Iv]; [cbn [snd]; qlra|]. assert (0 < qsum (map snd l)); [|qlra]. apply IH; [|exact Iv]. intros rr J. apply KR. right. exact J. }
    destruct HR1 as (q & -> & WM); [intros C; rewrite C in PS; discriminate PS|]. f_equal.
    destruct (mean_between kr q 1 1 WM PS) as [L1 L2]; [|apply Qcle_antisym; assumption]. intros rr J. destruct (KR rr J) as [-> K]. split; [exact K|split; apply Qcle_refl].
Qed.

(** ** The whole analysis *)

Lemma daily_sorted : forall l t, daily_from t l = true -> StronglySorted Z.lt (t :: l).
Proof.
  induction l as [|u l IH]; intros t H; [constructor; constructor|]. cbn [daily_from] in H. apply andb_true_iff in H. destruct H as [E H]. apply Z.eqb_eq in E. pose proof (IH u H) as S.
  constructor; [exact S|]. constructor; [unfold ns_day in E; lia|]. inversion S as [|a b S1 S2]; subst a b. eapply Forall_impl; [|exact S2]. intros x L. cbv beta in L. unfold ns_day in E. lia.
Qed.
Lemma inferred_sorted : forall s, inferred_daily (times s) = true -> sorted_index s.
Proof. intros s H. unfold inferred_daily in H. apply andb_true_iff in H. destruct H as [_ H]. unfold sorted_index. destruct (times s) as [|t l]; [constructor|]. apply daily_sorted. exact H. Qed.
Lemma init_sorted : forall pm insolation precip u, srr_init pm insolation precip = Ok u -> sorted_index pm /\ sorted_index insolation /\ pm <> [].
Proof.
  intros pm insolation precip u H. unfold srr_init in H. destruct (inferred_daily (times pm)) eqn:E1; [|discriminate H]. destruct (inferred_daily (times insolation)) eqn:E2; [|discriminate H].
  split; [apply inferred_sorted; exact E1|]. split; [apply inferred_sorted; exact E2|]. intros ->. discriminate E1.
Qed.
Lemma insol_sunny : forall pm insolation t, sunny pm insolation -> exists w, fill0 (lookup insolation t) = Fin w /\ 0 <= w.
Proof.
  intros pm insolation t [H _]. destruct (lookup_cases insolation t) as [(x & I & ->)|[_ ->]]; [|exists 0; split; [reflexivity|apply Qcle_refl]].
  destruct (H t x I) as [->|(q & -> & Q)]; [exists 0; split; [reflexivity|apply Qcle_refl]|exists q; split; [reflexivity|exact Q]].
Qed.
Lemma numbered_distinct : forall pm insolation precip day_scale thr recenter c pthr factor r rows,
  calc_daily_df pm insolation precip day_scale thr recenter c pthr factor = Ok (r, rows) -> NoDup (map d_day rows).
Proof.
  intros pm insolation precip day_scale thr recenter c pthr factor r rows E. destruct (daily_numbered _ _ _ _ _ _ _ _ _ _ _ E) as [_ N].
  apply NoDup_nth_error. intros i j L H. rewrite map_length in L. rewrite !nth_error_map_some in H.
  destruct (nth_error rows i) as [a|] eqn:Ei; [|apply nth_error_None in Ei; lia]. destruct (nth_error rows j) as [b|] eqn:Ej; [|discriminate H].
  cbn [option_map] in H. injection H as H. rewrite (proj1 (N i a Ei)), (proj1 (N j b Ej)) in H. apply Nat2Z.inj in H. exact H.
Qed.

Lemma realizations_one : forall method visit out ds runs, map_result (realization method visit out) ds = Ok runs ->
  (forall d, realization method visit out d = Ok (map (fun _ => Fin 1) (s_daily out), Fin 1)) ->
  runs = map (fun _ => (map (fun _ => Fin 1) (s_daily out), Fin 1)) ds.
Proof.
  intros method visit out. induction ds as [|d ds IH]; intros runs E H; cbn [map_result] in E; [injection E as <-; reflexivity|]. rewrite H in E. cbn [bind] in E.
  destruct (map_result _ ds) as [ys|] eqn:EY; [|discriminate E]. cbn [bind] in E. injection E as <-. cbn [map]. f_equal. exact (IH ys eq_refl H).
Qed.

Theorem srr_clean : forall margin visit pm insolation ds precip day_scale thr trim method c pthr minimum exc conf rc limit step factor res v,
  (forall pts, 0 <= margin pts) -> (forall l, set_order l (visit l)) -> (1 <= minimum)%Z -> 0 < v -> steady_at v pm -> sunny pm insolation ->
  soiling_srr (theil_fit margin) visit pm insolation ds precip day_scale thr trim method c pthr minimum exc conf rc limit step factor = Ok res ->
  never_soiled res /\ sr_renorm res = Fin (if rc then v else 1) /\ List.length (sr_profiles res) = List.length ds /\
  forall i, In i (sr_intervals res) -> i_valid i = true -> i_start_loss i = Fin (if rc then 1 else v) /\ i_end_loss i = Fin (if rc then 1 else v).
Proof.
  intros margin visit pm insolation ds precip day_scale thr trim method c pthr minimum exc conf rc limit step factor res v HM HV H1 Hv HS HI E. unfold soiling_srr in E.
  destruct (srr_init pm insolation precip) as [u|] eqn:E0; [|discriminate E]. cbn [bind] in E. destruct (init_sorted _ _ _ _ E0) as (SI & SJ & _). unfold srr_run in E.
  destruct (calc_daily_df _ _ _ _ _ _ _ _ _) as [[r rows]|] eqn:E1; [|discriminate E]. cbn [bind snd fst] in E.
  destruct (calc_result_df _ _ _ _ _ _) as [out|] eqn:E2; [|discriminate E]. cbn [bind] in E.
  destruct (calc_monte method visit out ds) as [runs|] eqn:E3; [|discriminate E]. cbn [bind] in E.
  destruct (srr_percentiles (map snd runs) conf exc) as [[[[m0 lo0] hi0] x0]|] eqn:E4; [|discriminate E]. cbn [bind] in E. injection E as <-.
  cbn [sr_renorm sr_intervals sr_perfect sr_profiles sr_median sr_low sr_high sr_exceedance].
  destruct (daily_steady v Hv _ _ _ _ _ _ _ _ _ _ _ HS E1) as [-> HD].
  destruct (result_formed _ _ _ _ _ _ _ _ _ _ _ _ _ _ _ _ _ SI E1 E2) as (WF & _ & HA).
  destruct (table_steady margin minimum rows trim limit step (level_is v rc) out HM H1 (level_pos v Hv rc)) as (HT & HP & (d & a & D1 & D2 & A1 & A2)).
  { intros d I. destruct (HD d I) as ([[P _]|P] & Q & _); (split; [|exact Q]); [left|right]; exact P. }
  { exact (numbered_distinct _ _ _ _ _ _ _ _ _ _ _ E1). }
  { exact E2. }
  assert (HW : forall a, In a (s_daily out) -> exists w, a_insol a = Fin w /\ 0 <= w).
  { intros a' I. destruct (HA a' I) as (d' & J & _ & ->). rewrite (proj2 (proj2 (HD d' J))). apply (insol_sunny pm). exact HI. }
  assert (HP0 : exists a w, In a (s_daily out) /\ a_insol a = Fin w /\ 0 < w).
  { exists a. destruct (HD d D1) as (Q & _ & QI). destruct Q as [[_ J]|Q]; [|rewrite D2 in Q; injection Q as Q; pose proof (level_pos v Hv rc) as L; rewrite Q in L; discriminate L].
    destruct (proj2 HI _ _ J) as (w & J' & W). exists w. split; [exact A1|]. rewrite A2, QI, (lookup_In _ _ _ SJ J'). split; [reflexivity|exact W]. }
  assert (ND : ds <> []) by (intros ->; injection E3 as <-; apply (percentiles_empty _ _ _ E4)).
  assert (KM : known_method method).
  { destruct (known_dec method) as [K|NK]; [exact K|]. exfalso. destruct ds as [|d0 ds0]; [contradiction|]. unfold calc_monte in E3. cbn [map_result] in E3.
    rewrite (realization_unknown visit out d0 (fun _ => (0, 0))) in E3; [discriminate E3| |exact NK]. intros k Hk. destruct (row_at_In out k Hk) as (rec & J). destruct (HT _ J) as [(_ & F1 & F2) _]. split; assumption. }
  assert (RO : forall d, realization method visit out d = Ok (map (fun _ => Fin 1) (s_daily out), Fin 1)).
  { intros d'. apply realization_one; try assumption. intros x J. destruct (HT x J) as [(_ & F1 & F2) _]. split; assumption. }
  pose proof (realizations_one _ _ _ _ _ E3 RO) as ER. rewrite ER in *. clear ER.
  assert (Hq : forall p y, np_percentile p (map snd (map (fun _ : draws => (map (fun _ : analyzed => Fin 1) (s_daily out), Fin 1)) ds)) = Ok y -> y = Fin 1).
  { intros p y. apply const_percentile; [destruct ds; [contradiction|discriminate]|]. intros z J. rewrite map_map in J. cbn [snd] in J. apply in_map_iff in J. destruct J as (q & <- & _). reflexivity. }
  unfold srr_percentiles in E4. set (losses := map snd _) in *.
  destruct (np_percentile (qz 50) losses) as [y1|] eqn:P1; [|discriminate E4]. cbn [bind] in E4. destruct (np_percentile (qz 50 - conf / qz 2) losses) as [y2|] eqn:P2; [|discriminate E4]. cbn [bind] in E4.
  destruct (np_percentile (qz 50 + conf / qz 2) losses) as [y3|] eqn:P3; [|discriminate E4]. cbn [bind] in E4. destruct (np_percentile (qz 100 - exc) losses) as [y4|] eqn:P4; [|discriminate E4]. cbn [bind] in E4.
  assert (m0 = Fin 1 /\ lo0 = Fin 1 /\ hi0 = Fin 1 /\ x0 = Fin 1) as (-> & -> & -> & ->).
  { rewrite <- (Hq _ _ P1), <- (Hq _ _ P2), <- (Hq _ _ P3), <- (Hq _ _ P4) at 1. destruct losses; [discriminate E4|]. injection E4 as <- <- <- <-.
    rewrite (Hq _ _ P1), (Hq _ _ P2), (Hq _ _ P3), (Hq _ _ P4). repeat split; reflexivity. }
  split; [|split; [reflexivity|split; [rewrite !map_length; reflexivity|]]].
  - unfold never_soiled. cbn [sr_renorm sr_intervals sr_perfect sr_profiles sr_median sr_low sr_high sr_exceedance]. split; [reflexivity|]. split; [reflexivity|]. split; [reflexivity|]. split; [reflexivity|]. split; [|split].
    + intros p x J I. rewrite map_map in J. cbn [fst] in J. apply in_map_iff in J. destruct J as (q & <- & _). apply in_map_iff in I. destruct I as (q' & <- & _). reflexivity.
    + intros i J. apply in_map_iff in J. destruct J as (x & <- & J). exact (proj1 (HT x J)).
    + intros t x J. apply in_map_iff in J. destruct J as (a' & Q & J). injection Q as _ <-. apply filter_In in J. apply HP. apply J.
  - intros i J V. apply in_map_iff in J. destruct J as (x & <- & J). destruct (HT x J) as [_ K]. exact (K V).
Qed.

(** ** A record without missing days *)

Lemma all_steady : forall v pm, all_at v pm -> steady_at v pm.
Proof. intros v pm H t x I. left. exact (H t x I). Qed.
Lemma all_valid : forall v pm, pm <> [] -> all_at v pm -> valid_part pm = pm.
Proof.
  intros v pm N H. destruct (valid_part_spec pm) as [[A _]|(pre & post & E & M & _)].
  - destruct pm as [|[t x] pm]; [contradiction|]. exfalso. pose proof (A (t, x) (or_introl eq_refl)) as C. cbn [snd] in C. rewrite (H t x (or_introl eq_refl)) in C. discriminate C.
  - assert (K : pre ++ post = []).
    { destruct (pre ++ post) as [|[t x] l] eqn:EP; [reflexivity|]. exfalso. pose proof (M (t, x) (or_introl eq_refl)) as C. cbn [snd] in C. rewrite (H t x) in C; [discriminate C|]. rewrite E.
      assert (In (t, x) (pre ++ post)) as J by (rewrite EP; left; reflexivity). apply in_app_or in J. apply in_or_app. destruct J as [J|J]; [left; exact J|right; apply in_or_app; right; exact J]. }
    apply app_eq_nil in K. destruct K as [-> ->]. cbn [app] in E. rewrite app_nil_r in E. symmetry. exact E.
Qed.
Lemma quantile_zero : forall q l, 0 <= q -> q <= 1 -> same_or_missing 0 l -> fquantile q l = Fin 0 \/ fquantile q l = NaN.
Proof.
  intros q l H0 H1 H. destruct (finvals l) as [|x r] eqn:E.
  - right. apply fquantile_empty. rewrite (dropna_noinf l (same_noinf 0 l H)), E. reflexivity.
  - left. rewrite fquantile_noinf; [|exact (same_noinf 0 l H)|rewrite E; discriminate|exact H0|exact H1]. f_equal.
    destruct (qquantile_bounds q (finvals l) 0 0) as [A B]; [rewrite E; discriminate|exact H0|exact H1| |apply Qcle_antisym; assumption]. intros y I. rewrite (same_finvals 0 l y H I). split; apply Qcle_refl.
Qed.
Lemma never_detected : forall thr factor delta x, quiet thr -> same_or_missing 0 delta -> In x delta -> fgt x (clean_limit thr factor delta) = false.
Proof.
  intros thr factor delta x HT H I. destruct (H x I) as [->| ->]; [|destruct (clean_limit _ _ _); reflexivity]. destruct thr as [y|]; [exact HT|]. unfold clean_limit.
  assert (HA : same_or_missing 0 (map fabs delta)) by (intros y J; apply in_map_iff in J; destruct J as (z & <- & J); destruct (H z J) as [->| ->]; [left|right]; reflexivity).
  destruct (quantile_zero (qf 3 4) (map fabs delta)) as [->| ->]; try (discriminate || exact HA); [|destruct factor; reflexivity].
  destruct (quantile_zero (qf 1 4) (map fabs delta)) as [->| ->]; try (discriminate || exact HA); [|destruct factor; reflexivity].
  destruct factor as [| |f|]; try reflexivity. cbn [fsub fneg fadd fmul fgt flt]. apply not_true_iff_false. intros C. apply qlt_spec in C. revert C. replace (0 + f * (0 + - 0)) with 0 by ring. intros C. discriminate C.
Qed.
Lemma none_combined : forall c detected rain l i, c = "shift"%string \/ c = "precip_and_shift"%string -> (forall x, In x detected -> x = false) -> combine_events c detected rain = Ok l -> nth i l false = false.
Proof.
  intros c detected rain l i H D E. assert (N : forall k, nth k detected false = false) by (intros k; destruct (nth_in_or_default k detected false) as [I|I]; [exact (D _ I)|exact I]).
  destruct H as [->| ->]; cbn in E; injection E as <-; [apply N|]. destruct (nth_in_or_default i (map (fun i => nth i detected false && near rain i) (seq 0 (List.length detected))) false) as [I|I]; [|exact I].
  apply in_map_iff in I. destruct I as (k & I & _). unfold near in I. cbn [existsb] in I. rewrite <- I. rewrite N. reflexivity.
Qed.
Lemma combine_known : forall c detected rain, c = "shift"%string \/ c = "precip_and_shift"%string -> exists l, combine_events c detected rain = Ok l.
Proof. intros c detected rain [->| ->]; eexists; reflexivity. Qed.
Lemma ffill_complete : forall k l last age, (forall x, In x l -> isnan x = false) -> ffill_from k last age l = l.
Proof.
  intros k. induction l as [|x l IH]; intros last age H; [reflexivity|]. cbn [ffill_from]. rewrite (H x (or_introl eq_refl)). f_equal. apply IH. intros y I. apply H. right. exact I.
Qed.
Lemma no_outage : forall k l i, (forall x, In x l -> isnan x = false) -> outage_begins k l i = false /\ outage_ends k l i = false.
Proof.
  intros k l i H. assert (A : forall j, (j < List.length l)%nat -> isnan (at_row l j) = false) by (intros j L; apply H; unfold at_row; apply nth_In; exact L).
  unfold outage_begins, outage_ends, bfill_limit, ffill_limit. rewrite !ffill_complete by (first [exact H|intros x I; apply H; apply in_rev; exact I]). rewrite rev_involutive. split.
  - destruct (Nat.ltb_spec (S i) (List.length l)) as [L|L]; [rewrite (A _ L), andb_false_r; reflexivity|apply andb_false_r].
  - destruct (Nat.lt_ge_cases i (List.length l)) as [L|L]; [rewrite (A (i - 1)%nat) by lia; apply andb_false_r|]. unfold at_row at 1. rewrite nth_overflow by lia. reflexivity.
Qed.
Lemma count_none : forall l n x, (forall b, In b l -> b = false) -> In x (count_from n l) -> x = n.
Proof.
  induction l as [|b l IH]; intros n x H I; [destruct I|]. cbn [count_from] in I. rewrite (H b (or_introl eq_refl)) in I. destruct I as [<-|I]; [reflexivity|]. apply (IH n x); [|exact I]. intros c J. apply H. right. exact J.
Qed.

Section Complete.
Context (v : Qc) (Hv : 0 < v).

Lemma daily_complete : forall pm insolation precip day_scale thr rc c pthr factor, pm <> [] -> all_at v pm -> (0 < day_scale)%nat -> quiet thr -> c = "shift"%string \/ c = "precip_and_shift"%string ->
  exists rows, calc_daily_df pm insolation precip day_scale thr rc c pthr factor = Ok (Fin (scale_of v rc), rows) /\ map d_date rows = times pm /\
    map d_day rows = map Z.of_nat (seq 0 (List.length pm)) /\ forall d, In d rows -> d_run d = 0%Z /\ d_pi_norm d = Fin (level_is v rc).
Proof.
  intros pm insolation precip day_scale thr rc c pthr factor N HA HD HT HC. pose proof (all_valid v pm N HA) as EV.
  assert (exists r rows, calc_daily_df pm insolation precip day_scale thr rc c pthr factor = Ok (r, rows) /\ map d_date rows = times pm /\
    map d_day rows = map Z.of_nat (seq 0 (List.length pm)) /\ forall d, In d rows -> d_run d = 0%Z /\ exists i, (i < List.length pm)%nat /\ d_pi_norm d = fill0 (at_row (map (fun x => fdiv x r) (vals pm)) i)) as (r & rows & E & E1 & E2 & E3).
  { unfold calc_daily_df. rewrite EV. destruct pm as [|x0 p] eqn:EP; [contradiction|]. rewrite <- EP in *. clear EP x0 p. set (s := pm) in *.
    destruct (Nat.eqb_spec day_scale 0) as [C|_]; [lia|]. set (renorm := renorm_factor rc s). set (pi := map (fun x => fdiv x renorm) (vals s)).
    assert (renorm = Fin (scale_of v rc)) as ER.
    { unfold renorm. rewrite <- EV at 1. destruct (valid_part s) as [|x0 p] eqn:Q; [symmetry in EV; contradiction|]. rewrite <- Q. apply (renorm_steady v s rc x0 p); [exact (all_steady v s HA)|exact Q]. }
    assert (HP : forall x, In x pi -> x = Fin (level_is v rc)).
    { intros x I. unfold pi in I. apply in_map_iff in I. destruct I as (y & <- & I). unfold vals in I. apply in_map_iff in I. destruct I as ([t z] & <- & I). cbn [snd]. rewrite (HA t z I), ER.
      cbn [fdiv]. destruct (qeq (scale_of v rc) 0) eqn:Q; [apply qeq_spec in Q; exfalso; exact (scale_nz v Hv rc Q)|]. f_equal. apply level_eq. exact Hv. }
    set (delta := diffs (roll_medians day_scale (times s) pi)).
    assert (HDl : same_or_missing 0 delta) by (apply (diffs_same (level_is v rc)), roll_same; intros x I; left; exact (HP x I)).
    set (detected := map (fun x => fgt x (clean_limit thr factor delta)) delta).
    assert (HN : forall x, In x detected -> x = false) by (intros x I; unfold detected in I; apply in_map_iff in I; destruct I as (y & <- & I); apply never_detected; assumption).
    set (rain := map (fun x => fgt x pthr) _). destruct (combine_known c detected rain HC) as (l & EC). rewrite EC. cbn [bind].
    set (event := map (fun i => nth i l false || outage_begins day_scale pi i || outage_ends day_scale pi i) (seq 0 (List.length s))).
    assert (HE : forall b, In b event -> b = false).
    { intros b I. unfold event in I. apply in_map_iff in I. destruct I as (i & <- & _). rewrite (none_combined c detected rain l i HC HN EC).
      destruct (no_outage day_scale pi i) as [-> ->]; [|reflexivity]. intros x I. rewrite (HP x I). reflexivity. }
    eexists. eexists. split; [reflexivity|]. split; [|split].
    - rewrite map_map. cbn [d_date]. apply ext_nth. intros i. rewrite nth_error_map_some, nth_error_seq. assert (List.length (times s) = List.length s) as LT by (unfold times; apply map_length).
      destruct (Nat.ltb_spec i (List.length s)) as [L|L]; cbn [option_map Nat.add]; [symmetry; apply nth_error_nth'; lia|symmetry; apply nth_error_None; lia].
    - rewrite map_map. cbn [d_day]. reflexivity.
    - intros d I. apply in_map_iff in I. destruct I as (i & <- & I). apply in_seq in I. cbn [d_run d_pi_norm]. split; [|exists i; split; [lia|reflexivity]].
      destruct (nth_in_or_default i (count_from 0 event) 0%Z) as [J|J]; [exact (count_none _ _ _ HE J)|exact J]. }
  destruct (daily_steady v Hv _ _ _ _ _ _ _ _ _ _ _ (all_steady v pm HA) E) as [-> HS]. exists rows. split; [exact E|]. split; [exact E1|]. split; [exact E2|]. intros d I. destruct (E3 d I) as (R & i & L & P). split; [exact R|].
  rewrite P. set (pi := map _ (vals pm)). assert (In (at_row pi i) pi) as J by (unfold at_row; apply nth_In; unfold pi, vals; rewrite !map_length; exact L).
  unfold pi in J at 2. apply in_map_iff in J. destruct J as (y & Q & J). unfold vals in J. apply in_map_iff in J. destruct J as ([t z] & <- & J). cbn [snd] in Q. rewrite (HA t z J) in Q. rewrite <- Q.
  cbn [fdiv]. destruct (qeq (scale_of v rc) 0) eqn:QE; [apply qeq_spec in QE; exfalso; exact (scale_nz v Hv rc QE)|]. unfold fill0. cbn [isnan]. f_equal. apply level_eq. exact Hv.
Qed.
End Complete.


Lemma fit_fields : forall fit minimum rows r i d0, fit_interval fit minimum rows r = Ok i -> i_start i = d_date (hd d0 rows) /\ i_end i = d_date (last rows d0) /\
  i_length i = (d_day (last rows d0) - d_day (hd d0 rows))%Z /\ i_run i = r.
Proof.
  intros fit minimum rows r i d0 E. unfold fit_interval in E. destruct rows as [|first rest]; [discriminate E|].
  assert (forall d1, last (first :: rest) d1 = last (first :: rest) d0) as L by (intros d1; clear; revert first; induction rest as [|x l IH]; intros first; [reflexivity|apply (IH x)]).
  rewrite (L first) in E. cbv zeta in E. destruct (_ && _); [destruct (fit _) as [[[? ?] ?] ?]|]; injection E as <-; repeat split; reflexivity.
Qed.
Lemma fit_some : forall fit minimum rows r, rows <> [] -> exists i, fit_interval fit minimum rows r = Ok i.
Proof. intros fit minimum [|first rest] r N; [contradiction|]. unfold fit_interval. cbv zeta. destruct (_ && _); [destruct (fit _) as [[[? ?] ?] ?]|]; eexists; reflexivity. Qed.


Lemma zset_one : forall l, l <> [] -> (forall x, In x l -> x = 0%Z) -> zset l = [0%Z].
Proof.
  intros l N H. apply sorted_lt_unique; [apply zset_sorted|constructor; constructor|]. intros t. rewrite zset_In. split; [intros I; left; symmetry; exact (H t I)|].
  intros [<-|[]]. destruct l as [|x l]; [contradiction|]. left. apply H. left. reflexivity.
Qed.

Lemma result_complete : forall v, 0 < v -> forall margin minimum pm rows rc limit step s, (forall pts, 0 <= margin pts) -> (1 <= minimum)%Z -> pm <> [] ->
  map d_date rows = times pm -> map d_day rows = map Z.of_nat (seq 0 (List.length pm)) ->
  (forall d, In d rows -> d_run d = 0%Z /\ d_pi_norm d = Fin (level_is v rc) /\ d_delta d = Fin 0) -> step = Fin s ->
  calc_result_df (theil_fit margin) rows true limit step minimum = Raise NoValidIntervalError /\
  ((minimum < Z.of_nat (List.length pm))%Z -> 0 < s -> exists out, calc_result_df (theil_fit margin) rows false limit step minimum = Ok out /\ s_table out = [(one_interval (level_is v rc) pm, NaN)] /\
     map a_date (s_daily out) = times pm /\ map a_valid (s_daily out) = map (fun _ => true) pm /\ map a_insol (s_daily out) = map d_insol rows) /\
  ((Z.of_nat (List.length pm) <= minimum)%Z \/ s <= 0 -> calc_result_df (theil_fit margin) rows false limit step minimum = Raise NoValidIntervalError).
Proof.
  intros v Hv margin minimum pm rows rc limit step s HM H1 N ED EN HR ->.
  assert (LR : List.length rows = List.length pm) by (rewrite <- (map_length d_date), ED; unfold times; apply map_length).
  assert (NR : rows <> []) by (intros ->; destruct pm; [contradiction|discriminate LR]).
  assert (EZ : zset (map d_run rows) = [0%Z]).
  { apply zset_one; [destruct rows; [contradiction|discriminate]|]. intros x I. apply in_map_iff in I. destruct I as (d & <- & I). apply HR. exact I. }
  assert (EF : filter (fun d => (d_run d =? 0)%Z) rows = rows).
  { clear -HR. induction rows as [|d l IH]; [reflexivity|]. cbn [filter]. rewrite (proj1 (HR d (or_introl eq_refl))). cbn [Z.eqb]. f_equal. apply IH. intros e I. apply HR. right. exact I. }
  split; [unfold calc_result_df, runs_of; rewrite EZ; reflexivity|].
  destruct (fit_some (theil_fit margin) minimum rows 0%Z NR) as (i & Ei).
  assert (ND : NoDup (map d_day rows)).
  { rewrite EN. apply FinFun.Injective_map_NoDup; [intros a b; apply Nat2Z.inj|apply seq_NoDup]. }
  destruct (fit_steady margin minimum rows 0%Z (level_is v rc) i HM H1 (level_pos v Hv rc)) as ((S1 & S2 & S3) & SN & SV & SL); [|exact ND|exact Ei|].
  { intros d I. destruct (HR d I) as (_ & P & Q). split; [left; exact P|exact Q]. }
  set (d0 := DayRow 0 0 NaN NaN NaN false 0). destruct (fit_fields _ _ _ _ _ d0 Ei) as (F1 & F2 & F3 & F4).
  assert (EP : filter (fun d => fgt (d_pi_norm d) (fz 0)) rows = rows).
  { clear -HR Hv. induction rows as [|d l IH]; [reflexivity|]. cbn [filter]. rewrite (proj1 (proj2 (HR d (or_introl eq_refl)))). change (fgt (Fin (level_is v rc)) (fz 0)) with (qlt 0 (level_is v rc)).
    rewrite (proj2 (qlt_spec 0 (level_is v rc)) (level_pos v Hv rc)). f_equal. apply IH. intros e I. apply HR. right. exact I. }
  rewrite EP, LR in SV. unfold calc_result_df, runs_of. rewrite EZ. cbn [map_result]. rewrite EF, Ei. cbn [bind map].
  assert (RJ : rejected limit (Fin s) i = fle (Fin 0) (fmul (fz (-1)) (Fin s))).
  { unfold rejected. rewrite S1, S2, S3, SN. change (fgt (Fin 0) (fz 0)) with false. assert (fge (fdiv (fsub (Fin 0) (Fin 0)) (fabs (Fin 0))) (fdiv limit (fz 100)) = false) as -> by (destruct (fdiv limit (fz 100)); reflexivity). reflexivity. }
  assert (RS : rejected limit (Fin s) i = true <-> s <= 0).
  { rewrite RJ. cbn [fz fmul fle]. rewrite qle_spec. change (qz (-1)) with (- (1)). split; intros C; [replace (- (1) * s) with (- s) in C by ring; qlra|replace (- (1) * s) with (- s) by ring; qlra]. }
  split.
  - intros L P. assert (rejected limit (Fin s) i = false) as RF by (apply not_true_iff_false; intros C; apply RS in C; qlra). unfold flatten. rewrite RF.
    assert (i_valid i = true) as VT by (rewrite SV; apply Z.ltb_lt; exact L). destruct (SL VT) as [L1 L2]. cbn [filter]. rewrite VT.
    assert (EW : i = one_interval (level_is v rc) pm).
    { assert (hd 0%Z (times pm) = i_start i) as W1 by (rewrite F1, <- ED; destruct rows; [contradiction|reflexivity]).
      assert (last (times pm) 0%Z = i_end i) as W2.
      { rewrite F2, <- ED. clear -NR. induction rows as [|a [|b l] IH]; [contradiction|reflexivity|]. change (last (map d_date (b :: l)) 0%Z = d_date (last (b :: l) d0)). apply IH. discriminate. }
      assert (i_length i = (Z.of_nat (List.length pm) - 1)%Z) as W3.
      { assert (d_day (last rows d0) = last (map d_day rows) 0%Z) as Q1.
        { clear -NR. induction rows as [|a [|b l] IH]; [contradiction|reflexivity|]. change (d_day (last (b :: l) d0) = last (map d_day (b :: l)) 0%Z). apply IH. discriminate. }
        assert (d_day (hd d0 rows) = hd 0%Z (map d_day rows)) as Q2 by (destruct rows; reflexivity).
        rewrite F3, Q1, Q2, EN. destruct (List.length pm) as [|k] eqn:EK; [destruct pm; [contradiction|discriminate EK]|]. rewrite seq_S, map_app. cbn [map Nat.add]. rewrite last_last.
        destruct k as [|k]; [reflexivity|]. cbn [seq map app hd]. lia. }
      unfold one_interval. rewrite W1, W2, <- W3, <- F4. destruct i as [q1 q2 q3 q4 q5 q6 q7 q8 q9 q10 q11]. cbn [i_start i_end i_length i_run i_slope i_slope_low i_slope_high i_max_neg_step i_valid i_start_loss i_end_loss] in *. congruence. }
    eexists. split; [reflexivity|]. cbn [s_table s_daily recoveries filter]. rewrite VT. split; [cbn [combine]; rewrite EW; reflexivity|].
    assert (AN : flat_map (analyze_row [i]) rows = map (fun d => Analyzed (d_date d) (d_insol d) (d_run d) ((d_date d - i_start i) / ns_day) (i_valid i) (fill1 (fadd (fz 1) (fmul (fz ((d_date d - i_start i) / ns_day)) (i_slope i)))) (fill1 (fadd (i_start_loss i) (fmul (fz ((d_date d - i_start i) / ns_day)) (i_slope i))))) rows).
    { clear -HR F4. induction rows as [|d l IH]; [reflexivity|]. cbn [flat_map map]. rewrite IH by (intros e I; apply HR; right; exact I). unfold analyze_row at 1. cbn [filter]. rewrite (proj1 (HR d (or_introl eq_refl))), F4. reflexivity. }
    rewrite AN, !map_map. cbn [a_date a_valid a_insol]. split; [exact ED|]. split; [|reflexivity]. rewrite VT. clear -LR. revert pm LR. induction rows as [|d l IH]; intros [|x pm] LR; try discriminate LR; [reflexivity|]. cbn [map]. f_equal. apply IH. cbn in LR. lia.
  - intros C. assert (i_valid (flatten (rejected limit (Fin s)) i) = false) as VF.
    { unfold flatten. destruct (rejected limit (Fin s) i) eqn:RT; [reflexivity|]. destruct C as [C|C]; [rewrite SV; apply Z.ltb_ge; exact C|]. apply RS in C. congruence. }
    cbn [filter]. rewrite VF. reflexivity.
Qed.

Theorem srr_whole : forall v, 0 < v -> forall margin visit pm insolation ds precip day_scale thr trim method c pthr minimum exc conf rc limit s factor,
  (forall pts, 0 <= margin pts) -> (forall l, set_order l (visit l)) -> (1 <= minimum)%Z -> all_at v pm -> sunny pm insolation -> srr_init pm insolation precip = Ok tt ->
  (0 < day_scale)%nat -> quiet thr -> c = "shift"%string \/ c = "precip_and_shift"%string ->
  let run := soiling_srr (theil_fit margin) visit pm insolation ds precip day_scale thr trim method c pthr minimum exc conf rc limit (Fin s) factor in
  (trim = false -> (minimum < Z.of_nat (List.length pm))%Z -> 0 < s -> ds <> [] -> known_method method -> 0 <= conf -> conf <= qz 100 -> 0 <= exc -> exc <= qz 100 ->
     exists res, run = Ok res /\ sr_intervals res = [one_interval (if rc then 1 else v) pm] /\ sr_perfect res = map (fun x => (fst x, Fin 1)) pm /\ sr_profiles res = map (fun _ => map (fun _ => Fin 1) pm) ds) /\
  (trim = true \/ (Z.of_nat (List.length pm) <= minimum)%Z \/ s <= 0 -> run = Raise NoValidIntervalError).
Proof.
  intros v Hv margin visit pm insolation ds precip day_scale thr trim method c pthr minimum exc conf rc limit s factor HM HV H1 HA HI E0 HD HT HC run.
  destruct (init_sorted _ _ _ _ E0) as (SI & SJ & N). destruct (daily_complete v Hv pm insolation precip day_scale thr rc c pthr factor N HA HD HT HC) as (rows & E1 & ED & EN & HR).
  destruct (daily_steady v Hv _ _ _ _ _ _ _ _ _ _ _ (all_steady v pm HA) E1) as [_ HS].
  assert (HR' : forall d, In d rows -> d_run d = 0%Z /\ d_pi_norm d = Fin (level_is v rc) /\ d_delta d = Fin 0).
  { intros d I. destruct (HR d I) as [R P]. split; [exact R|]. split; [exact P|]. apply HS. exact I. }
  destruct (result_complete v Hv margin minimum pm rows rc limit (Fin s) s HM H1 N ED EN HR' eq_refl) as (RT & RF & RN).
  unfold run, soiling_srr, srr_run. rewrite E0. cbn [bind]. rewrite E1. cbn [bind fst snd]. split.
  - intros -> L P NDs KM C0 C1 X0 X1. destruct (RF L P) as (out & EO & ET & AD & AV & AI). rewrite EO. cbn [bind].
    destruct (result_formed _ _ _ _ _ _ _ _ _ _ _ _ _ _ _ _ _ SI E1 EO) as (WF & _ & HAN).
    assert (RO : forall d, realization method visit out d = Ok (map (fun _ => Fin 1) (s_daily out), Fin 1)).
    { intros d. apply realization_one; [exact WF|exact HV|exact KM| | |].
      - intros x I. rewrite ET in I. destruct I as [<-|[]]. split; reflexivity.
      - intros a I. destruct (HAN a I) as (d' & J & _ & ->). rewrite (proj2 (proj2 (HS d' J))). apply (insol_sunny pm). exact HI.
      - destruct (s_daily out) as [|a l] eqn:EL; [exfalso; destruct pm; [contradiction|discriminate AD]|]. exists a. destruct (HAN a (or_introl eq_refl)) as (d' & J & _ & AA).
        destruct (HS d' J) as ([[_ K]|K] & _ & QI); [|rewrite (proj2 (HR d' J)) in K; injection K as K; pose proof (level_pos v Hv rc) as C; rewrite K in C; discriminate C].
        destruct (proj2 HI _ _ K) as (w & K' & W). exists w. split; [left; reflexivity|]. rewrite AA, QI, (lookup_In _ _ _ SJ K'). split; [reflexivity|exact W]. }
    assert (EM : calc_monte method visit out ds = Ok (map (fun _ => (map (fun _ => Fin 1) (s_daily out), Fin 1)) ds)).
    { clear -RO. unfold calc_monte. induction ds as [|d l IH]; [reflexivity|]. cbn [map_result]. rewrite RO. cbn [bind]. rewrite IH. reflexivity. }
    rewrite EM. cbn [bind]. set (losses := map snd _).
    assert (HP : forall p, 0 <= p -> p <= qz 100 -> exists y, np_percentile p losses = Ok y).
    { intros p A B. unfold np_percentile. rewrite (proj2 (qle_spec 0 p) A), (proj2 (qle_spec p (qz 100)) B). eexists. reflexivity. }
    assert (conf = conf / qz 2 + conf / qz 2) as EC.
    { unfold Qcdiv. replace (conf * / qz 2 + conf * / qz 2) with (conf * (qz 2 * / qz 2)) by (change (qz 2) with (1 + 1); ring). rewrite Qcmult_inv_r by discriminate. ring. }
    set (h := conf / qz 2) in *. assert (qz 100 = qz 50 + qz 50) as EH by reflexivity.
    assert (0 <= h /\ h <= qz 50) as [G0 G1] by (rewrite EC in C0, C1; rewrite EH in C1; split; qlra).
    unfold srr_percentiles. fold h.
    destruct (HP (qz 50)) as (y1 & ->); [discriminate|discriminate|]. cbn [bind].
    destruct (HP (qz 50 - h)) as (y2 & ->); [qlra|rewrite EH; qlra|]. cbn [bind]. destruct (HP (qz 50 + h)) as (y3 & ->); [assert (0 <= qz 50) by discriminate; qlra|rewrite EH; qlra|]. cbn [bind].
    destruct (HP (qz 100 - exc)) as (y4 & ->); [qlra|qlra|]. cbn [bind]. assert (losses <> []) as NL by (unfold losses; destruct ds; [contradiction|discriminate]). destruct losses as [|l0 ll]; [contradiction|].
    eexists. split; [reflexivity|]. cbn [sr_intervals sr_perfect sr_profiles]. rewrite ET. split; [reflexivity|].
    assert (HPf : forall a, In a (s_daily out) -> a_loss_perfect a = Fin 1).
    { apply (table_steady margin minimum rows false limit (Fin s) (level_is v rc) out HM H1 (level_pos v Hv rc)); [|exact (numbered_distinct _ _ _ _ _ _ _ _ _ _ _ E1)|exact EO].
      intros d I. destruct (HR' d I) as (_ & Q & R). split; [left; exact Q|exact R]. }
    clear -AD AV HPf. split.
    + revert pm AD AV. induction (s_daily out) as [|a l IH]; intros [|x pm] AD AV; try discriminate AD; [reflexivity|]. cbn [map times] in AD, AV. injection AD as A1 A2. injection AV as B1 B2.
      cbn [filter]. rewrite B1. cbn [map]. rewrite (HPf a (or_introl eq_refl)), A1. f_equal. apply IH; [intros b I; apply HPf; right; exact I|exact A2|exact B2].
    + rewrite map_map. cbn [fst]. apply map_ext. intros _. assert (List.length (s_daily out) = List.length pm) as L by (rewrite <- (map_length a_date), AD; unfold times; apply map_length).
      clear -L. revert pm L. induction (s_daily out) as [|a l IH]; intros [|x pm] L; try discriminate L; [reflexivity|]. cbn [map]. f_equal. apply IH. cbn in L. lia.
  - intros C. destruct trim; [rewrite RT; reflexivity|]. destruct C as [C|C]; [discriminate C|]. rewrite (RN C). reflexivity.
Qed.
