(** The rolling trend of a degradation analysis. *)

From Coq Require Import QArith Qcanon List ZArith Bool Lia Permutation Sorted.
From Verif.Base Require Import QcExtra Quantile Fl TimeSeries Calendar Rolling.
From Verif.Spec Require Import Stats Time YoY Plots.
From Verif.Model Require Import Utilities Bootstrap YearOnYear Clipping Plots.
From Verif.Proofs Require Import StatsP FlP FiltersP ClipP YoYP YoYP2 UncertaintyP PlotsP PlotsP2 PlotsP3.
Import ListNotations.
Open Scope Qc_scope.

Lemma in_order_up : forall l, in_order Z.leb l = true <-> Sorted Z.le l.
Proof.
  induction l as [| a l IH]; [split; [constructor | reflexivity] |]. destruct l as [| b l]; [split; [repeat constructor | reflexivity] |].
  change (in_order Z.leb (a :: b :: l)) with (Z.leb a b && in_order Z.leb (b :: l)). rewrite andb_true_iff, IH, Z.leb_le. split.
  - intros [H S]. constructor; [exact S | constructor; exact H].
  - intros S. inversion S as [| x y S' H]; subst. inversion H; subst. split; assumption.
Qed.
Lemma in_order_down : forall l, in_order Z.geb l = true <-> Sorted Z.ge l.
Proof.
  induction l as [| a l IH]; [split; [constructor | reflexivity] |]. destruct l as [| b l]; [split; [repeat constructor | reflexivity] |].
  change (in_order Z.geb (a :: b :: l)) with (Z.geb a b && in_order Z.geb (b :: l)). rewrite andb_true_iff, IH, Z.geb_le. split.
  - intros [H S]. constructor; [exact S | constructor; lia].
  - intros S. inversion S as [| x y S' H]; subst. inversion H; subst. split; [lia | assumption].
Qed.
Lemma ordered_iff : forall l, in_order Z.leb l || in_order Z.geb l = true <-> ordered l.
Proof. intros l. rewrite orb_true_iff, in_order_up, in_order_down. reflexivity. Qed.

(** ** Windows *)
Definition picked_from (inside : nat -> Z -> bool) (k : nat) (s : series) : list fl :=
  map (fun r => noninf (snd (snd r))) (filter (fun r => inside (fst r) (fst (snd r))) (combine (seq k (length s)) s)).
Lemma picked_numbers : forall (inside : nat -> Z -> bool) (P : nat -> Z -> Prop), (forall j u, inside j u = true <-> P j u) -> forall s k qs,
  numbers_at P k s qs <-> finvals (picked_from inside k s) = qs.
Proof.
  intros inside P HP. induction s as [| [t v] s IH]; intros k qs.
  - cbn. split; intros H; [inversion H; reflexivity | subst; constructor].
  - unfold picked_from. cbn [length seq combine filter fst snd]. fold (picked_from inside (S k) s).
    assert (finvals (map (fun r : nat * (Z * fl) => noninf (snd (snd r)))
      (if inside k t then (k, (t, v)) :: filter (fun r => inside (fst r) (fst (snd r))) (combine (seq (S k) (length s)) s)
       else filter (fun r => inside (fst r) (fst (snd r))) (combine (seq (S k) (length s)) s))) =
      (if inside k t then match v with Fin q => q :: finvals (picked_from inside (S k) s) | _ => finvals (picked_from inside (S k) s) end else finvals (picked_from inside (S k) s))) as ->.
    { destruct (inside k t); [destruct v; reflexivity | reflexivity]. }
    pose proof (HP k t) as Hk. split.
    + intros H. inversion H as [| i t' q l qs' HT HN | i t' v' l qs' HT HN]; subst.
      * rewrite (proj2 Hk HT). f_equal. apply IH, HN.
      * apply IH in HN. destruct (inside k t); [| exact HN]. destruct HT as [HT | HT]; [exfalso; apply HT, Hk; reflexivity |]. destruct v; try exact HN. exfalso. exact (HT q eq_refl).
    + destruct (inside k t) eqn:I.
      * destruct v as [| | q |]; intros <-.
        1, 2, 4: apply at_skip; [right; discriminate | apply IH; reflexivity].
        apply at_take; [apply Hk; reflexivity | apply IH; reflexivity].
      * intros <-. apply at_skip; [left; intros HT; apply Hk in HT; discriminate | apply IH; reflexivity].
Qed.
Lemma window_picked : forall inside s, window_values inside s = picked_from inside 0 s.
Proof. reflexivity. Qed.

Lemma recent_iff : forall days i t j u, recent days i t j u = true <-> (j <= i)%nat /\ (- (days * day_length) < t - u < days * day_length)%Z.
Proof.
  intros days i t j u. unfold recent. rewrite andb_true_iff, Nat.leb_le, Z.ltb_lt. change ns_day with day_length. rewrite Z.abs_lt. reflexivity.
Qed.
Lemma window_last : forall days s i t v, nth_error s i = Some (t, v) -> last_days days s i (finvals (window_values (recent days i t) s)).
Proof.
  intros days s i t v H. exists t, v. split; [exact H |]. apply (picked_numbers (recent days i t)); [apply recent_iff | reflexivity].
Qed.
Lemma last_unique_window : forall days s i t v qs, nth_error s i = Some (t, v) -> last_days days s i qs -> qs = finvals (window_values (recent days i t) s).
Proof.
  intros days s i t v qs H (t' & v' & H' & N). rewrite H in H'. injection H' as <- <-. symmetry. apply (picked_numbers (recent days i t)) in N; [exact N | apply recent_iff].
Qed.

Lemma median_shown_spec : forall w, noinf w -> median_shown (finvals w) (fmedian w).
Proof.
  intros w N. destruct (finvals w) as [| q qs] eqn:E.
  - left. split; [reflexivity |]. apply fmedian_empty. rewrite dropna_noinf by exact N. rewrite E. reflexivity.
  - right. rewrite fmedian_noinf by (try exact N; rewrite E; discriminate). rewrite E. eexists. split; [reflexivity |]. apply qmedian_spec. discriminate.
Qed.

Lemma enough_iff : forall days w, noinf w -> (Z.to_nat (days / 2) <=? fcount w)%nat = true <-> enough days (finvals w).
Proof.
  intros days w N. rewrite Nat.leb_le, (fcount_noinf _ N). unfold enough. pose proof (Z.div_mod days 2 ltac:(lia)). pose proof (Z.mod_pos_bound days 2 ltac:(lia)). lia.
Qed.

Lemma rolling_length : forall inside mp s, length (rolling_median inside mp s) = length s.
Proof. intros. unfold rolling_median. rewrite map_length, combine_length, seq_length. lia. Qed.
Lemma combine_seq_nth : forall {A} (l : list A) k i x, nth_error l i = Some x -> nth_error (combine (seq k (length l)) l) i = Some ((k + i)%nat, x).
Proof.
  intros A. induction l as [| a l IH]; intros k [| i] x H; try discriminate; cbn in *; [rewrite Nat.add_0_r; congruence |]. rewrite (IH (S k) i x H). f_equal. f_equal. lia.
Qed.
Lemma rolling_nth : forall inside mp s i t v, nth_error s i = Some (t, v) ->
  nth_error (rolling_median inside mp s) i = Some (t, let w := window_values (inside i t) s in if (mp <=? fcount w)%nat then fmedian w else NaN).
Proof.
  intros inside mp s i t v H. unfold rolling_median. rewrite nth_error_map, (combine_seq_nth s 0 i _ H). reflexivity.
Qed.

Section Figure.
Variables lower upper : nat -> nat -> list (list nat).
Definition trend_plot := degradation_timeseries_plot lower upper.

Lemma percentile_ok : forall draw p w, 0 <= p -> p <= qz 100 -> exists v, bootstrap_percentile draw p w = Ok v.
Proof.
  intros draw p w H0 H1. unfold bootstrap_percentile, np_percentile. apply qle_spec in H0, H1. rewrite H0, H1. eexists. reflexivity.
Qed.
Lemma mapM_ok : forall {A B} (f : A -> result B) l, (forall a, In a l -> exists b, f a = Ok b) -> exists r, mapM f l = Ok r /\ Forall2 (fun a b => f a = Ok b) l r.
Proof.
  intros A B f. induction l as [| a l IH]; intros H; [exists []; split; [reflexivity | constructor] |].
  destruct (H a (or_introl eq_refl)) as [b Hb]. destruct IH as (r & Hr & F); [intros x Hx; apply H; right; exact Hx |]. exists (b :: r). cbn. rewrite Hb. cbn. rewrite Hr. split; [reflexivity | constructor; assumption].
Qed.
Lemma rolling_percentile_ok : forall draw p days s, 0 <= p -> p <= qz 100 -> exists r, rolling_percentile draw p days s = Ok r /\ length r = length s /\
  forall i t v, nth_error s i = Some (t, v) -> exists x, nth_error r i = Some x /\
    let w := window_values (recent days i t) s in (if (Z.to_nat (days / 2) <=? fcount w)%nat then bootstrap_percentile (draw i) p w else Ok NaN) = Ok x.
Proof.
  intros draw p days s H0 H1. unfold rolling_percentile. edestruct (@mapM_ok (nat * (Z * fl)) fl) as (r & Hr & F); [| exists r; split; [exact Hr |]].
  - intros [i [t v]] _. cbn [fst snd]. cbv zeta. destruct (_ <=? _)%nat; [apply percentile_ok; assumption | eexists; reflexivity].
  - pose proof (pair_length F) as L. rewrite combine_length, seq_length, Nat.min_id in L. split; [symmetry; exact L |].
    intros i t v Hi. assert (i < length r)%nat as Li by (rewrite <- L; apply nth_error_Some; congruence). destruct (nth_error r i) as [x |] eqn:Ex; [| apply nth_error_None in Ex; lia].
    exists x. split; [reflexivity |]. apply (Forall2_nth_error _ _ _ F i (i, (t, v)) x); [apply (combine_seq_nth s 0 i), Hi | exact Ex].
Qed.

Lemma bounds25 : 0 <= qf 25 10 /\ qf 25 10 <= qz 100 /\ 0 <= qf 975 10 /\ qf 975 10 <= qz 100 /\ qf 25 10 <= qf 975 10.
Proof. repeat split; apply qle_spec; reflexivity. Qed.

(** When there is a figure, and the curve. *)
Lemma trend_drawn : forall info days ci,
  (forall e, trend_plot info days ci = Raise e <->
     (e = KeyError /\ p_values info = None) \/ (e = ValueError /\ exists values, p_values info = Some values /\ ~ ordered (times values))) /\
  (forall f, trend_plot info days ci = Ok f -> exists values, p_values info = Some values /\ ordered (times values) /\
     map fst (t_curve f) = times values /\ (forall i t v, nth_error (t_curve f) i = Some (t, v) -> curve_shows days values i v) /\
     t_level f = fmedian (vals values) /\ (forall qs, numbers (vals values) qs -> median_shown qs (t_level f)) /\ (t_band f = None <-> ci = false)).
Proof.
  intros info days ci. unfold trend_plot, degradation_timeseries_plot. destruct (p_values info) as [values |].
  2: { split; [intros e; split; [intros H; left; split; congruence | intros [[-> _] | [_ (v & E & _)]]; [reflexivity | discriminate]] | discriminate]. }
  pose proof (ordered_iff (times values)) as O. destruct (in_order Z.leb (times values) || in_order Z.geb (times values)); cbn [negb].
  2: { split; [| discriminate]. intros e. split.
       - intros H. right. split; [congruence |]. exists values. split; [reflexivity |]. intros Q. apply O in Q. discriminate.
       - intros [[_ C] | [-> _]]; [discriminate | reflexivity]. }
  destruct bounds25 as (A0 & A1 & B0 & B1 & _).
  destruct (rolling_percentile_ok lower (qf 25 10) days values A0 A1) as (rl & -> & _). destruct (rolling_percentile_ok upper (qf 975 10) days values B0 B1) as (ru & -> & _).
  split.
  - intros e. split; [destruct ci; discriminate |]. intros [[_ C] | [_ (v & E & N)]]; [discriminate |]. injection E as <-. exfalso. apply N, O. reflexivity.
  - intros f H. exists values. split; [reflexivity |]. split; [apply O; reflexivity |].
    assert (t_curve f = rolling_median (recent days) (Z.to_nat (days / 2)) values /\ t_level f = fmedian (vals values) /\ (t_band f = None <-> ci = false)) as (-> & -> & Hb).
    { destruct ci; cbn [bind] in H; injection H as <-; cbn [t_curve t_level t_band]; (split; [reflexivity | split; [reflexivity |]]); split; congruence. }
    split; [unfold rolling_median, times; rewrite map_map; cbn [fst]; clear; generalize 0%nat; induction values as [| r s IH]; intros k; [reflexivity |]; cbn; f_equal; apply IH |].
    split; [| split; [reflexivity | split; [intros qs K; apply numbers_noinf in K; destruct K as [K <-]; apply median_shown_spec, K | exact Hb]]]. intros i t v Hi.
    assert (i < length values)%nat as L by (rewrite <- (rolling_length (recent days) (Z.to_nat (days / 2)) values); apply nth_error_Some; congruence).
    destruct (nth_error values i) as [[t' v'] |] eqn:E; [| apply nth_error_None in E; lia].
    rewrite (rolling_nth _ _ _ _ _ _ E) in Hi. injection Hi as <- <-. set (w := window_values (recent days i t') values).
    assert (noinf w) as N by apply window_noinf. exists (finvals w). split; [apply (window_last days values i t' v' E) |].
    pose proof (enough_iff days w N) as Q. destruct (Z.to_nat (days / 2) <=? fcount w)%nat.
    + left. split; [apply Q; reflexivity |]. apply median_shown_spec, N.
    + right. split; [intros C; apply Q in C; discriminate | reflexivity].
Qed.

(** The band, for values without missing ones. *)
Lemma resampled_spec : forall p qs ds, 0 <= p -> p <= qz 100 -> drawn (length qs) ds ->
  exists x, np_percentile p (map (fun d => fmedian (map (fun i => nth i (map Fin qs) NaN) d)) ds) = Ok (Fin x) /\ resampled p qs ds (Fin x) /\
    (forall a b, (forall q, In q qs -> a <= q /\ q <= b) -> a <= x /\ x <= b).
Proof.
  intros p qs ds P0 P1 [Dne Hd].
  set (ms := map (fun d => qmedian (map (fun i => nth i qs 0) d)) ds).
  assert (map (fun d => fmedian (map (fun i => nth i (map Fin qs) NaN) d)) ds = map Fin ms) as ->.
  { unfold ms. rewrite map_map. apply map_ext_in. intros d Hin. destruct (Hd d Hin) as [Ne Db].
    assert (map (fun i => nth i (map Fin qs) NaN) d = map Fin (map (fun i => nth i qs 0) d)) as ->.
    { rewrite map_map. apply map_ext_in. intros i Hi. apply nth_fin, Db, Hi. }
    rewrite fmedian_noinf; [| apply noinf_map_Fin | rewrite finvals_map_Fin; destruct d; [congruence | discriminate]]. rewrite finvals_map_Fin. reflexivity. }
  assert (ms <> []) as Hms by (unfold ms; destruct ds; [congruence | discriminate]).
  rewrite (np_percentile_fin p ms Hms P0 P1). eexists. split; [reflexivity |]. split.
  - exists ms, (qquantile (p / qz 100) ms). split; [| split; [reflexivity | apply qpercentile_spec; assumption]].
    unfold ms. clear - Hd. induction ds as [| d l IH]; cbn [map]; constructor.
    + apply qmedian_spec. destruct (Hd d (or_introl eq_refl)) as [K _]. destruct d; [congruence | discriminate].
    + apply IH. intros d' Hd'. apply Hd. right. exact Hd'.
  - intros a b Hab. apply qquantile_bounds; [exact Hms | apply Qc_le_div; qlra | apply Qc_div_le; qlra |].
    intros m Hm. unfold ms in Hm. apply in_map_iff in Hm. destruct Hm as (d & <- & Hin). destruct (Hd d Hin) as [Ne Db]. apply qmedian_bounds; [destruct d; [congruence | discriminate] |].
    intros x Hx. apply in_map_iff in Hx. destruct Hx as (i & <- & Hi). apply Hab, nth_In, Db, Hi.
Qed.

Lemma finite_window : forall inside s qs, vals s = map Fin qs -> window_values inside s = map Fin (finvals (window_values inside s)).
Proof.
  intros inside s qs H. rewrite window_picked. generalize 0%nat. revert qs H. induction s as [| [t v] s IH]; intros qs H k; [reflexivity |].
  destruct qs as [| q qs]; [discriminate |]. cbn in H. injection H as -> H. unfold picked_from in *. cbn [length seq combine filter fst snd].
  destruct (inside k t); cbn [map fst snd noninf finvals]; [f_equal |]; apply (IH qs H).
Qed.

Lemma combine_nth_error : forall {A B} (a : list A) (b : list B) i x, nth_error (combine a b) i = Some x -> nth_error a i = Some (fst x) /\ nth_error b i = Some (snd x).
Proof.
  intros A B. induction a as [| y a IH]; intros [| z b] [| i] x H; cbn in *; try discriminate; [injection H as <-; split; reflexivity | apply IH, H].
Qed.

Lemma band_spec : forall info days values qs f, p_values info = Some values -> vals values = map Fin qs -> trend_plot info days true = Ok f ->
  exists band, t_band f = Some band /\ map fst band = times values /\
    forall i t lo hi, nth_error band i = Some (t, (lo, hi)) -> exists ws, last_days days values i ws /\
      (~ enough days ws -> lo = NaN /\ hi = NaN) /\
      (enough days ws -> drawn (length ws) (lower i (length ws)) -> resampled (qf 25 10) ws (lower i (length ws)) lo /\ within_limits ws lo) /\
      (enough days ws -> drawn (length ws) (upper i (length ws)) -> resampled (qf 975 10) ws (upper i (length ws)) hi /\ within_limits ws hi).
Proof.
  intros info days values qs f HV HQ. unfold trend_plot, degradation_timeseries_plot. rewrite HV.
  destruct (negb (in_order Z.leb (times values) || in_order Z.geb (times values))); [discriminate |].
  destruct bounds25 as (A0 & A1 & B0 & B1 & _).
  destruct (rolling_percentile_ok lower (qf 25 10) days values A0 A1) as (rl & -> & Ll & Hl). destruct (rolling_percentile_ok upper (qf 975 10) days values B0 B1) as (ru & -> & Lu & Hu).
  cbn [bind]. intros H. injection H as <-. cbn [t_band]. eexists. split; [reflexivity |]. split.
  - apply map_fst_combine. rewrite combine_length, Ll, Lu, Nat.min_id. unfold times. rewrite map_length. reflexivity.
  - intros i t lo hi H. apply combine_nth_error in H. cbn [fst snd] in H. destruct H as [Ht H]. apply combine_nth_error in H. cbn [fst snd] in H. destruct H as [El Eu].
    unfold times in Ht. rewrite nth_error_map in Ht. destruct (nth_error values i) as [[t' v] |] eqn:E; [| discriminate]. cbn in Ht. injection Ht as ->.
    destruct (Hl i t v E) as (x & Ex & Hx). rewrite El in Ex. injection Ex as <-. destruct (Hu i t v E) as (y & Ey & Hy). rewrite Eu in Ey. injection Ey as <-. clear Hl Hu.
    pose proof (finite_window (recent days i t) values qs HQ) as FW. pose proof (window_last days values i t v E) as WL. cbv zeta in Hx, Hy. set (w := window_values (recent days i t) values) in *.
    assert (noinf w) as N by apply window_noinf. pose proof (enough_iff days w N) as Q. exists (finvals w). split; [exact WL |].
    assert (length w = length (finvals w)) as LW by (rewrite FW at 1; apply map_length).
    assert (forall draw p, bootstrap_percentile draw p w = np_percentile p (map (fun d => fmedian (map (fun i => nth i (map Fin (finvals w)) NaN) d)) (draw (length (finvals w))))) as EB.
    { intros draw p. unfold bootstrap_percentile. rewrite LW, <- FW. reflexivity. }
    rewrite EB in Hx, Hy.
    destruct (Z.to_nat (days / 2) <=? fcount w)%nat.
    + assert (enough days (finvals w)) as En by (apply Q; reflexivity). split; [intros C; contradiction |]. split; intros _ D.
      * destruct (resampled_spec (qf 25 10) (finvals w) _ A0 A1 D) as (z & Ez & Rz & Bz). rewrite Ez in Hx. injection Hx as <-. split; [exact Rz | exists z; split; [reflexivity | exact Bz]].
      * destruct (resampled_spec (qf 975 10) (finvals w) _ B0 B1 D) as (z & Ez & Rz & Bz). rewrite Ez in Hy. injection Hy as <-. split; [exact Rz | exists z; split; [reflexivity | exact Bz]].
    + split; [intros _; split; congruence |]. assert (~ enough days (finvals w)) as En by (intros C; apply Q in C; discriminate). split; intros C; contradiction.
Qed.
End Figure.

(** With the same draws for both limits the lower one is not above the upper one. *)
Lemma same_draws : forall draw info days values qs f band i t lo hi ws, p_values info = Some values -> vals values = map Fin qs ->
  degradation_timeseries_plot draw draw info days true = Ok f -> t_band f = Some band -> nth_error band i = Some (t, (lo, hi)) ->
  last_days days values i ws -> enough days ws -> drawn (length ws) (draw i (length ws)) -> exists x y, lo = Fin x /\ hi = Fin y /\ x <= y.
Proof.
  intros draw info days values qs f band i t lo hi ws HV HQ H HB HI HW En D.
  destruct (band_spec draw draw info days values qs f HV HQ H) as (band' & HB' & _ & K). rewrite HB in HB'. injection HB' as <-.
  destruct (K i t lo hi HI) as (ws' & HW' & _ & K1 & K2).
  assert (ws' = ws) as ->. { destruct HW' as (t1 & v1 & E1 & N1). rewrite (last_unique_window days values i t1 v1 ws E1 HW). apply (last_unique_window days values i t1 v1 ws' E1). exists t1, v1. split; assumption. }
  destruct (K1 En D) as [(ms & x & F & -> & Px) _]. destruct (K2 En D) as [(ms' & y & F' & -> & Py) _]. exists x, y. split; [reflexivity | split; [reflexivity |]].
  assert (ms' = ms) as ->.
  { destruct D as [_ D]. clear - F F' D. revert ms' F'. induction F as [| d m ds ms Hm _ IH]; intros ms' F'; inversion F' as [| ? m' ? l' Hm' F'' ]; subst; [reflexivity |].
    assert (map (fun i => nth i ws 0) d <> []) as Ne by (destruct (D d (or_introl eq_refl)) as [Ne _]; destruct d; [congruence | discriminate]).
    f_equal; [rewrite (is_median_unique _ _ Ne Hm), (is_median_unique _ _ Ne Hm'); reflexivity | apply IH; [intros d' Hd'; apply D; right; exact Hd' | exact F'']]. }
  assert (ms <> []) as Hms by (destruct D as [Dn _]; inversion F; subst; [congruence | discriminate]).
  destruct bounds25 as (A0 & A1 & B0 & B1 & AB).
  rewrite (is_percentile_unique _ _ _ Hms A0 A1 Px), (is_percentile_unique _ _ _ Hms B0 B1 Py).
  apply qquantile_mono; [exact Hms | apply qle_spec; reflexivity | apply qle_spec; reflexivity | apply qle_spec; reflexivity].
Qed.

(** ** Sparse and daily values *)

Lemma spaced_count : forall (P : nat -> Z -> Prop) G lo hi s k qs m, (0 < G)%Z -> (lo < m)%Z ->
  numbers_at P k s qs -> StronglySorted (fun a b => (a + G <= b)%Z) (times s) ->
  (forall j u v, nth_error s j = Some (u, v) -> (m <= u)%Z \/ ~ P (k + j)%nat u) ->
  (forall j u v, nth_error s j = Some (u, v) -> P (k + j)%nat u -> (lo < u <= hi)%Z) ->
  (Z.of_nat (length qs) * G <= Z.max 0 (hi - m + G))%Z.
Proof.
  intros P G lo hi s k qs m HG Hm H. revert m Hm. induction H as [i | i t q l qs HP HN IH | i t v l qs HP HN IH]; intros m Hm HS HB HW; [cbn; lia | |].
  - cbn in HS. apply StronglySorted_inv in HS. destruct HS as [HS HF]. rewrite Forall_forall in HF.
    pose proof (HW 0%nat t (Fin q) eq_refl) as W0. rewrite Nat.add_0_r in W0. specialize (W0 HP). destruct (HB 0%nat t (Fin q) eq_refl) as [B0 | B0]; [| rewrite Nat.add_0_r in B0; contradiction].
    specialize (IH (t + G)%Z ltac:(lia) HS). cbn [length]. rewrite Nat2Z.inj_succ.
    assert (Z.of_nat (length qs) * G <= Z.max 0 (hi - (t + G) + G))%Z as B; [| lia]. apply IH.
    + intros j u v Hj. left. apply HF. unfold times. apply in_map_iff. exists (u, v). split; [reflexivity | apply (nth_error_In _ j), Hj].
    + intros j u v Hj HPj. apply (HW (S j) u v Hj). replace (i + S j)%nat with (S i + j)%nat by lia. exact HPj.
  - cbn in HS. apply StronglySorted_inv in HS. destruct HS as [HS _]. apply IH; [exact Hm | exact HS | |].
    + intros j u w Hj. replace (S i + j)%nat with (i + S j)%nat by lia. apply (HB (S j) u w Hj).
    + intros j u w Hj HPj. apply (HW (S j) u w Hj). replace (i + S j)%nat with (S i + j)%nat by lia. exact HPj.
Qed.

Lemma sorted_nth : forall (R : Z -> Z -> Prop) l i j a b, StronglySorted R l -> nth_error l i = Some a -> nth_error l j = Some b -> (i < j)%nat -> R a b.
Proof.
  intros R l i j a b S. revert i j. induction S as [| x l S IH F]; intros [| i] [| j] Hi Hj L; try (cbn in *; discriminate); try lia; cbn in *.
  - injection Hi as ->. rewrite Forall_forall in F. apply F, (nth_error_In _ j), Hj.
  - apply (IH i j Hi Hj). lia.
Qed.

Lemma times_nth : forall (s : series) i t v, nth_error s i = Some (t, v) -> nth_error (times s) i = Some t.
Proof. intros s i t v H. unfold times. rewrite nth_error_map, H. reflexivity. Qed.

Lemma sparse_missing : forall lower upper info days values ci f, p_values info = Some values -> (8 <= days)%Z -> apart 3 (times values) ->
  degradation_timeseries_plot lower upper info days ci = Ok f -> forall t v, In (t, v) (t_curve f) -> v = NaN.
Proof.
  intros lower upper info days values ci f HV HD HA H t v HI.
  destruct (proj2 (trend_drawn lower upper info days ci) f H) as (values' & HV' & _ & HT & HC & _). rewrite HV in HV'. injection HV' as <-.
  apply In_nth_error in HI. destruct HI as [i HI]. destruct (HC i t v HI) as (qs & (t' & v' & E & N) & [[En _] | [_ ->]]); [exfalso | reflexivity].
  assert (StronglySorted (fun a b => (a + 3 * day_length <= b)%Z) (times values)) as SS by (apply Sorted_StronglySorted; [intros a b c; unfold day_length; lia | exact HA]).
  assert (Z.of_nat (length qs) * (3 * day_length) <= Z.max 0 (t' - (t' - days * day_length + 1) + 3 * day_length))%Z as B.
  { apply (spaced_count _ (3 * day_length) (t' - days * day_length) t' values 0 qs (t' - days * day_length + 1) ltac:(reflexivity) ltac:(lia) N SS).
    - intros j u w Hj. destruct (Z_le_gt_dec (t' - days * day_length + 1) u) as [L | L]; [left; exact L | right; intros [_ P]; lia].
    - intros j u w Hj [J P]. cbn in J. split; [lia |]. destruct (Nat.eq_dec j i) as [-> | Ne]; [rewrite E in Hj; injection Hj as <- _; lia |].
      pose proof (sorted_nth _ _ j i u t' SS (times_nth _ _ _ _ Hj) (times_nth _ _ _ _ E) ltac:(lia)) as K. unfold day_length in *. cbv beta in K. lia. }
  unfold enough in En. unfold day_length in B. lia.
Qed.

Lemma count_least : forall (P : nat -> Z -> Prop) s k qs a b, numbers_at P k s qs -> (b <= k + length s)%nat ->
  (forall j u v, nth_error s j = Some (u, v) -> (a <= k + j < b)%nat -> P (k + j)%nat u /\ exists q, v = Fin q) -> (b - Nat.max a k <= length qs)%nat.
Proof.
  intros P s k qs a b H. induction H as [i | i t q l qs HP HN IH | i t v l qs HP HN IH]; intros HL HA; cbn [length] in *; [lia | |].
  - assert (b - Nat.max a (S i) <= length qs)%nat; [| lia]. apply IH; [lia |]. intros j u v Hj R. replace (S i + j)%nat with (i + S j)%nat in * by lia. apply (HA (S j) u v Hj R).
  - assert (b - Nat.max a (S i) <= length qs)%nat as K. { apply IH; [lia |]. intros j u w Hj R. replace (S i + j)%nat with (i + S j)%nat in * by lia. apply (HA (S j) u w Hj R). }
    destruct (le_lt_dec b i) as [L | L]; [lia |]. destruct (le_lt_dec a i) as [L' | L']; [exfalso | lia].
    destruct (HA 0%nat t v eq_refl ltac:(lia)) as [P0 [q ->]]. rewrite Nat.add_0_r in P0. destruct HP as [HP | HP]; [contradiction | exact (HP q eq_refl)].
Qed.
Lemma count_most : forall (P : nat -> Z -> Prop) s k qs b, numbers_at P k s qs -> (forall j u, P j u -> (j < b)%nat) -> (length qs <= b - k)%nat.
Proof.
  intros P s k qs b H HB. induction H as [i | i t q l qs HP HN IH | i t v l qs HP HN IH]; cbn [length]; [lia | | lia]. apply HB in HP. lia.
Qed.

Lemma daily_shown : forall lower upper info days values qs start ci f, p_values info = Some values -> (1 <= days)%Z ->
  vals values = map Fin qs -> (forall i t, nth_error (times values) i = Some t -> t = (start + Z.of_nat i * day_length)%Z) ->
  degradation_timeseries_plot lower upper info days ci = Ok f -> forall i t v, nth_error (t_curve f) i = Some (t, v) ->
  (v = NaN <-> (Z.of_nat i + 1 < days / 2)%Z).
Proof.
  intros lower upper info days values qs start ci f HV HD HQ HT H i t v HI.
  destruct (proj2 (trend_drawn lower upper info days ci) f H) as (values' & HV' & _ & _ & HC & _). rewrite HV in HV'. injection HV' as <-.
  destruct (HC i t v HI) as (ws & (t' & v' & E & N) & K).
  assert (length ws <= i + 1)%nat as Up. { rewrite <- (Nat.sub_0_r (i + 1)). apply (count_most _ _ _ _ (i + 1)%nat N). intros j u [J _]. lia. }
  assert (i < length values)%nat as Li by (apply nth_error_Some; congruence).
  assert ((i + 1) - Nat.max (i + 1 - Z.to_nat days) 0 <= length ws)%nat as Lo.
  { apply (count_least _ _ _ _ _ _ N); [lia |]. intros j u w Hj R. cbn [Nat.add] in *. split.
    - rewrite (HT j u (times_nth _ _ _ _ Hj)), (HT i t' (times_nth _ _ _ _ E)). unfold day_length. lia.
    - assert (nth_error (vals values) j = Some w) as Hw by (unfold vals; rewrite nth_error_map, Hj; reflexivity). rewrite HQ, nth_error_map in Hw. destruct (nth_error qs j) as [q |]; [| discriminate]. exists q. cbn in Hw. congruence. }
  pose proof (Z.div_mod days 2 ltac:(lia)). pose proof (Z.mod_pos_bound days 2 ltac:(lia)). unfold enough in K. destruct K as [[En [[Ee Ev] | (m & Ev & _)]] | [En Ev]].
  - exfalso. subst ws. cbn in Lo. lia.
  - subst v. split; [discriminate |]. lia.
  - split; [| intros _; exact Ev]. intros _. lia.
Qed.

(** ** After an analysis *)
Section Run.
Context (infer : list Z -> option (Z -> Z)) (sortv : series -> series) (choice : nat -> list (list nat)) (starts : list (list nat)).

Lemma run_trend : forall lower upper rc ep cl y o info days ci, NoDup (times y) ->
  degradation_year_on_year infer sortv choice starts rc ep cl Simple y = Ok o -> info_of Simple o = Some info ->
  exists f, degradation_timeseries_plot lower upper info days ci = Ok f /\ map fst (t_curve f) = times (yo_values o) /\ t_level f = yo_rate o.
Proof.
  intros lower upper rc ep cl y o info days ci HN H HI. pose proof (yoy_values_once _ _ _ _ _ _ _ _ _ _ HN H) as HS.
  destruct (full_core _ _ _ _ _ _ _ _ _ _ H) as (o' & rows & HC & SM). destruct (core_Ok _ _ _ _ _ _ _ HC) as (_ & _ & _ & _ & _ & _ & _ & ER & _).
  injection HI as <-. destruct (degradation_timeseries_plot lower upper _ days ci) as [f | e] eqn:E.
  - exists f. split; [reflexivity |]. destruct (proj2 (trend_drawn _ _ _ _ _) f E) as (values & HV & _ & HT & _ & HL & _). injection HV as <-. split; [exact HT |].
    rewrite HL. destruct SM as (E1 & E2 & _). rewrite E1, E2, ER. reflexivity.
  - exfalso. apply trend_drawn in E. destruct E as [[_ C] | [_ (values & HV & C)]]; [discriminate |]. injection HV as <-. apply C. left. apply StronglySorted_Sorted in HS.
    clear - HS. induction HS as [| a l S IH F]; constructor; [exact IH |]. destruct F; constructor. lia.
Qed.
Lemma run_trend_blocks : forall lower upper L o info days ci, info_of (CircularBlock L) o = Some info -> degradation_timeseries_plot lower upper info days ci = Raise KeyError.
Proof. intros lower upper L o info days ci H. injection H as <-. reflexivity. Qed.
End Run.
