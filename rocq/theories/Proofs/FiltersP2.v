(** Window filters. *)

From Coq Require Import QArith Qcanon List ZArith Bool Arith Lia Permutation Sorted.
From Verif.Base Require Import QcExtra ISort Quantile Fl TimeSeries Rolling.
From Verif.Spec Require Import Stats Interp Filters.
From Verif.Model Require Import Utilities Filters.
From Verif.Proofs Require Import StatsP FlP FiltersP.
Import ListNotations.
Open Scope Qc_scope.

(** ** Windows *)

Lemma selected_window_from : forall (f : nat -> Z -> bool) (P : nat -> Z -> Prop) s k,
  (forall j u, f j u = true <-> P j u) ->
  selected P k s (finvals (map (fun r => noninf (snd (snd r)))
      (filter (fun r => f (fst r) (fst (snd r))) (combine (seq k (length s)) s)))).
Proof.
  intros f P s. induction s as [| [t v] s IH]; intros k H; [constructor |]. cbn [length seq combine filter fst snd].
  destruct (f k t) eqn:E.
  - cbn [map fst snd]. destruct v as [| | q |]; cbn [noninf finvals].
    + apply sel_skip; [right; discriminate | apply IH, H].
    + apply sel_skip; [right; discriminate | apply IH, H].
    + apply sel_take; [apply H, E | apply IH, H].
    + apply sel_skip; [right; discriminate | apply IH, H].
  - apply sel_skip; [left; intros K; apply H in K; congruence | apply IH, H].
Qed.

Lemma selected_window : forall (f : nat -> Z -> bool) (P : nat -> Z -> Prop) s,
  (forall j u, f j u = true <-> P j u) -> selected P 0 s (finvals (window_values f s)).
Proof. intros. apply selected_window_from. assumption. Qed.

Lemma selected_unique : forall P k s l l', selected P k s l -> selected P k s l' -> l = l'.
Proof.
  intros P k s l l' H. revert l'. induction H as [k | k t q s l Hp H IH | k t v s l Hn H IH]; intros l' K.
  - inversion K. reflexivity.
  - inversion K as [| ? ? ? ? ? Hp' K' | ? ? ? ? ? Hn' K']; subst.
    + f_equal. apply IH. assumption.
    + destruct Hn' as [Hn' | Hn']; [contradiction | exfalso; eapply Hn'; reflexivity].
  - inversion K; subst.
    + destruct Hn as [Hn | Hn]; [contradiction | exfalso; eapply Hn; reflexivity].
    + apply IH. assumption.
Qed.

Lemma ext_nth : forall A (a b : list A), (forall i, nth_error a i = nth_error b i) -> a = b.
Proof.
  induction a as [| x a IH]; intros [| y b] H; [reflexivity | discriminate (H 0%nat) | discriminate (H 0%nat) |].
  f_equal; [generalize (H 0%nat); cbn; congruence |]. apply IH. intros i. exact (H (S i)).
Qed.

Section Window.
  Variable inside : nat -> Z -> nat -> Z -> bool.
  Variable W : within.
  Hypothesis HW : forall i t j u, inside i t j u = true <-> W i t j u.

  Lemma window_median_iff : forall least s i t v m, (1 <= least)%nat -> nth_error s i = Some (t, v) ->
    (window_median W least s i m <-> nth_error (rolling_median inside least s) i = Some (t, Fin m)).
  Proof.
    intros least s i t v m Hl Hs. rewrite rolling_median_nth, Hs. cbv zeta.
    pose proof (selected_window (inside i t) (W i t) s (HW i t)) as SEL.
    pose proof (window_noinf (inside i t) s) as NI.
    set (w := window_values (inside i t) s) in *. rewrite (fcount_noinf w NI). split.
    - intros (t' & v' & l & Hs' & Sl & Hlen & Hm). rewrite Hs in Hs'. injection Hs' as <- <-.
      rewrite (selected_unique _ _ _ _ _ SEL Sl).
      assert (least <=? length l = true)%nat as -> by (apply Nat.leb_le; exact Hlen).
      assert (finvals w <> []) as Hne. { rewrite (selected_unique _ _ _ _ _ SEL Sl). destruct l; [cbn in Hlen; lia | discriminate]. }
      rewrite (fmedian_noinf w NI Hne), (selected_unique _ _ _ _ _ SEL Sl). f_equal. f_equal. f_equal.
      symmetry. apply is_median_unique; [| exact Hm]. destruct l; [cbn in Hlen; lia | discriminate].
    - intros E. destruct (least <=? length (finvals w))%nat eqn:C; [| discriminate]. apply Nat.leb_le in C.
      assert (finvals w <> []) as Hne by (destruct (finvals w); [cbn in C; lia | discriminate]).
      rewrite (fmedian_noinf w NI Hne) in E. assert (qmedian (finvals w) = m) as <- by congruence.
      exists t, v, (finvals w). split; [exact Hs |]. split; [exact SEL |]. split; [exact C |]. apply qmedian_spec, Hne.
  Qed.

  Lemma rolling_fin_or_nan : forall least s i t x, nth_error (rolling_median inside least s) i = Some (t, x) ->
    x = NaN \/ exists m, x = Fin m.
  Proof.
    intros least s i t x H. rewrite rolling_median_nth in H. destruct (nth_error s i) as [[u v] |]; [| discriminate]. cbv zeta in H.
    injection H as -> <-. destruct (_ <=? _)%nat; [| auto].
    pose proof (window_noinf (inside i t) s) as NI. set (w := window_values _ s) in *.
    assert (finvals w = [] \/ finvals w <> []) as [E | E] by (destruct (finvals w); [left; reflexivity | right; discriminate]).
    - left. apply fmedian_empty. rewrite dropna_noinf, E by exact NI. reflexivity.
    - right. rewrite fmedian_noinf by assumption. eauto.
  Qed.

  Lemma rolling_row : forall least s i t v, (1 <= least)%nat -> nth_error s i = Some (t, v) ->
    exists x, nth_error (rolling_median inside least s) i = Some (t, x) /\
      ((exists m, x = Fin m /\ window_median W least s i m) \/ (x = NaN /\ forall m, ~ window_median W least s i m)).
  Proof.
    intros least s i t v Hl Hs.
    assert (exists x, nth_error (rolling_median inside least s) i = Some (t, x)) as [x E].
    { rewrite rolling_median_nth, Hs. eauto. }
    exists x. split; [exact E |]. destruct (rolling_fin_or_nan _ _ _ _ _ E) as [-> | [m ->]].
    - right. split; [reflexivity |]. intros m K. apply (window_median_iff least s i t v m Hl Hs) in K. congruence.
    - left. exists m. split; [reflexivity |]. apply (window_median_iff least s i t v m Hl Hs). exact E.
  Qed.

  Lemma window_median_unique : forall least s i m m', (1 <= least)%nat -> window_median W least s i m -> window_median W least s i m' -> m = m'.
  Proof.
    intros least s i m m' Hl H K. pose proof H as (t & v & l & Hs & _).
    apply (window_median_iff least s i t v m Hl Hs) in H. apply (window_median_iff least s i t v m' Hl Hs) in K. congruence.
  Qed.

  Lemma distance_unique : forall least s i d d', (1 <= least)%nat -> distance W least s i d -> distance W least s i d' -> d = d'.
  Proof.
    intros least s i d d' Hl (t & q & m & Hs & Hm & ->) (t' & q' & m' & Hs' & Hm' & ->).
    rewrite (window_median_unique least s i m m' Hl Hm Hm'). congruence.
  Qed.

  (** Difference from the rolling median. *)
  Lemma dif_row : forall least s i t v, (1 <= least)%nat -> noinf (vals s) -> nth_error s i = Some (t, v) ->
    exists x, nth_error (zip_with fsub s (rolling_median inside least s)) i = Some (t, x) /\
      ((exists d, x = Fin d /\ distance W least s i d) \/ (x = NaN /\ forall d, ~ distance W least s i d)).
  Proof.
    intros least s i t v Hl HI Hs. destruct (rolling_row least s i t v Hl Hs) as (y & E & H).
    rewrite zip_with_nth, Hs, E. cbn [fst snd]. eexists. split; [reflexivity |].
    assert (In v (vals s)) as Hv by (apply in_map_iff; exists (t, v); split; [reflexivity | eapply nth_error_In; exact Hs]).
    destruct (HI v Hv) as [I1 I2]. destruct H as [(m & -> & Hm) | [-> Hm]].
    - destruct v as [| | q |]; try congruence.
      + right. split; [reflexivity |]. intros d (t' & q & m' & Hs' & _). congruence.
      + left. exists (q - m). split; [reflexivity |]. exists t, q, m. auto.
    - right. split; [destruct v; reflexivity |]. intros d (t' & q & m' & Hs' & Hm' & _). exact (Hm m' Hm').
  Qed.

  Lemma dif_length : forall f least s, length (zip_with f s (rolling_median inside least s)) = length s.
  Proof. intros. unfold zip_with. rewrite map_length, combine_length, rolling_median_length. lia. Qed.

  Lemma distances_from : forall least s (D : series) k l2, (1 <= least)%nat -> length D = length s ->
    (forall i t v, nth_error s i = Some (t, v) -> exists x, nth_error D i = Some (t, x) /\
      ((exists d, x = Fin d /\ distance W least s i d) \/ (x = NaN /\ forall d, ~ distance W least s i d))) ->
    (k <= length s)%nat -> l2 = skipn k D -> distances W least s k (finvals (vals l2)).
  Proof.
    intros least s D k l2 Hl HL HD Hk ->. remember (length s - k)%nat as n eqn:En. revert k Hk En.
    induction n as [| n IH]; intros k Hk En.
    - rewrite skipn_all2 by lia. apply ds_end. apply nth_error_None. lia.
    - destruct (nth_error s k) as [[t v] |] eqn:Es; [| apply nth_error_None in Es; lia].
      destruct (HD k t v Es) as (x & Ex & Hx).
      assert (skipn k D = (t, x) :: skipn (S k) D) as ->.
      { clear - Ex. revert k Ex. induction D as [| r D IHD]; intros k Ex; [destruct k; discriminate |].
        destruct k as [| k]; [injection Ex as ->; reflexivity |]. cbn [skipn]. rewrite IHD by exact Ex. reflexivity. }
      cbn [vals map snd]. fold (vals (skipn (S k) D)). destruct Hx as [(d & -> & Hd) | [-> Hd]]; cbn [finvals].
      + apply ds_take; [exact Hd | apply IH; lia].
      + apply ds_skip; [congruence | exact Hd | apply IH; lia].
  Qed.

  Lemma distances_dif : forall least s, (1 <= least)%nat -> noinf (vals s) ->
    distances W least s 0 (finvals (vals (zip_with fsub s (rolling_median inside least s)))).
  Proof.
    intros least s Hl HI. eapply (distances_from least s _ 0); [exact Hl | apply dif_length | | lia | reflexivity].
    intros i t v Hs. apply (dif_row least s i t v Hl HI Hs).
  Qed.

  Lemma distances_unique : forall least s k l l', (1 <= least)%nat -> distances W least s k l -> distances W least s k l' -> l = l'.
  Proof.
    intros least s k l l' Hl H. revert l'. induction H as [k E | k d l Hd H IH | k l Hn Hd H IH]; intros l' K.
    - inversion K as [| ? ? ? D _ | ]; subst; [reflexivity | |].
      + exfalso. destruct D as (t & q & m & Hs & _). congruence.
      + contradiction.
    - inversion K as [? E | ? d' l'' D' K' | ? ? Hn' Hd' K']; subst.
      + exfalso. destruct Hd as (t & q & m & Hs & _). congruence.
      + f_equal; [apply (distance_unique least s k); assumption | apply IH; assumption].
      + exfalso. exact (Hd' d Hd).
    - inversion K as [? E | ? d' l'' D' K' | ? ? Hn' Hd' K']; subst.
      + contradiction.
      + exfalso. exact (Hd d' D').
      + apply IH. assumption.
  Qed.

  Lemma dif_noinf : forall least s, (1 <= least)%nat -> noinf (vals s) -> noinf (vals (zip_with fsub s (rolling_median inside least s))).
  Proof.
    intros least s Hl HI x Hx. apply in_map_iff in Hx. destruct Hx as ([t y] & <- & Hy). cbn [snd].
    apply In_nth_error in Hy. destruct Hy as [i Hi].
    destruct (nth_error s i) as [[u v] |] eqn:Es.
    - destruct (dif_row least s i u v Hl HI Es) as (z & E & H). rewrite Hi in E. injection E as -> ->.
      destruct H as [(d & -> & _) | [-> _]]; split; discriminate.
    - exfalso. rewrite zip_with_nth, Es in Hi. discriminate.
  Qed.

  (** Affine maps. *)
  Lemma rolling_affine : forall a b least s,
    rolling_median inside least (map_values (fun q => a * q + b) s) =
    map_values (fun q => a * q + b) (rolling_median inside least s).
  Proof.
    intros a b least s. apply ext_nth. intros i. unfold map_values.
    rewrite rolling_median_nth, !nth_error_map, rolling_median_nth.
    destruct (nth_error s i) as [[t v] |]; [| reflexivity]. cbn [option_map fst snd]. cbv zeta. f_equal. f_equal.
    assert (window_values (inside i t) (map (fun r : Z * fl => (fst r, match snd r with Fin q => Fin (a * q + b) | e => e end)) s) =
            map (fun x => match x with Fin q => Fin (a * q + b) | e => e end) (window_values (inside i t) s)) as ->.
    { unfold window_values. rewrite map_length. generalize 0%nat. clear.
      induction s as [| [u v] s IH]; intros k; [reflexivity |]. cbn [length seq combine map filter fst snd].
      destruct (inside i t k u); [| apply IH]. cbn [map fst snd]. rewrite IH. destruct v; reflexivity. }
    pose proof (window_noinf (inside i t) s) as NI. set (w := window_values (inside i t) s) in *. clearbody w.
    assert (noinf (map (fun x => match x with Fin q => Fin (a * q + b) | e => e end) w)) as NI'.
    { intros x Hx. apply in_map_iff in Hx. destruct Hx as (y & <- & Hy). destruct (NI y Hy). destruct y; split; congruence. }
    assert (finvals (map (fun x => match x with Fin q => Fin (a * q + b) | e => e end) w) = map (fun q => a * q + b) (finvals w)) as EF.
    { clear. induction w as [| [] w IH]; cbn; congruence. }
    rewrite !fcount_noinf by assumption. rewrite EF, map_length.
    destruct (least <=? length (finvals w))%nat; [| reflexivity].
    assert (finvals w = [] \/ finvals w <> []) as [E | E] by (destruct (finvals w); [left; reflexivity | right; discriminate]).
    - rewrite !fmedian_empty; [reflexivity | rewrite dropna_noinf, E by exact NI; reflexivity | rewrite dropna_noinf, EF, E by exact NI'; reflexivity].
    - rewrite (fmedian_noinf _ NI), (fmedian_noinf _ NI') by (try rewrite EF; try exact E; intros K; apply map_eq_nil in K; contradiction).
      rewrite EF, qmedian_affine_any by exact E. reflexivity.
  Qed.
End Window.

Lemma in_back_iff : forall sp i t j u, in_back sp i t j u = true <-> last_span sp i t j u.
Proof.
  intros [w | n] i t j u; cbn; unfold last_time_span, last_rows; rewrite andb_true_iff, ?Z.leb_le, ?Nat.leb_le; lia.
Qed.
Lemma in_fwd_iff : forall sp i t j u, in_fwd sp i t j u = true <-> next_span sp i t j u.
Proof.
  intros [w | n] i t j u; cbn; unfold next_time_span, next_rows; rewrite andb_true_iff, ?Z.leb_le, ?Nat.leb_le; lia.
Qed.
Lemma in_center_iff : forall sp i t j u, in_center sp i t j u = true <-> around_span sp i t j u.
Proof.
  intros [w | n] i t j u; cbn [in_center around_span]; unfold around_time_span, around_rows; rewrite andb_true_iff, ?Z.ltb_lt, ?Z.leb_le, ?Nat.ltb_lt, ?Nat.leb_le; lia.
Qed.

(** ** Directional Tukey filter *)

Lemma side_iff : forall inside W (HW : forall i t j u, inside i t j u = true <-> W i t j u) s k i t v x,
  noinf (vals s) -> nth_error s i = Some (t, v) ->
  nth_error (zip_with fsub s (rolling_median inside 5 s)) i = Some (t, x) ->
  let f := tukey_fence k (zip_with fsub s (rolling_median inside 5 s)) in
  (between (fst f) (snd f) x = true <-> inside_fences W s k i).
Proof.
  intros inside W HW s k i t v x HI Hs Hx f.
  set (D := zip_with fsub s (rolling_median inside 5 s)) in *.
  pose proof (distances_dif inside W HW 5 s ltac:(lia) HI) as HD. fold D in HD.
  pose proof (dif_noinf inside W HW 5 s ltac:(lia) HI) as ND. fold D in ND.
  destruct (dif_row inside W HW 5 s i t v ltac:(lia) HI Hs) as (y & Ey & Hy). fold D in Ey. rewrite Hx in Ey. injection Ey as <-.
  assert (finvals (vals D) = [] \/ finvals (vals D) <> []) as [E | Hne] by (destruct (finvals (vals D)); [left; reflexivity | right; discriminate]).
  - split.
    + intros H. destruct Hy as [(d & -> & _) | [-> _]].
      * exfalso. assert (In d (finvals (vals D))) as K.
        { apply finvals_In. apply in_map_iff. exists (t, Fin d). split; [reflexivity |]. eapply nth_error_In. exact Hx. }
        rewrite E in K. destruct K.
      * unfold between, fgt in H. destruct (fst f); discriminate.
    + intros (l & p25 & p75 & d & Hl & (s0 & k0 & t0 & A & _ & _ & _ & Hk & _) & _).
      rewrite (distances_unique inside W HW 5 s 0 _ _ ltac:(lia) Hl HD), E in A. destruct A as [A _]. apply Permutation_nil in A. subst s0. cbn in Hk. lia.
  - assert (qf 1 4 = qz 25 / qz 100) as E25 by qc_canon. assert (qf 3 4 = qz 75 / qz 100) as E75 by qc_canon.
    assert (0 <= qf 1 4 /\ qf 1 4 <= 1 /\ 0 <= qf 3 4 /\ qf 3 4 <= 1) as (R1 & R2 & R3 & R4) by (repeat split; discriminate).
    assert (f = (Fin (qquantile (qf 1 4) (finvals (vals D)) - qf 3 2 * (qquantile (qf 3 4) (finvals (vals D)) - qquantile (qf 1 4) (finvals (vals D)))),
                 Fin (qquantile (qf 3 4) (finvals (vals D)) + k * (qquantile (qf 3 4) (finvals (vals D)) - qquantile (qf 1 4) (finvals (vals D)))))) as Ef.
    { unfold f, tukey_fence. rewrite !fquantile_noinf by assumption. cbn [fsub fneg fadd fmul ff]. f_equal; f_equal; ring. }
    rewrite Ef. cbn [fst snd]. set (a := qquantile (qf 1 4) _) in *. set (b := qquantile (qf 3 4) _) in *.
    assert (is_percentile (qz 25) (finvals (vals D)) a) as Ha.
    { unfold a. rewrite E25. apply qpercentile_spec; [exact Hne | discriminate | discriminate]. }
    assert (is_percentile (qz 75) (finvals (vals D)) b) as Hb.
    { unfold b. rewrite E75. apply qpercentile_spec; [exact Hne | discriminate | discriminate]. }
    rewrite between_iff. split.
    + intros [K1 K2]. destruct Hy as [(d & -> & Hd) | [-> _]]; [| inversion K1].
      exists (finvals (vals D)), a, b, d. inversion K1; inversion K2; subst. repeat (split; [assumption |]). assumption.
    + intros (l & p25 & p75 & d & Hl & Hp25 & Hp75 & Hd & K1 & K2).
      rewrite (distances_unique inside W HW 5 s 0 _ _ ltac:(lia) Hl HD) in Hp25, Hp75.
      apply (is_percentile_unique (qz 25) _ _ Hne ltac:(discriminate) ltac:(discriminate)) in Hp25. rewrite <- E25 in Hp25. fold a in Hp25.
      apply (is_percentile_unique (qz 75) _ _ Hne ltac:(discriminate) ltac:(discriminate)) in Hp75. rewrite <- E75 in Hp75. fold b in Hp75.
      subst p25 p75. destruct Hy as [(d' & -> & Hd') | [-> Hn]].
      * rewrite (distance_unique inside W HW 5 s i d d' ltac:(lia) Hd Hd') in *. split; constructor; assumption.
      * exfalso. exact (Hn d Hd).
Qed.

Lemma zip_same_nth : forall (f : fl -> fl -> fl) s inside least i t v x,
  nth_error s i = Some (t, v) -> nth_error (zip_with f s (rolling_median inside least s)) i = Some (t, x) ->
  exists m, nth_error (rolling_median inside least s) i = Some (t, m) /\ x = f v m.
Proof.
  intros f s inside least i t v x Hs Hx. rewrite zip_with_nth, Hs in Hx.
  destruct (nth_error (rolling_median inside least s) i) as [[u m] |] eqn:E; [| discriminate]. cbn [fst snd] in Hx.
  rewrite rolling_median_nth, Hs in E. cbv zeta in E. exists m. split; congruence.
Qed.

Lemma tukey_spec : forall sp k s, noinf (vals s) ->
  mask_is (fun i _ _ => inside_fences (next_span sp) s k i \/ inside_fences (last_span sp) s k i) s
    (directional_tukey_filter sp k s).
Proof.
  intros sp k s HI. unfold directional_tukey_filter.
  destruct (tukey_fence k (zip_with fsub s (rolling_median (in_back sp) 5 s))) as [bl bu] eqn:EB.
  destruct (tukey_fence k (zip_with fsub s (rolling_median (in_fwd sp) 5 s))) as [fl_ fu] eqn:EF.
  split.
  - rewrite map_map. cbn [fst]. apply ext_nth. intros i. unfold times. rewrite !nth_error_map, nth_error_combine, !zip_with_nth, !rolling_median_nth.
    destruct (nth_error s i) as [[t v] |]; reflexivity.
  - intros i t v b Hs Hm. rewrite nth_error_map, nth_error_combine in Hm.
    destruct (dif_row (in_back sp) (last_span sp) (in_back_iff sp) 5 s i t v ltac:(lia) HI Hs) as (xb & Eb & _).
    destruct (dif_row (in_fwd sp) (next_span sp) (in_fwd_iff sp) 5 s i t v ltac:(lia) HI Hs) as (xf & Ef & _).
    pose proof (side_iff _ _ (in_back_iff sp) s k i t v xb HI Hs Eb) as SB. cbv zeta in SB. rewrite EB in SB.
    pose proof (side_iff _ _ (in_fwd_iff sp) s k i t v xf HI Hs Ef) as SF. cbv zeta in SF. rewrite EF in SF.
    rewrite Eb, Ef in Hm. cbn [option_map fst snd] in *. injection Hm as <-. rewrite orb_true_iff, SB, SF. reflexivity.
Qed.

Lemma percentile_nonempty : forall p l v, is_percentile p l v -> l <> [].
Proof.
  intros p l v (s & k & t & [A _] & _ & _ & _ & Hk & _) ->. apply Permutation_nil in A. subst s. cbn in Hk. lia.
Qed.
Lemma percentile_mono : forall p p' l v v', 0 <= p -> p <= p' -> p' <= qz 100 -> is_percentile p l v -> is_percentile p' l v' -> v <= v'.
Proof.
  intros p p' l v v' H0 H1 H2 H K. pose proof (percentile_nonempty _ _ _ H) as Hne.
  assert (p <= qz 100) by qlra. assert (0 <= p') by qlra.
  rewrite (is_percentile_unique p l v), (is_percentile_unique p' l v') by assumption.
  destruct (div100_range p) as [A B]; [assumption | assumption |]. destruct (div100_range p') as [A' B']; [assumption | assumption |].
  apply qquantile_mono; try assumption. apply div100_mono, H1.
Qed.

Lemma fences_widen : forall W s k k' i, k <= k' -> inside_fences W s k i -> inside_fences W s k' i.
Proof.
  intros W s k k' i Hk (l & a & b & d & Hl & Ha & Hb & Hd & K1 & K2). exists l, a, b, d. repeat (split; [assumption |]).
  assert (a <= b) as Hab by (eapply (percentile_mono (qz 25) (qz 75) l); [discriminate | discriminate | discriminate | exact Ha | exact Hb]).
  qnra.
Qed.

Lemma mask_imp : forall P P' s m m' i t, mask_is P s m -> mask_is P' s m' ->
  (forall u v, nth_error s i = Some (u, v) -> P i u v -> P' i u v) ->
  nth_error m i = Some (t, true) -> nth_error m' i = Some (t, true).
Proof.
  intros P P' s m m' i t [T S] [T' S'] Himp H.
  assert (nth_error (times s) i = Some t) as Ht by (rewrite <- T, nth_error_map, H; reflexivity).
  pose proof Ht as Ht'. rewrite <- T', nth_error_map in Ht'.
  destruct (nth_error m' i) as [[u b] |] eqn:E; [| discriminate]. cbn in Ht'. injection Ht' as ->.
  unfold times in Ht. rewrite nth_error_map in Ht. destruct (nth_error s i) as [[u v] |] eqn:Es; [| discriminate]. cbn in Ht. injection Ht as ->.
  f_equal. f_equal. apply (S' i t v b Es E). apply Himp; [reflexivity |]. apply (S i t v true Es H). reflexivity.
Qed.

Lemma median_nonneg : forall l m, is_median l m -> (forall x, In x l -> 0 <= x) -> 0 <= m.
Proof.
  intros l m (s & [A _] & H) K. assert (forall k, 0 <= nth k s 0) as N.
  { intros k. destruct (nth_in_or_default k s 0) as [I | ->]; [| apply Qcle_refl]. apply K. eapply Permutation_in; [symmetry; exact A | exact I]. }
  destruct H as [(k & _ & ->) | (k & _ & ->)]; [apply N |]. apply Qc_div_nonneg; [| reflexivity].
  pose proof (N k). pose proof (N (k + 1)%nat). qlra.
Qed.

Lemma tukey_mono : forall sp k k' s i t, noinf (vals s) -> k <= k' ->
  nth_error (directional_tukey_filter sp k s) i = Some (t, true) -> nth_error (directional_tukey_filter sp k' s) i = Some (t, true).
Proof.
  intros sp k k' s i t HI Hk H. eapply mask_imp; [apply (tukey_spec sp k s HI) | apply (tukey_spec sp k' s HI) | | exact H].
  intros u v _ [K | K]; [left | right]; eapply fences_widen; eassumption.
Qed.

(** ** Hampel filter *)

Section Hampel.
  Variable sp : span.
  Let W := around_span sp.
  Let dif (s : series) := zip_with (fun m x => fabs (fsub m x)) (rolling_median (in_center sp) 1 s) s.

  Lemma hampel_dif_row : forall s i t v, noinf (vals s) -> nth_error s i = Some (t, v) ->
    exists x, nth_error (dif s) i = Some (t, x) /\
      ((exists d, x = Fin d /\ abs_distance W s i d) \/ (x = NaN /\ forall d, ~ abs_distance W s i d)).
  Proof.
    intros s i t v HI Hs. destruct (dif_row _ W (in_center_iff sp) 1 s i t v ltac:(lia) HI Hs) as (y & Ey & Hy).
    destruct (zip_same_nth _ _ _ _ _ _ _ _ Hs Ey) as (m & Em & ->).
    unfold dif. rewrite zip_with_nth, Em, Hs. cbn [fst snd]. eexists. split; [reflexivity |].
    destruct Hy as [(d & E & Hd) | [E Hd]].
    - left. exists (qabs d). split; [| exists d; auto]. destruct v, m; cbn in E; try discriminate. cbn [fsub fneg fadd fabs].
      f_equal. injection E as <-. replace (q0 + - q) with (- (q + - q0)) by ring. generalize (q + - q0). intros z. qcases; qlra.
    - right. split; [| intros d (d0 & K & _); exact (Hd d0 K)].
      destruct v, m; cbn in E |- *; try discriminate; reflexivity.
  Qed.

  Lemma hampel_dif_length : forall s, length (dif s) = length s.
  Proof. intros s. unfold dif, zip_with. rewrite map_length, combine_length, rolling_median_length. lia. Qed.

  Lemma hampel_dif_times : forall s, times (dif s) = times s.
  Proof.
    intros s. apply ext_nth. intros i. unfold times, dif. rewrite !nth_error_map, zip_with_nth, rolling_median_nth.
    destruct (nth_error s i) as [[t v] |]; reflexivity.
  Qed.

  Lemma abs_distance_unique : forall s i d d', abs_distance W s i d -> abs_distance W s i d' -> d = d'.
  Proof.
    intros s i d d' (e & H & ->) (e' & H' & ->). f_equal. exact (distance_unique _ W (in_center_iff sp) 1 s i e e' ltac:(lia) H H').
  Qed.

  Lemma median_deviation_iff : forall s i m, noinf (vals s) ->
    (median_deviation W s i m <-> window_median W 1 (dif s) i m).
  Proof.
    intros s i m HI. split.
    - intros (t & v & s' & Hs & Ht & HD & Hm). replace (dif s) with s'; [exact Hm |].
      apply ext_nth. intros j. destruct (nth_error s j) as [[u w] |] eqn:Ej.
      + destruct (hampel_dif_row s j u w HI Ej) as (x & Ex & Hx).
        assert (nth_error (times s') j = Some u) as K by (rewrite Ht; unfold times; rewrite nth_error_map, Ej; reflexivity).
        unfold times in K. rewrite nth_error_map in K. destruct (nth_error s' j) as [[u' y] |] eqn:E'; [| discriminate].
        cbn in K. injection K as ->. rewrite Ex. f_equal. f_equal. destruct (HD j u y E') as [(d & -> & Hd) | [-> Hd]], Hx as [(d' & -> & Hd') | [-> Hd']].
        * f_equal. eapply abs_distance_unique; eassumption.
        * exfalso. exact (Hd' d Hd).
        * exfalso. exact (Hd d' Hd').
        * reflexivity.
      + assert (nth_error (dif s) j = None) as -> by (apply nth_error_None; rewrite hampel_dif_length; apply nth_error_None; exact Ej).
        apply nth_error_None. assert (length (times s') = length (times s)) as L by congruence. unfold times in L. rewrite !map_length in L.
        rewrite L. apply nth_error_None. exact Ej.
    - intros Hm. pose proof Hm as (t & x & l & Hd & _).
      assert (nth_error (times (dif s)) i = Some t) as K by (unfold times; rewrite nth_error_map, Hd; reflexivity).
      rewrite hampel_dif_times in K. unfold times in K. rewrite nth_error_map in K. destruct (nth_error s i) as [[u v] |] eqn:Es; [| discriminate].
      cbn in K. injection K as ->. exists t, v, (dif s). split; [exact Es |]. split; [apply hampel_dif_times |]. split; [| exact Hm].
      intros j u y Ej. destruct (nth_error s j) as [[u' w] |] eqn:Esj.
      + destruct (hampel_dif_row s j u' w HI Esj) as (z & Ez & Hz). rewrite Ej in Ez. injection Ez as -> ->. exact Hz.
      + apply nth_error_None in Esj. rewrite <- hampel_dif_length in Esj. apply nth_error_None in Esj. congruence.
  Qed.

  Lemma hampel_spec : forall t0 s, noinf (vals s) ->
    mask_is (fun i _ _ => exists d m, abs_distance W s i d /\ median_deviation W s i m /\ d <= t0 * qf 7413 5000 * m) s
      (hampel_filter sp t0 s).
  Proof.
    intros t0 s HI. unfold hampel_filter. fold (dif s). split.
    - rewrite map_map. cbn [fst]. rewrite <- (hampel_dif_times s). apply ext_nth. intros i. unfold times.
      rewrite !nth_error_map, nth_error_combine, rolling_median_nth. destruct (nth_error (dif s) i) as [[t v] |]; reflexivity.
    - intros i t v b Hs Hm. rewrite nth_error_map, nth_error_combine in Hm.
      destruct (hampel_dif_row s i t v HI Hs) as (x & Ex & Hx).
      destruct (rolling_row _ W (in_center_iff sp) 1 (dif s) i t x ltac:(lia) Ex) as (y & Ey & Hy).
      rewrite Ex, Ey in Hm. cbn [option_map fst snd] in Hm. injection Hm as <-. split.
      + intros H. destruct Hx as [(d & -> & Hd) | [-> _]]; [| destruct Hy as [(m & -> & _) | [-> _]]; discriminate].
        destruct Hy as [(m & -> & Hm) | [-> _]]; [| discriminate]. cbn in H. qb. exists d, m. split; [exact Hd |]. split; [| exact H].
        apply median_deviation_iff; assumption.
      + intros (d & m & Hd & Hm & K). apply (median_deviation_iff s i m HI) in Hm.
        destruct Hx as [(d' & -> & Hd') | [-> N]]; [| exfalso; exact (N d Hd)]. rewrite (abs_distance_unique s i d' d Hd' Hd).
        destruct Hy as [(m' & -> & Hm') | [-> N]]; [| exfalso; exact (N m Hm)].
        rewrite (window_median_unique _ W (in_center_iff sp) 1 (dif s) i m' m ltac:(lia) Hm' Hm). cbn. apply qle_spec. exact K.
  Qed.

  Lemma selected_nonneg : forall P k s l, selected P k s l -> (forall t q, In (t, Fin q) s -> 0 <= q) -> forall x, In x l -> 0 <= x.
  Proof.
    intros P k s l H. induction H as [k | k t q s l Hp H IH | k t v s l Hn H IH]; intros K x Hx; [destruct Hx | |].
    - destruct Hx as [<- | Hx]; [apply (K t); left; reflexivity |]. apply IH; [| exact Hx]. intros u y Hy. apply (K u). right. exact Hy.
    - apply IH; [| exact Hx]. intros u y Hy. apply (K u). right. exact Hy.
  Qed.

  Lemma median_deviation_nonneg : forall s i m, noinf (vals s) -> median_deviation W s i m -> 0 <= m.
  Proof.
    intros s i m HI H. apply (median_deviation_iff s i m HI) in H. destruct H as (t & v & l & Hs & Sl & Hl & Hm).
    eapply median_nonneg; [exact Hm |]. apply (selected_nonneg _ _ _ _ Sl). intros u q Hu.
    apply In_nth_error in Hu. destruct Hu as [j Hj]. destruct (nth_error s j) as [[u' w] |] eqn:Esj.
    - destruct (hampel_dif_row s j u' w HI Esj) as (z & Ez & Hz). rewrite Hj in Ez. injection Ez as -> <-.
      destruct Hz as [(d & E & (d0 & _ & ->)) | [E _]]; [| discriminate]. assert (q = qabs d0) as -> by congruence. apply qabs_nonneg.
    - apply nth_error_None in Esj. rewrite <- hampel_dif_length in Esj. apply nth_error_None in Esj. congruence.
  Qed.

  Lemma hampel_mono : forall t0 t1 s i t, noinf (vals s) -> t0 <= t1 ->
    nth_error (hampel_filter sp t0 s) i = Some (t, true) -> nth_error (hampel_filter sp t1 s) i = Some (t, true).
  Proof.
    intros t0 t1 s i t HI Ht H. eapply mask_imp; [apply hampel_spec, HI | apply hampel_spec, HI | | exact H].
    intros _ v _ (d & m & Hd & Hm & K). exists d, m. split; [exact Hd |]. split; [exact Hm |].
    pose proof (median_deviation_nonneg s i m HI Hm) as Hn.
    assert (0 <= qf 7413 5000 * m) by (apply Qc_mul_nonneg; [discriminate | exact Hn]).
    rewrite <- Qcmult_assoc in *. eapply Qcle_trans; [exact K |]. apply Qcmult_le_compat_r; assumption.
  Qed.

  Lemma hampel_missing : forall t0 s i t b, noinf (vals s) -> nth_error s i = Some (t, NaN) ->
    nth_error (hampel_filter sp t0 s) i = Some (t, b) -> b = false.
  Proof.
    intros t0 s i t b HI Hs Hm. destruct (hampel_spec t0 s HI) as [_ S]. destruct b; [| reflexivity].
    destruct (proj1 (S i t NaN true Hs Hm) eq_refl) as (d & m & (d0 & (u & q & m' & K & _) & _) & _). congruence.
  Qed.

  Lemma around_self : forall i t, proper_span sp -> W i t i t.
  Proof.
    intros i t H. unfold W, around_span, proper_span in *. destruct sp; [unfold around_time_span; lia |]. unfold around_rows.
    assert ((n - 1) / 2 <= n - 1)%nat by (apply Nat.div_le_upper_bound; lia). lia.
  Qed.

  Lemma selected_In : forall P k s l j t q, selected P k s l -> nth_error s j = Some (t, Fin q) -> P (k + j)%nat t -> In q l.
  Proof.
    intros P k s l j t q H. revert j. induction H as [k | k u x s l Hp H IH | k u v s l Hn H IH]; intros j Hj HP.
    - destruct j; discriminate.
    - destruct j as [| j]; [injection Hj as -> ->; left; reflexivity |]. right. apply (IH j Hj). replace (S k + j)%nat with (k + S j)%nat by lia. exact HP.
    - destruct j as [| j]; [| apply (IH j Hj); replace (S k + j)%nat with (k + S j)%nat by lia; exact HP].
      cbn in Hj. injection Hj as -> ->. rewrite Nat.add_0_r in HP. destruct Hn as [Hn | Hn]; [contradiction | exfalso; eapply Hn; reflexivity].
  Qed.

  Lemma selected_values : forall P k s l x, selected P k s l -> In x l -> exists j t, nth_error s j = Some (t, Fin x) /\ P (k + j)%nat t.
  Proof.
    intros P k s l x H. induction H as [k | k u q s l Hp H IH | k u v s l Hn H IH]; intros Hx; [destruct Hx | |].
    - destruct Hx as [-> | Hx]; [exists 0%nat, u; rewrite Nat.add_0_r; auto |].
      destruct (IH Hx) as (j & t & Hj & HP). exists (S j), t. split; [exact Hj |]. replace (k + S j)%nat with (S k + j)%nat by lia. exact HP.
    - destruct (IH Hx) as (j & t & Hj & HP). exists (S j), t. split; [exact Hj |]. replace (k + S j)%nat with (S k + j)%nat by lia. exact HP.
  Qed.

  (** A row with a value has a window median. *)
  Lemma window_median_ex : forall s i t q, proper_span sp -> nth_error s i = Some (t, Fin q) -> exists m, window_median W 1 s i m.
  Proof.
    intros s i t q Hp Hs. pose proof (selected_window (in_center sp i t) (W i t) s (in_center_iff sp i t)) as SEL.
    pose proof (selected_In _ _ _ _ i t q SEL Hs (around_self i t Hp)) as Hin.
    assert (finvals (window_values (in_center sp i t) s) <> []) as Hne by (intros E; rewrite E in Hin; destruct Hin).
    exists (qmedian (finvals (window_values (in_center sp i t) s))). exists t, (Fin q), (finvals (window_values (in_center sp i t) s)).
    split; [exact Hs |]. split; [exact SEL |]. split; [| apply qmedian_spec, Hne].
    destruct (finvals _); [contradiction | cbn; lia].
  Qed.

  Lemma hampel_at_median : forall t0 s i t q b, noinf (vals s) -> 0 <= t0 -> proper_span sp ->
    nth_error s i = Some (t, Fin q) -> window_median W 1 s i q -> nth_error (hampel_filter sp t0 s) i = Some (t, b) -> b = true.
  Proof.
    intros t0 s i t q b HI H0 Hp Hs Hq Hm. destruct (hampel_spec t0 s HI) as [_ S]. apply (S i t _ b Hs Hm).
    assert (abs_distance W s i 0) as Hd. { exists 0. split; [| reflexivity]. exists t, q, q. split; [exact Hs |]. split; [exact Hq | ring]. }
    destruct (hampel_dif_row s i t _ HI Hs) as (x & Ex & [(d & -> & Hd') | [_ N]]); [| exfalso; exact (N 0 Hd)].
    destruct (window_median_ex (dif s) i t d Hp Ex) as (m & Hmm). apply (median_deviation_iff s i m HI) in Hmm.
    exists 0, m. split; [exact Hd |]. split; [exact Hmm |]. pose proof (median_deviation_nonneg s i m HI Hmm).
    apply Qc_mul_nonneg; [| assumption]. apply Qc_mul_nonneg; [assumption | discriminate].
  Qed.

  (** A stretch of equal values is kept. *)
  Lemma hampel_constant : forall t0 s i t q b, noinf (vals s) -> 0 <= t0 -> proper_span sp ->
    nth_error s i = Some (t, Fin q) -> (forall j u x, nth_error s j = Some (u, Fin x) -> W i t j u -> x = q) ->
    nth_error (hampel_filter sp t0 s) i = Some (t, b) -> b = true.
  Proof.
    intros t0 s i t q b HI H0 Hp Hs Hc Hm. eapply hampel_at_median; try eassumption.
    destruct (window_median_ex s i t q Hp Hs) as (m & Hmm). pose proof Hmm as (u & v & l & E & SEL & Hl & Hml).
    assert (u = t) as -> by congruence.
    assert (l <> []) as Hne by (destruct l; [cbn in Hl; lia | discriminate]).
    assert (q <= qmedian l /\ qmedian l <= q) as [B1 B2].
    { apply qmedian_bounds; [exact Hne |]. intros x Hx. destruct (selected_values _ _ _ _ x SEL Hx) as (j & u & Hj & HP).
      rewrite (Hc j u x Hj HP). split; apply Qcle_refl. }
    rewrite (is_median_unique l m Hne Hml) in Hmm. rewrite <- (Qcle_antisym _ _ B1 B2) in Hmm. exact Hmm.
  Qed.
End Hampel.

Lemma hampel_affine : forall sp t0 a b s, a <> 0 -> hampel_filter sp t0 (map_values (fun q => a * q + b) s) = hampel_filter sp t0 s.
Proof.
  intros sp t0 a b s Ha. unfold hampel_filter. rewrite rolling_affine.
  set (med := rolling_median (in_center sp) 1 s).
  assert (forall i t x, nth_error med i = Some (t, x) -> x = NaN \/ exists m, x = Fin m) as HM by (intros; eapply rolling_fin_or_nan; eassumption).
  assert (zip_with (fun m x => fabs (fsub m x)) (map_values (fun q => a * q + b) med) (map_values (fun q => a * q + b) s) =
          map_values (fun q => qabs a * q + 0) (zip_with (fun m x => fabs (fsub m x)) med s)) as ->.
  { apply ext_nth. intros i. unfold map_values. rewrite nth_error_map, !zip_with_nth, !nth_error_map.
    destruct (nth_error med i) as [[t m] |] eqn:Em; [| reflexivity]. destruct (nth_error s i) as [[u x] |]; [| reflexivity].
    cbn [option_map fst snd]. f_equal. f_equal. destruct (HM i t m Em) as [-> | [q ->]]; [destruct x; reflexivity |].
    destruct x as [| | y |]; try reflexivity. cbn [fsub fneg fadd fabs]. f_equal.
    replace (a * q + b + - (a * y + b)) with (a * (q + - y)) by ring. rewrite qabs_mul. ring. }
  rewrite rolling_affine. set (d := zip_with _ med s). set (mad := rolling_median (in_center sp) 1 d).
  assert (forall i t x, nth_error mad i = Some (t, x) -> x = NaN \/ exists m, x = Fin m) as HM' by (intros; eapply rolling_fin_or_nan; eassumption).
  apply ext_nth. intros i. unfold map_values. rewrite !nth_error_map, !nth_error_combine, !nth_error_map.
  destruct (nth_error d i) as [[t x] |] eqn:Ed; [| reflexivity]. destruct (nth_error mad i) as [[u m] |] eqn:Em; [| reflexivity].
  cbn [option_map fst snd]. f_equal. f_equal.
  destruct (HM' i u m Em) as [-> | [q ->]]; [destruct x; reflexivity |].
  destruct x as [| | y |]; try reflexivity. cbn [fmul fle].
  assert (0 < qabs a) as Hp. { qcases; [qlra |]. apply Qcnot_le_lt. intros K. apply Ha. apply Qcle_antisym; qlra. }
  set (c := t0 * qf 7413 5000). apply eq_true_iff_eq. rewrite !qle_spec.
  replace (c * (qabs a * q + 0)) with (qabs a * (c * q)) by ring. replace (qabs a * y + 0) with (qabs a * y) by ring.
  split; intros K; [| qnra]. apply Qcnot_lt_le. intros L. set (z := c * q) in *. qnra.
Qed.

(** ** Two-way window filter *)

Lemma normalised_affine : forall z s, z <> 0 -> noinf (vals s) ->
  on_values (fun x => fdiv x (Fin z)) s = map_values (fun q => (1 / z) * q + 0) s.
Proof.
  intros z s Hz HI. unfold on_values, map_values. apply map_ext_in. intros [t v] Hin. cbn [fst snd].
  assert (In v (vals s)) as Hv by (apply in_map_iff; exists (t, v); auto). destruct (HI v Hv) as [I1 I2].
  destruct v as [| | q |]; try congruence; [reflexivity |]. cbn [fdiv].
  assert (qeq z 0 = false) as -> by (apply qeq_false; exact Hz). f_equal. f_equal. field. exact Hz.
Qed.

Lemma two_way_side : forall inside W (HW : forall i t j u, inside i t j u = true <-> W i t j u) z thr s i t v x,
  z <> 0 -> noinf (vals s) -> nth_error s i = Some (t, v) ->
  (let s' := on_values (fun x => fdiv x (Fin z)) s in
   nth_error (on_values zero_if_nan (zip_with (fun x m => fabs (fsub x m)) s' (rolling_median inside 5 s'))) i = Some (t, x)) ->
  exists y, x = Fin y /\ (y < thr <-> close_on W s z thr i).
Proof.
  intros inside W HW z thr s i t v x Hz HI Hs Hx. cbv zeta in Hx. rewrite normalised_affine in Hx by assumption.
  rewrite rolling_affine, on_values_nth, zip_with_nth in Hx. unfold map_values in Hx. rewrite !nth_error_map, Hs in Hx.
  destruct (dif_row inside W HW 5 s i t v ltac:(lia) HI Hs) as (y & Ey & Hy).
  destruct (zip_same_nth _ _ _ _ _ _ _ _ Hs Ey) as (m & Em & ->). rewrite Em in Hx. cbn [option_map fst snd] in Hx.
  assert (In v (vals s)) as Hv by (apply in_map_iff; exists (t, v); split; [reflexivity | eapply nth_error_In; exact Hs]).
  assert (0 < qabs z) as Hp. { qcases; [qlra |]. apply Qcnot_le_lt. intros K. apply Hz. apply Qcle_antisym; qlra. }
  destruct Hy as [(d & E & Hd) | [E Hd]].
  - destruct v as [| | q |], m as [| | m |]; cbn in E; try discriminate. injection E as E. cbn in Hx.
    eexists. split; [symmetry; injection Hx as Hx; exact Hx |].
    replace (1 / z * q + 0 + - (1 / z * m + 0)) with (d / z) by (rewrite <- E; field; exact Hz).
    assert (qabs (d / z) * qabs z = qabs d) as F. { rewrite <- qabs_mul. f_equal. field. exact Hz. }
    split.
    + intros K. left. exists d. split; [exact Hd |]. rewrite <- F. set (w := qabs (d / z)) in *. qnra.
    + intros [(d' & Hd' & K) | [N _]]; [| exfalso; exact (N d Hd)].
      rewrite (distance_unique inside W HW 5 s i d' d ltac:(lia) Hd' Hd), <- F in K.
      set (w := qabs (d / z)) in *. apply Qcnot_le_lt. intros L. assert (thr * qabs z <= w * qabs z) by (apply Qcmult_le_compat_r; [exact L | qlra]). qlra.
  - exists 0. split.
    + destruct (HI v Hv) as [I1 I2]. destruct (rolling_fin_or_nan _ _ _ _ _ _ Em) as [-> | [q ->]].
      * destruct v; cbn in Hx; congruence.
      * destruct v as [| | r |]; try congruence; [cbn in Hx; congruence |]. cbn in E. discriminate.
    + split; [intros K; right; split; assumption |]. intros [(d & K & _) | [_ K]]; [exfalso; exact (Hd d K) | exact K].
Qed.

Lemma two_way_times : forall sp thr s, map fst (two_way_window_filter sp thr s) = times s.
Proof.
  intros sp thr s. unfold two_way_window_filter. set (s' := on_values _ s). cbv zeta.
  assert (times s' = times s) as <- by (unfold s', on_values, times; rewrite map_map; reflexivity).
  apply ext_nth. intros i. unfold times. rewrite !nth_error_map, where_nth, zip_with_nth, !on_values_nth, !zip_with_nth, !rolling_median_nth.
  destruct (nth_error s' i) as [[t v] |]; reflexivity.
Qed.

Lemma two_way_row : forall sp thr s i t b, nth_error (two_way_window_filter sp thr s) i = Some (t, b) ->
  let s' := on_values (fun x => fdiv x (fquantile (qf 99 100) (vals s))) s in
  exists x y, nth_error (on_values zero_if_nan (zip_with (fun x m => fabs (fsub x m)) s' (rolling_median (in_back sp) 5 s'))) i = Some (t, x) /\
    nth_error (on_values zero_if_nan (zip_with (fun x m => fabs (fsub x m)) s' (rolling_median (in_fwd sp) 5 s'))) i = Some (t, y) /\
    b = flt (fmin x y) thr.
Proof.
  intros sp thr s i t b H s'. unfold two_way_window_filter in H. fold s' in H. cbv zeta in H.
  rewrite where_nth, zip_with_nth, !on_values_nth, !zip_with_nth, !rolling_median_nth in H.
  rewrite !on_values_nth, !zip_with_nth, !rolling_median_nth.
  destruct (nth_error s' i) as [[u v] |]; [| discriminate]. cbn [fst snd] in *. cbv zeta in *. injection H as -> <-. eauto.
Qed.

Lemma fmin_lt : forall x y thr, (flt (fmin (Fin x) (Fin y)) (Fin thr) = true) <-> x < thr \/ y < thr.
Proof.
  intros x y thr. unfold fmin. cbn [flt]. destruct (qlt y x) eqn:E; cbn [flt]; rewrite qlt_spec; qb; split; intros H; try tauto; destruct H; try assumption; qlra.
Qed.

Lemma two_way_spec : forall sp thr s z, noinf (vals s) -> is_percentile (qz 99) (finvals (vals s)) z -> z <> 0 ->
  mask_is (fun i _ _ => close_on (last_span sp) s z thr i \/ close_on (next_span sp) s z thr i) s
    (two_way_window_filter sp (Fin thr) s).
Proof.
  intros sp thr s z HI Hz Hnz. split; [apply two_way_times |]. intros i t v b Hs Hm.
  destruct (two_way_row sp (Fin thr) s i t b Hm) as (x & y & Hx & Hy & ->).
  assert (fquantile (qf 99 100) (vals s) = Fin z) as Eq.
  { pose proof (percentile_nonempty _ _ _ Hz) as Hne. rewrite fquantile_noinf by (try assumption; discriminate). f_equal.
    rewrite (is_percentile_unique (qz 99) _ z Hne ltac:(discriminate) ltac:(discriminate) Hz). f_equal. }
  rewrite Eq in Hx, Hy.
  destruct (two_way_side _ _ (in_back_iff sp) z thr s i t v x Hnz HI Hs Hx) as (x' & -> & Bx).
  destruct (two_way_side _ _ (in_fwd_iff sp) z thr s i t v y Hnz HI Hs Hy) as (y' & -> & By).
  rewrite fmin_lt, Bx, By. reflexivity.
Qed.

(** No level to compare with: nothing is excluded, unless everything is. *)
Lemma all_nan_median : forall inside mp s i t x, (1 <= mp)%nat -> finvals (map noninf (vals s)) = [] ->
  nth_error (rolling_median inside mp s) i = Some (t, x) -> x = NaN.
Proof.
  intros inside mp s i t x Hmp Hf H. rewrite rolling_median_nth in H. destruct (nth_error s i) as [[u v] |]; [| discriminate].
  cbv zeta in H. injection H as -> <-. rewrite (fcount_noinf _ (window_noinf _ _)).
  assert (finvals (window_values (inside i t) s) = []) as ->.
  { destruct (finvals (window_values (inside i t) s)) as [| q l] eqn:E; [reflexivity |]. exfalso.
    assert (In q (finvals (window_values (inside i t) s))) as K by (rewrite E; left; reflexivity).
    apply finvals_In in K. unfold window_values in K. apply in_map_iff in K. destruct K as ([j [u w]] & K & Hin). apply filter_In in Hin. destruct Hin as [Hin _].
    apply in_combine_r in Hin. assert (In q (finvals (map noninf (vals s)))) as L.
    { apply finvals_In. rewrite <- K. cbn [snd]. apply in_map. apply in_map_iff. exists (u, w). auto. }
    rewrite Hf in L. destruct L. }
  destruct mp; [lia | reflexivity].
Qed.

Lemma two_way_degenerate : forall sp thr s, noinf (vals s) -> (finvals (vals s) = [] \/ is_percentile (qz 99) (finvals (vals s)) 0) ->
  mask_is (fun _ _ _ => 0 < thr) s (two_way_window_filter sp (Fin thr) s).
Proof.
  intros sp thr s HI Hz. split; [apply two_way_times |]. intros i t v b Hs Hm.
  destruct (two_way_row sp (Fin thr) s i t b Hm) as (x & y & Hx & Hy & ->).
  set (q := fquantile (qf 99 100) (vals s)) in *. set (s' := on_values (fun x => fdiv x q) s) in *.
  assert (q = NaN \/ q = Fin 0) as Hq.
  { destruct Hz as [E | Hz].
    - left. apply fquantile_empty. rewrite dropna_noinf, E by exact HI. reflexivity.
    - right. pose proof (percentile_nonempty _ _ _ Hz) as Hne. unfold q. rewrite fquantile_noinf by (try assumption; discriminate). f_equal.
      rewrite (is_percentile_unique (qz 99) _ 0 Hne ltac:(discriminate) ltac:(discriminate) Hz). f_equal. }
  assert (finvals (map noninf (vals s')) = []) as Hf.
  { destruct (finvals (map noninf (vals s'))) as [| r l] eqn:E; [reflexivity |]. exfalso.
    assert (In r (finvals (map noninf (vals s')))) as K by (rewrite E; left; reflexivity). apply finvals_In in K.
    apply in_map_iff in K. destruct K as (w & K & Hin). unfold s', vals, on_values in Hin. rewrite map_map in Hin. apply in_map_iff in Hin.
    destruct Hin as ([u w'] & <- & _). cbn [snd] in K. destruct Hq as [Eq | Eq]; rewrite Eq in K; destruct w' as [| | r' |]; cbn in K; try discriminate.
    - unfold inf_sgn in K. change (qeq 0 0) with true in K. cbv iota in K. destruct (qlt 0 r'); [discriminate |]. destruct (qlt r' 0); discriminate. }
  assert (forall inside w, nth_error (on_values zero_if_nan (zip_with (fun x m => fabs (fsub x m)) s' (rolling_median inside 5 s'))) i = Some (t, w) -> w = Fin 0) as Hall.
  { intros inside w Hw. rewrite on_values_nth, zip_with_nth in Hw. destruct (nth_error s' i) as [[u a] |]; [| discriminate].
    destruct (nth_error (rolling_median inside 5 s') i) as [[u' m] |] eqn:Em; [| discriminate].
    rewrite (all_nan_median _ 5 _ _ _ _ ltac:(lia) Hf Em) in Hw. cbn [fst snd] in Hw. destruct a; cbn in Hw; congruence. }
  rewrite (Hall _ _ Hx), (Hall _ _ Hy), fmin_lt. tauto.
Qed.

Lemma two_way_scale : forall sp thr c s, 0 < c ->
  two_way_window_filter sp thr (map (fun r => (fst r, fscale c (snd r))) s) = two_way_window_filter sp thr s.
Proof.
  intros sp thr c s Hc. unfold two_way_window_filter. rewrite vals_scale, fquantile_fscale by exact Hc.
  assert (on_values (fun x => fdiv x (fscale c (fquantile (qf 99 100) (vals s)))) (map (fun r => (fst r, fscale c (snd r))) s) =
          on_values (fun x => fdiv x (fquantile (qf 99 100) (vals s))) s) as ->.
  { unfold on_values. rewrite map_map. apply map_ext. intros r. cbn [fst snd]. rewrite fdiv_fscale by exact Hc. reflexivity. }
  reflexivity.
Qed.

(** Missing values and sparse windows are never excluded. *)
Lemma two_way_sparse : forall sp thr s i t v b, noinf (vals s) -> 0 < thr -> nth_error s i = Some (t, v) ->
  (forall d, ~ distance (last_span sp) 5 s i d) \/ (forall d, ~ distance (next_span sp) 5 s i d) ->
  nth_error (two_way_window_filter sp (Fin thr) s) i = Some (t, b) -> b = true.
Proof.
  intros sp thr s i t v b HI Ht Hs Hd Hm.
  assert (finvals (vals s) = [] \/ finvals (vals s) <> []) as [E | Hne] by (destruct (finvals (vals s)); [left; reflexivity | right; discriminate]).
  - destruct (two_way_degenerate sp thr s HI (or_introl E)) as [_ S]. apply (S i t v b Hs Hm). exact Ht.
  - pose proof (qpercentile_spec (qz 99) _ Hne ltac:(discriminate) ltac:(discriminate)) as Hz. set (z := qquantile _ _) in Hz.
    destruct (Qc_eq_dec z 0) as [Ez | Ez].
    + rewrite Ez in Hz. destruct (two_way_degenerate sp thr s HI (or_intror Hz)) as [_ S]. apply (S i t v b Hs Hm). exact Ht.
    + destruct (two_way_spec sp thr s z HI Hz Ez) as [_ S]. apply (S i t v b Hs Hm).
      destruct Hd as [Hd | Hd]; [left | right]; right; split; assumption.
Qed.

Lemma two_way_missing : forall sp thr s i t b, noinf (vals s) -> 0 < thr -> nth_error s i = Some (t, NaN) ->
  nth_error (two_way_window_filter sp (Fin thr) s) i = Some (t, b) -> b = true.
Proof.
  intros sp thr s i t b HI Ht Hs. apply (two_way_sparse sp thr s i t NaN b HI Ht Hs). left. intros d (u & q & m & K & _). congruence.
Qed.

(** ** Scale and shift of the directional Tukey filter *)

Lemma fmul_comm : forall x y, fmul x y = fmul y x.
Proof. intros [] []; cbn; try reflexivity; f_equal; ring. Qed.

Lemma tukey_affine : forall sp k a b s, 0 < a ->
  directional_tukey_filter sp k (map_values (fun q => a * q + b) s) = directional_tukey_filter sp k s.
Proof.
  intros sp k a b s Ha. unfold directional_tukey_filter. rewrite !rolling_affine.
  assert (forall inside, zip_with fsub (map_values (fun q => a * q + b) s) (map_values (fun q => a * q + b) (rolling_median inside 5 s)) =
                         map (fun r => (fst r, fscale a (snd r))) (zip_with fsub s (rolling_median inside 5 s))) as HD.
  { intros inside. apply ext_nth. intros i. unfold map_values. rewrite nth_error_map, !zip_with_nth, !nth_error_map.
    destruct (nth_error s i) as [[t x] |]; [| reflexivity]. destruct (nth_error (rolling_median inside 5 s) i) as [[u m] |] eqn:Em; [| reflexivity].
    cbn [option_map fst snd]. f_equal. f_equal. destruct (rolling_fin_or_nan _ _ _ _ _ _ Em) as [-> | [q ->]]; [destruct x; reflexivity |].
    destruct x as [| | y |]; cbn [fsub fneg fadd]; rewrite ?fscale_PInf, ?fscale_NInf by exact Ha; try reflexivity.
    unfold fscale. cbn [fmul]. f_equal. ring. }
  rewrite !HD. set (B := zip_with fsub s (rolling_median (in_back sp) 5 s)). set (F := zip_with fsub s (rolling_median (in_fwd sp) 5 s)).
  assert (forall D, tukey_fence k (map (fun r => (fst r, fscale a (snd r))) D) = (fscale a (fst (tukey_fence k D)), fscale a (snd (tukey_fence k D)))) as HT.
  { intros D. unfold tukey_fence. cbv zeta. rewrite vals_scale, !fquantile_fscale by exact Ha. cbn [fst snd].
    rewrite fsub_fscale by exact Ha. set (p25 := fquantile (qf 1 4) (vals D)). set (p75 := fquantile (qf 3 4) (vals D)).
    assert (forall c x, fmul (Fin c) (fscale a x) = fscale a (fmul (Fin c) x)) as HC.
    { intros c x. rewrite (fmul_comm (Fin c) (fscale a x)), fmul_fscale_l by exact Ha. rewrite fmul_comm. reflexivity. }
    unfold ff. rewrite !HC, fadd_fscale, fsub_fscale by exact Ha. reflexivity. }
  rewrite !HT. destruct (tukey_fence k B) as [bl bu]. destruct (tukey_fence k F) as [l u]. cbn [fst snd].
  apply ext_nth. intros i. rewrite !nth_error_map, !nth_error_combine, !nth_error_map.
  destruct (nth_error B i) as [[t x] |]; [| reflexivity]. destruct (nth_error F i) as [[t' y] |]; [| reflexivity]. cbn [option_map fst snd].
  unfold between, fgt. rewrite !flt_fscale by exact Ha. reflexivity.
Qed.
