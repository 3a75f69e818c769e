(** Lemmas about aggregation_insol. *)

From Coq Require Import QArith Qcanon List ZArith Bool Sorted Lia.
From Verif.Base Require Import QcExtra ISort Quantile Fl TimeSeries Calendar Rolling Segments.
From Verif.Spec Require Import Stats Interp Energy Filters Normalization.
From Verif.Model Require Import Interpolation Energy Filters Normalization.
From Verif.Proofs Require Import StatsP FlP InterpP EnergyP EnergyP6 FiltersP NormP NormP2 NormP3.
Import ListNotations.
Open Scope Qc_scope.

Lemma bin_start_spec : forall o w t b k, (0 < w)%Z -> b = (o + w * k)%Z -> 
  ((bin_start o w t =? b)%Z = inside b w t).
Proof.
  intros o w t b k Hw ->. unfold bin_start, inside.
  pose proof (Z.div_mod (t - o) w ltac:(lia)) as E. pose proof (Z.mod_pos_bound (t - o) w Hw) as B.
  set (d := ((t - o) / w)%Z) in *. destruct (Z.eqb_spec (o + w * d) (o + w * k)) as [Ek | Ek].
  - symmetry. apply andb_true_iff. split; [apply Z.leb_le | apply Z.ltb_lt]; nia.
  - symmetry. apply andb_false_iff. assert (d < k \/ k < d)%Z as [L | L] by nia.
    + left. apply Z.leb_gt. nia.
    + right. apply Z.ltb_ge. nia.
Qed.

Lemma fsum_filter : forall (f : Z * fl -> bool) s, noinf (vals s) ->
  fsum (vals (filter f s)) = Fin (qsum (map (fun r => if f r then present (snd r) else 0) s)).
Proof.
  intros f s HI. rewrite fsum_noinf.
  - f_equal. induction s as [| [t v] s IH]; [reflexivity |].
    assert (noinf (vals s)) as HI' by (intros x Hx; apply HI; right; exact Hx). specialize (IH HI').
    cbn [filter map]. destruct (f (t, v)).
    + cbn [vals map snd]. rewrite qsum_cons. destruct v; cbn [finvals present]; rewrite ?qsum_cons; unfold vals in IH; rewrite IH; ring || reflexivity.
    + rewrite qsum_cons. unfold vals in *. rewrite IH. ring.
  - intros x Hx. apply in_map_iff in Hx. destruct Hx as (r & <- & Hr). apply filter_In in Hr. apply HI.
    apply in_map_iff. exists r. tauto.
Qed.

Definition first_bin (first w : Z) : Z := bin_start (start_day first) w first.

Lemma resample_day_value : forall t0 v0 s w, (0 < w)%Z -> noinf (vals ((t0, v0) :: s)) ->
  resample_day_sum ((t0, v0) :: s) w =
  map (fun b => (b, Fin (bin_weight b w ((t0, v0) :: s)))) (bin_starts t0 w (fst (List.last ((t0, v0) :: s) (t0, NaN)))).
Proof.
  intros t0 v0 s w Hw HI. unfold resample_day_sum. apply map_ext_in. intros b Hb. f_equal.
  unfold bin_starts in Hb. apply in_map_iff in Hb. destruct Hb as (j & Eb & _).
  rewrite fsum_filter by exact HI. unfold bin_weight. f_equal. apply qsum_map_ext. intros r _.
  rewrite (bin_start_spec (start_day t0) w (fst r) b ((t0 - start_day t0) / w + Z.of_nat j)%Z Hw); [reflexivity |].
  rewrite <- Eb. unfold bin_start. lia.
Qed.

Lemma product_rows : forall ins en, times en = times ins ->
  zip_aligned fmul ins en = map (fun p => (fst (fst p), fmul (snd (fst p)) (snd (snd p)))) (combine ins en).
Proof.
  intros ins en E. unfold zip_aligned. rewrite align_same by (symmetry; exact E). rewrite map_map. apply map_ext. intros p. reflexivity.
Qed.

Lemma bin_weight_product : forall b w ins en, times en = times ins -> noinf (vals ins) -> noinf (vals en) ->
  noinf (vals (zip_aligned fmul ins en)) /\ bin_weight b w (zip_aligned fmul ins en) = bin_energy b w ins en.
Proof.
  intros b w ins en E Hi He. rewrite product_rows by exact E.
  assert (forall p, In p (combine ins en) ->
    (snd (fst p) = NaN \/ exists q, snd (fst p) = Fin q) /\ (snd (snd p) = NaN \/ exists q, snd (snd p) = Fin q)) as K.
  { intros [[t i] [t' e]] H. cbn [fst snd]. split.
    - apply in_combine_l in H. destruct (Hi i); [apply in_map_iff; exists (t, i); auto |]. destruct i; eauto; congruence.
    - apply in_combine_r in H. destruct (He e); [apply in_map_iff; exists (t', e); auto |]. destruct e; eauto; congruence. }
  split.
  - intros x Hx. unfold vals in Hx. rewrite map_map in Hx. apply in_map_iff in Hx. destruct Hx as (p & <- & Hp).
    destruct (K p Hp) as [[-> | [i ->]] [-> | [e ->]]]; split; discriminate.
  - unfold bin_weight, bin_energy. rewrite map_map. apply qsum_map_ext. intros p Hp. cbn [fst snd].
    destruct (inside b w (fst (fst p))); [| reflexivity].
    destruct (K p Hp) as [[-> | [i ->]] [-> | [e ->]]]; cbn [fmul present]; ring.
Qed.

Lemma last_fst : forall (s : series) d, fst (List.last s d) = List.last (times s) (fst d).
Proof.
  induction s as [| r s IH]; intros d; [reflexivity |]. destruct s as [| r' s]; [reflexivity |].
  change (fst (List.last (r' :: s) d) = List.last (times (r' :: s)) (fst d)). apply IH.
Qed.

Lemma zip_same_map : forall (f : fl -> fl -> fl) (u v : Z -> fl) l,
  zip_aligned f (map (fun b => (b, u b)) l) (map (fun b => (b, v b)) l) = map (fun b => (b, f (u b) (v b))) l.
Proof.
  intros f u v l. unfold zip_aligned. rewrite align_same.
  - rewrite map_map. induction l as [| b l IH]; [reflexivity |]. cbn [map combine fst snd]. f_equal. exact IH.
  - unfold times. rewrite !map_map. reflexivity.
Qed.

Lemma start_day_midnight : forall t, midnight (start_day t) t.
Proof.
  intros t. pose proof ns_day_pos as P. unfold start_day, midnight. split; [eauto |].
  pose proof (Z.div_mod t ns_day ltac:(lia)) as E. pose proof (Z.mod_pos_bound t ns_day ltac:(lia)) as B.
  set (d := (t / ns_day)%Z) in *. nia.
Qed.

Lemma midnight_unique : forall t m m', midnight m t -> midnight m' t -> m = m'.
Proof.
  intros t m m' [[d ->] B] [[d' ->] B']. pose proof ns_day_pos as P. assert (d = d') as ->; [| reflexivity]. nia.
Qed.

Lemma aggregation_closed : forall en ins w first last, times en = times ins -> noinf (vals ins) -> noinf (vals en) -> (0 < w)%Z ->
  (exists l, times ins = first :: l) -> (exists l, times ins = l ++ [last]) ->
  aggregation_insol en ins w =
    map (fun b => (b, fdiv (Fin (bin_energy b w ins en)) (Fin (bin_weight b w ins)))) (bin_starts first w last).
Proof.
  intros en ins w first last E Hi He Hw [l Ef] [l' El].
unfold aggregation_insol. destruct (bin_weight_product 0 w ins en E Hi He) as [HN _].
    assert (exists v s, zip_aligned fmul ins en = (first, v) :: s /\ times (zip_aligned fmul ins en) = times ins) as (v & s & Ez & Et).
    { assert (times (zip_aligned fmul ins en) = times ins) as Et.
      { unfold zip_aligned, times at 1. rewrite map_map. cbn [fst]. apply align_same_times. symmetry. exact E. }
      destruct (zip_aligned fmul ins en) as [| [t v] s].
      - rewrite Ef in Et. discriminate.
      - rewrite Ef in Et. cbn [times map fst] in Et. injection Et as -> Et. exists v, s. split; [reflexivity |].
        rewrite Ef. cbn [times map fst]. f_equal. exact Et. }
    assert (resample_day_sum (zip_aligned fmul ins en) w =
      map (fun b => (b, Fin (bin_energy b w ins en))) (bin_starts first w last)) as ->.
    { assert (fst (List.last (zip_aligned fmul ins en) (first, NaN)) = last) as EL.
      { rewrite last_fst, Et, El. apply last_last. }
      rewrite Ez in *. rewrite resample_day_value by assumption. rewrite EL. apply map_ext. intros b. f_equal.
      rewrite <- Ez. rewrite (proj2 (bin_weight_product b w ins en E Hi He)). reflexivity. }
    assert (resample_day_sum ins w = map (fun b => (b, Fin (bin_weight b w ins))) (bin_starts first w last)) as ->.
    { assert (fst (List.last ins (first, NaN)) = last) as EL.
      { rewrite last_fst, El. apply last_last. }
      destruct ins as [| [t i] ins]; [discriminate |]. assert (t = first) as -> by (cbn in Ef; congruence).
      rewrite resample_day_value by assumption. rewrite EL. reflexivity. }
    apply zip_same_map.
Qed.

Lemma first_le_last : forall l l' (first last : Z) s, StronglySorted Z.lt s -> s = first :: l -> s = l' ++ [last] -> (first <= last)%Z.
Proof.
  intros l l' first last s HS E1 E2. assert (In last s) as Hin by (rewrite E2; apply in_or_app; right; left; reflexivity).
  rewrite E1 in HS, Hin. apply StronglySorted_inv in HS. destruct HS as [_ F]. rewrite Forall_forall in F.
  destruct Hin as [-> | Hin]; [lia |]. specialize (F _ Hin). lia.
Qed.

Lemma aggregation_value : forall en ins w first last, times en = times ins -> noinf (vals ins) -> noinf (vals en) -> (0 < w)%Z ->
  (exists l, times ins = first :: l) -> (exists l, times ins = l ++ [last]) -> sorted_index ins ->
  (exists b0 n m j, times (aggregation_insol en ins w) = map (fun k => b0 + w * Z.of_nat k)%Z (seq 0 (S n)) /\
     in_bin b0 w first /\ in_bin (b0 + w * Z.of_nat n) w last /\ midnight m first /\ b0 = (m + w * j)%Z) /\
  (forall b x, In (b, x) (aggregation_insol en ins w) ->
     x = fdiv (Fin (bin_energy b w ins en)) (Fin (bin_weight b w ins))).
Proof.
  intros en ins w first last E Hi He Hw [l Ef] [l' El] HS.
  pose proof (aggregation_closed en ins w first last E Hi He Hw (ex_intro _ l Ef) (ex_intro _ l' El)) as EA.
  pose proof (first_le_last l l' first last (times ins) HS Ef El) as Hfl.
  split.
  - rewrite EA. unfold times at 1. rewrite map_map. cbn [fst]. rewrite map_id. unfold bin_starts. cbv zeta.
    set (o := start_day first). set (b0 := bin_start o w first).
    pose proof (Z.div_mod (first - o) w ltac:(lia)) as E1. pose proof (Z.mod_pos_bound (first - o) w Hw) as B1.
    assert (b0 = o + w * ((first - o) / w))%Z as E0 by reflexivity. set (d := ((first - o) / w)%Z) in *.
    pose proof (Z.div_mod (last - b0) w ltac:(lia)) as E2. pose proof (Z.mod_pos_bound (last - b0) w Hw) as B2.
    assert (0 <= (last - b0) / w)%Z as P2 by (apply Z.div_pos; nia). set (n := ((last - b0) / w)%Z) in *.
    exists b0, (Z.to_nat n), o, d. split; [reflexivity |]. split; [unfold in_bin; nia |].
    split; [unfold in_bin; rewrite Z2Nat.id by exact P2; nia |]. split; [apply start_day_midnight | exact E0].
  - intros b x Hx. rewrite EA in Hx. apply in_map_iff in Hx. destruct Hx as (b' & Eb & _). congruence.
Qed.

(** Every row falls in exactly one listed bin. *)
Lemma in_bin_unique : forall b0 w j k t, in_bin (b0 + w * j) w t -> in_bin (b0 + w * k) w t -> j = k.
Proof. unfold in_bin. intros. nia. Qed.

(** ** Consequences *)

Lemma in_combine_same : forall (ins en : series) t i t' e, times en = times ins -> In ((t, i), (t', e)) (combine ins en) ->
  t' = t /\ In (t, i) ins /\ In (t, e) en.
Proof.
  intros ins. induction ins as [| [u j] ins IH]; intros [| [u' f] en] t i t' e E H; try (destruct H; fail).
  injection E as -> E. cbn [combine] in H. destruct H as [H | H].
  - injection H as <- <- <- <-. auto with datatypes.
  - destruct (IH _ _ _ _ _ E H) as (-> & A & B). auto with datatypes.
Qed.

Definition complete_bin (b w : Z) (s : series) : Prop := forall t x, In (t, x) s -> in_bin b w t -> exists q, x = Fin q.

Lemma inside_iff : forall b w t, inside b w t = true <-> in_bin b w t.
Proof. intros b w t. unfold inside, in_bin. rewrite andb_true_iff, Z.leb_le, Z.ltb_lt. tauto. Qed.

Lemma bin_weight_combine : forall b w ins en, times en = times ins ->
  bin_weight b w ins = qsum (map (fun p => if inside b w (fst (fst p)) then present (snd (fst p)) else 0) (combine ins en)).
Proof.
  intros b w ins. unfold bin_weight. induction ins as [| [u j] ins IH]; intros [| [u' f] en] E; try discriminate; [reflexivity |].
  injection E as -> E. cbn [combine map fst snd]. rewrite !qsum_cons, (IH en E). reflexivity.
Qed.

Lemma bin_bounds : forall b w ins en lo hi, times en = times ins -> complete_bin b w ins -> complete_bin b w en ->
  (forall t q, In (t, Fin q) ins -> in_bin b w t -> 0 <= q) ->
  (forall t q, In (t, Fin q) en -> in_bin b w t -> lo <= q /\ q <= hi) ->
  lo * bin_weight b w ins <= bin_energy b w ins en /\ bin_energy b w ins en <= hi * bin_weight b w ins.
Proof.
  intros b w ins en lo hi E Ci Ce Hi He. rewrite (bin_weight_combine b w ins en E). unfold bin_energy.
  rewrite <- !qsum_map_scale. split; apply qsum_map_le; intros [[t i] [t' e]] H; cbn [fst snd];
    (destruct (inside b w t) eqn:Eb; [| rewrite Qcmult_0_r; apply Qcle_refl]); apply inside_iff in Eb;
    destruct (in_combine_same _ _ _ _ _ _ E H) as (_ & Ht & Ht');
    destruct (Ci _ _ Ht Eb) as [i' ->]; destruct (Ce _ _ Ht' Eb) as [e' ->]; cbn [present];
    specialize (Hi _ _ Ht Eb); destruct (He _ _ Ht' Eb) as [He1 He2].
  - rewrite (Qcmult_comm i' e'). apply Qcmult_le_compat_r; assumption.
  - rewrite (Qcmult_comm i' e'). apply Qcmult_le_compat_r; assumption.
Qed.

Lemma combine_row : forall (ins en : series) t i e, times en = times ins -> NoDup (times ins) -> In (t, i) ins -> In (t, e) en ->
  In ((t, i), (t, e)) (combine ins en).
Proof.
  intros ins. induction ins as [| [u j] ins IH]; intros [| [u' f] en] t i e E HN H1 H2; try (destruct H1; fail); try discriminate.
  injection E as -> E. inversion HN as [| ? ? N1 N2]; subst. cbn [combine].
  assert (forall x (s : series), In (t, x) s -> In t (times s)) as K by (intros x s Hx; apply in_map_iff; exists (t, x); auto).
  destruct H1 as [H1 | H1], H2 as [H2 | H2].
  - injection H1 as -> ->. injection H2 as ->. left. reflexivity.
  - injection H1 as -> ->. apply K in H2. unfold times in *. rewrite E in H2. elim (N1 H2).
  - injection H2 as -> ->. elim (N1 (K _ _ H1)).
  - right. apply IH; auto.
Qed.

Section Weighted.
  Variables (en ins : series) (w first last : Z).
  Hypothesis E : times en = times ins.
  Hypothesis Hi : noinf (vals ins).
  Hypothesis He : noinf (vals en).
  Hypothesis Hw : (0 < w)%Z.
  Hypothesis Hf : exists l, times ins = first :: l.
  Hypothesis Hl : exists l, times ins = l ++ [last].
  Hypothesis HS : sorted_index ins.

  Lemma aggregation_bounds : forall b x lo hi, In (b, x) (aggregation_insol en ins w) ->
    complete_bin b w ins -> complete_bin b w en -> 0 < bin_weight b w ins ->
    (forall t q, In (t, Fin q) ins -> in_bin b w t -> 0 <= q) ->
    (forall t q, In (t, Fin q) en -> in_bin b w t -> lo <= q /\ q <= hi) ->
    exists v, x = Fin v /\ lo <= v /\ v <= hi.
  Proof.
    intros b x lo hi Hin Ci Ce Hp H1 H2.
    destruct (aggregation_value en ins w first last E Hi He Hw Hf Hl HS) as [_ HV]. rewrite (HV b x Hin). cbn [fdiv].
    assert (bin_weight b w ins <> 0) as N by (apply Qc_pos_neq, Hp). rewrite (proj2 (qeq_false _ _) N).
    destruct (bin_bounds b w ins en lo hi E Ci Ce H1 H2) as [B1 B2].
    eexists. split; [reflexivity |]. split; [apply Qc_le_div; assumption | apply Qc_div_le; assumption].
  Qed.

  Lemma aggregation_ratio : forall b x c (measured expected : Z -> Qc), In (b, x) (aggregation_insol en ins w) ->
    c <> 0 -> (forall t i, In (t, i) ins -> in_bin b w t -> i = Fin (c * expected t)) ->
    (forall t e, In (t, e) en -> in_bin b w t -> exists q, e = Fin q /\ q * expected t = measured t) ->
    let rows := filter (inside b w) (times ins) in
    qsum (map expected rows) <> 0 ->
    x = Fin (qsum (map measured rows) / qsum (map expected rows)).
  Proof.
    intros b x c measured expected Hin Hc H1 H2 rows HN.
    destruct (aggregation_value en ins w first last E Hi He Hw Hf Hl HS) as [_ HV]. rewrite (HV b x Hin). cbn [fdiv].
    assert (forall (f : Z -> Qc) l, qsum (map f (filter (inside b w) (times l))) =
      qsum (map (fun r => if inside b w (fst r) then f (fst r) else 0) l)) as K.
    { clear. intros f l. induction l as [| [t v] l IH]; [reflexivity |]. cbn [times map fst filter].
      destruct (inside b w t); cbn [map]; rewrite ?qsum_cons; unfold times in IH; rewrite IH; [reflexivity | ring]. }
    assert (bin_weight b w ins = c * qsum (map expected rows)) as EW.
    { unfold rows, bin_weight. rewrite K, <- qsum_map_scale. apply qsum_map_ext. intros [t i] Ht. cbn [fst snd].
      destruct (inside b w t) eqn:Eb; [| ring]. apply inside_iff in Eb. rewrite (H1 t i Ht Eb). reflexivity. }
    assert (bin_energy b w ins en = c * qsum (map measured rows)) as EE.
    { unfold rows, bin_energy.
      assert (times ins = map fst (map fst (combine ins en))) as ET.
      { clear - E. revert en E. induction ins as [| [t i] ins' IH]; intros [| [t' e] en'] E; try discriminate; [reflexivity |].
        cbn [times map combine fst] in *. injection E as _ E. f_equal. apply IH, E. }
      change (times ins) with (map fst ins) in ET. unfold times at 1. rewrite ET.
      change (map fst (map fst (combine ins en))) with (times (map fst (combine ins en))). rewrite K, map_map, <- qsum_map_scale.
      apply qsum_map_ext. intros [[t i] [t' e]] H. cbn [fst snd]. destruct (inside b w t) eqn:Eb; [| ring]. apply inside_iff in Eb.
      destruct (in_combine_same _ _ _ _ _ _ E H) as (_ & Ht & Ht'). rewrite (H1 t i Ht Eb).
      destruct (H2 t e Ht' Eb) as (q & -> & <-). cbn [present]. ring. }
    assert (bin_weight b w ins <> 0) as N.
    { rewrite EW. intros X. apply Qcmult_integral in X. tauto. }
    rewrite (proj2 (qeq_false _ _) N), EW, EE. f_equal. field. auto.
  Qed.

  Lemma aggregation_missing : forall b x, In (b, x) (aggregation_insol en ins w) ->
    complete_bin b w ins -> 0 < bin_known b w ins en ->
    (forall t q, In (t, Fin q) ins -> in_bin b w t -> 0 <= q) ->
    exists v, x = Fin v /\
      let mean := bin_energy b w ins en / bin_known b w ins en in
      v * bin_weight b w ins = mean * bin_known b w ins en /\
      bin_known b w ins en <= bin_weight b w ins /\
      (0 <= mean -> v <= mean) /\
      (0 < mean -> (exists t q, In (t, NaN) en /\ In (t, Fin q) ins /\ in_bin b w t /\ 0 < q) -> v < mean).
  Proof.
    intros b x Hin Ci Hk Hpos.
    destruct (aggregation_value en ins w first last E Hi He Hw Hf Hl HS) as [_ HV]. rewrite (HV b x Hin).
    set (T := bin_weight b w ins). set (A := bin_known b w ins en). set (SE := bin_energy b w ins en).
    assert (T = A + qsum (map (fun p => if inside b w (fst (fst p)) && isnan (snd (snd p)) then present (snd (fst p)) else 0)
                              (combine ins en))) as ET.
    { unfold T, A, bin_known. rewrite (bin_weight_combine b w ins en E), <- qsum_map_add. apply qsum_map_ext. intros p _.
      destruct (inside b w (fst (fst p))); cbn [andb]; [| ring]. unfold notnan. destruct (isnan (snd (snd p))); cbn [negb]; ring. }
    set (M := qsum (map (fun p => if inside b w (fst (fst p)) && isnan (snd (snd p)) then present (snd (fst p)) else 0)
                        (combine ins en))) in *.
    assert (forall p, In p (combine ins en) ->
      0 <= (if inside b w (fst (fst p)) && isnan (snd (snd p)) then present (snd (fst p)) else 0)) as HM0.
    { intros [[t i] [t' e]] H. cbn [fst snd]. destruct (inside b w t) eqn:Eb; cbn [andb]; [| apply Qcle_refl].
      apply inside_iff in Eb. destruct (isnan e); [| apply Qcle_refl].
      destruct (in_combine_same _ _ _ _ _ _ E H) as (_ & Ht & _). destruct (Ci _ _ Ht Eb) as [i' ->]. apply (Hpos _ _ Ht Eb). }
    assert (0 <= M) as HM. { apply qsum_nonneg, Forall_forall. intros y Hy. apply in_map_iff in Hy. destruct Hy as (p & <- & Hp). apply HM0, Hp. }
    assert (0 < A) as HA by exact Hk. assert (0 < T) as HT by (rewrite ET; qlra).
    assert (T <> 0) as NT by (apply Qc_pos_neq, HT). assert (A <> 0) as NA by (apply Qc_pos_neq, HA).
    cbn [fdiv]. rewrite (proj2 (qeq_false _ _) NT). exists (SE / T). split; [reflexivity |]. cbv zeta.
    assert (SE = SE / A * A) as ES by (symmetry; apply Qc_div_mul, NA). set (mean := SE / A) in *.
    split; [rewrite !Qc_div_mul by exact NT; exact ES |]. split; [rewrite ET; qlra |]. split.
    - intros Hm. apply Qc_div_le; [exact HT |]. rewrite ES, ET.
      assert (0 <= mean * M) by (apply Qc_mul_nonneg; assumption). replace (mean * (A + M)) with (mean * A + mean * M) by ring. qlra.
    - intros Hm (t & q & Hn & Hq & Hb & Hq0). apply Qc_div_lt; [exact HT |]. rewrite ES, ET.
      assert (0 < M) as HM1.
      { assert (In ((t, Fin q), (t, NaN)) (combine ins en)) as Hc.
        { apply combine_row; auto. apply sorted_index_NoDup, HS. }
        unfold M. clear - Hc HM0 Hb Hq0. induction (combine ins en) as [| p l IH]; [destruct Hc |].
        cbn [map]. rewrite qsum_cons. destruct Hc as [-> | Hc].
        - cbn [fst snd isnan present]. rewrite (proj2 (inside_iff b w t) Hb). cbn [andb].
          assert (0 <= qsum (map (fun p => if inside b w (fst (fst p)) && isnan (snd (snd p)) then present (snd (fst p)) else 0) l)).
          { apply qsum_nonneg, Forall_forall. intros y Hy. apply in_map_iff in Hy. destruct Hy as (p & <- & Hp). apply HM0. right. exact Hp. }
          qlra.
        - specialize (IH (fun p Hp => HM0 p (or_intror Hp)) Hc). pose proof (HM0 p (or_introl eq_refl)). qlra. }
      assert (0 < mean * M) by (apply Qc_mul_pos; assumption). replace (mean * (A + M)) with (mean * A + mean * M) by ring. qlra.
  Qed.
End Weighted.

Lemma fdiv_units : forall c p q, 0 < c -> fdiv (Fin (c * p)) (Fin (c * q)) = fdiv (Fin p) (Fin q).
Proof.
  intros c p q Hc. pose proof (fdiv_fscale c Hc (Fin p) (Fin q)) as X. rewrite !fscale_Fin in X. exact X.
Qed.

Lemma aggregation_rescaled : forall c en ins w, times en = times ins -> noinf (vals ins) -> noinf (vals en) -> (0 < w)%Z -> 0 < c ->
  aggregation_insol en (map_values (fun q => c * q) ins) w = aggregation_insol en ins w.
Proof.
  intros c en ins w E Hi He Hw Hc. destruct ins as [| [t0 i0] ins0] eqn:EI; [reflexivity |]. rewrite <- EI in *.
  assert (exists l, times ins = t0 :: l) as Hf by (rewrite EI; eexists; reflexivity).
  destruct (exists_last (l := times ins) ltac:(rewrite EI; discriminate)) as (l' & last & El).
  assert (exists l, times ins = l ++ [last]) as Hl by eauto.
  assert (times (map_values (fun q => c * q) ins) = times ins) as ET by apply map_values_times.
  rewrite (aggregation_closed en ins w t0 last) by assumption.
  rewrite (aggregation_closed en (map_values (fun q => c * q) ins) w t0 last); try assumption;
    [| rewrite ET; exact E | apply noinf_map_values, Hi | rewrite ET; exact Hf | rewrite ET; exact Hl].
  apply map_ext. intros b. f_equal.
  assert (bin_weight b w (map_values (fun q => c * q) ins) = c * bin_weight b w ins) as ->.
  { unfold bin_weight, map_values. rewrite map_map, <- qsum_map_scale. apply qsum_map_ext. intros [t v] _. cbn [fst snd].
    destruct (inside b w t); [destruct v; cbn [present]; ring | ring]. }
  assert (bin_energy b w (map_values (fun q => c * q) ins) en = c * bin_energy b w ins en) as ->.
  { unfold bin_energy. rewrite <- qsum_map_scale. clear. revert en.
    induction ins as [| r ins IH]; intros [| r' en]; try reflexivity.
    cbn [map_values map combine fst snd]. rewrite !qsum_cons. f_equal; [| apply IH]. destruct r as [t v]. cbn [fst snd].
    destruct (inside b w t); [destruct v; cbn [present]; ring | ring]. }
  apply fdiv_units, Hc.
Qed.

Lemma aggregation_empty : forall w, aggregation_insol [] [] w = [].
Proof. reflexivity. Qed.
