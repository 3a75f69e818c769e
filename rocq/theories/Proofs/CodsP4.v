(** Proofs about seasonal components. *)

From Coq Require Import QArith Qcanon List ZArith Bool Arith Lia Permutation.
From Verif.Base Require Import QcExtra ISort Quantile Fl TimeSeries Calendar Rolling.
From Verif.Spec Require Import Stats Seasonal.
From Verif.Model Require Import Soiling CodsTools.
From Verif.Proofs Require Import FlP StatsP UncertaintyP FiltersP2.
Import ListNotations.
Open Scope list_scope.
Open Scope Z_scope.

(** ** Days of the year *)

Lemma jan1_succ : forall y, day_of_civil (mkdate (y + 1) 1 1) = day_of_civil (mkdate y 1 1) + (if leap y then 366 else 365).
Proof.
  intros y. unfold day_of_civil. cbn [Z.leb Z.compare Pos.compare Pos.compare_cont].
  pose proof (ystart_succ (y - 1)) as H. replace (y - 1 + 1) with y in H by lia. replace (y + 1 - 1) with y by lia.
  unfold ylen in H. replace (y - 1 + 1) with y in H by lia. lia.
Qed.
Lemma jan1_mono : forall n y, 0 <= n -> day_of_civil (mkdate y 1 1) + 365 * n <= day_of_civil (mkdate (y + n) 1 1).
Proof.
  intros n y H. pattern n. apply natlike_ind; [replace (y + 0) with y by lia; lia| |exact H].
  intros x Hx IH. replace (y + Z.succ x) with (y + x + 1) by lia. rewrite jan1_succ. destruct (leap (y + x)); lia.
Qed.

Lemma year_of_day : forall y k, 0 <= k < 365 -> ts_year (year_day y k) = y /\ ts_doy (year_day y k) = k + 1 /\ ts_day (year_day y k) = day_of_civil (mkdate y 1 1) + k.
Proof.
  intros y k Hk. assert (E : ts_day (year_day y k) = day_of_civil (mkdate y 1 1) + k).
  { unfold ts_day, year_day. apply Z.div_mul. discriminate. }
  pose proof (ts_doy_bounds (year_day y k)) as B. unfold ts_doy in B |- *. rewrite E in B |- *.
  set (Y := ts_year (year_day y k)) in *. assert (Y = y) as HY.
  { destruct (Z.lt_trichotomy Y y) as [L|[L|L]]; [|exact L|]; exfalso.
    - pose proof (jan1_mono (y - (Y + 1)) (Y + 1) ltac:(lia)) as M. replace (Y + 1 + (y - (Y + 1))) with y in M by lia.
      rewrite jan1_succ in M. destruct (leap Y); lia.
    - pose proof (jan1_mono (Y - (y + 1)) (y + 1) ltac:(lia)) as M. replace (y + 1 + (Y - (y + 1))) with Y in M by lia.
      rewrite jan1_succ in M. destruct (leap y); lia. }
  rewrite HY. split; [reflexivity|]. split; [lia|reflexivity].
Qed.
Lemma midnight_day : forall t, ts_day (midnight t) = ts_day t.
Proof. intros t. unfold midnight, ts_day. apply Z.div_mul. discriminate. Qed.
Lemma midnight_year : forall t, ts_year (midnight t) = ts_year t.
Proof. intros t. unfold ts_year, ts_date. rewrite midnight_day. reflexivity. Qed.
Lemma midnight_doy : forall t, ts_doy (midnight t) = ts_doy t.
Proof. intros t. unfold ts_doy. rewrite midnight_day, midnight_year. reflexivity. Qed.
Lemma midnight_year_day : forall t, midnight t = year_day (ts_year t) (ts_doy t - 1).
Proof. intros t. unfold midnight, year_day, ts_doy. f_equal. lia. Qed.
Lemma midnight_inj : forall t u, midnight t = midnight u -> ts_day t = ts_day u.
Proof. intros t u H. rewrite <- (midnight_day t), <- (midnight_day u), H. reflexivity. Qed.

(** ** Finite rows *)

Definition fin_part (s : series) : list (Z * Qc) := flat_map (fun r => match snd r with Fin q => [(fst r, q)] | _ => [] end) s.
Lemma fin_part_vals : forall s, map snd (fin_part s) = finvals (map snd s).
Proof. induction s as [|[t v] s IH]; [reflexivity|]. unfold fin_part in *. cbn [flat_map map snd fst]. destruct v; cbn; rewrite IH; reflexivity. Qed.
Lemma fin_part_In : forall s t q, In (t, q) (fin_part s) <-> In (t, Fin q) s.
Proof.
  intros s t q. unfold fin_part. rewrite in_flat_map. split.
  - intros ([u v] & I & H). cbn [fst snd] in H. destruct v as [| |x|]; try (exfalso; exact H). destruct H as [E|[]]. injection E as -> ->. exact I.
  - intro I. exists (t, Fin q). split; [exact I|]. left. reflexivity.
Qed.
Lemma fin_part_NoDup : forall s, NoDup (map fst s) -> NoDup (map fst (fin_part s)).
Proof.
  induction s as [|[t v] s IH]; intro N; [constructor|]. cbn [map fst] in N. inversion N as [|? ? N1 N2]; subst.
  unfold fin_part. cbn [flat_map]. fold (fin_part s). destruct v as [| |q|]; cbn [app map fst snd]; try (apply IH; exact N2).
  constructor; [|apply IH; exact N2]. intro C. apply N1. apply in_map_iff in C. destruct C as ((u & x) & E & I). cbn in E. subst u.
  apply fin_part_In in I. apply in_map_iff. exists (t, Fin x). auto.
Qed.
Lemma NoDup_pairs : forall (l : list (Z * Qc)), NoDup (map fst l) -> NoDup l.
Proof. intros l H. apply NoDup_map_inv in H. exact H. Qed.

(** ** Trimming *)

Lemma trim_nth : forall s i, nth_error (trim_edges s) i =
  match nth_error s i with
  | Some r => let n := Z.of_nat (List.length s) in let r' := remove_length n in
              Some (fst r, if (Z.of_nat i <? slice_bound n r') || (slice_bound n (- r') <=? Z.of_nat i) then NaN else snd r)
  | None => None end.
Proof.
  intros s i. unfold trim_edges. cbv zeta. rewrite nth_error_map_some, nth_error_combine, nth_error_seq.
  destruct (nth_error s i) as [r|] eqn:E.
  - assert (i <? List.length s = true)%nat as -> by (apply Nat.ltb_lt; apply nth_error_Some; congruence). reflexivity.
  - apply nth_error_None in E. assert (i <? List.length s = false)%nat as -> by (apply Nat.ltb_ge; exact E). reflexivity.
Qed.

Lemma quot_neg : forall n, n <= 363 -> Z.quot (n - 365) 2 = - ((365 - n) / 2).
Proof. intros n H. replace (n - 365) with (- (365 - n)) by lia. rewrite Z.quot_opp_l by lia. rewrite Z.quot_div_nonneg by lia. reflexivity. Qed.

Definition kept_row (n i : Z) : Prop :=
  (367 <= n /\ Z.min 180 ((n - 365) / 2) <= i < n - Z.min 180 ((n - 365) / 2)) \/
  (n <= 181 /\ Z.max 0 (n - (365 - n) / 2) <= i < n - Z.max 0 (n - (365 - n) / 2)).

Lemma trim_row : forall n i, 0 <= i < n ->
  ((i <? slice_bound n (remove_length n)) || (slice_bound n (- remove_length n) <=? i) = false <-> kept_row n i).
Proof.
  intros n i Hi. rewrite orb_false_iff, Z.ltb_ge, Z.leb_gt. unfold slice_bound, remove_length, kept_row.
  destruct (Z_le_gt_dec 365 n) as [L|L].
  - rewrite Z.quot_div_nonneg by lia. assert (0 <= (n - 365) / 2) by (apply Z.div_pos; lia).
    pose proof (Z.mul_div_le (n - 365) 2 ltac:(lia)). pose proof (Z.mul_succ_div_gt (n - 365) 2 ltac:(lia)).
    set (h := (n - 365) / 2) in *. clearbody h.
    destruct (Z.ltb_spec (Z.min 180 h) 0); destruct (Z.ltb_spec (- Z.min 180 h) 0); lia.
  - destruct (Z.eq_dec n 364) as [->|N4].
    + cbn. lia.
    + rewrite quot_neg by lia. pose proof (Z.mul_div_le (365 - n) 2 ltac:(lia)). pose proof (Z.mul_succ_div_gt (365 - n) 2 ltac:(lia)).
      set (h := (365 - n) / 2) in *. clearbody h.
      destruct (Z.ltb_spec (Z.min 180 (- h)) 0); destruct (Z.ltb_spec (- Z.min 180 (- h)) 0); lia.
Qed.

Lemma middle_In : forall s e k, middle s e k -> forall r, In r k <->
  exists i, nth_error s i = Some r /\ e <= Z.of_nat i < Z.of_nat (List.length s) - e.
Proof.
  intros s e k (pre & post & -> & Lp & Lq) r. rewrite !app_length. split.
  - intro I. apply In_nth_error in I. destruct I as [j Ej]. exists (List.length pre + j)%nat.
    assert (j < List.length k)%nat by (apply nth_error_Some; congruence).
    rewrite nth_error_app2 by lia. replace (List.length pre + j - List.length pre)%nat with j by lia.
    rewrite nth_error_app1 by assumption. split; [exact Ej|]. lia.
  - intros (i & E & Hi). rewrite nth_error_app2 in E by lia. rewrite nth_error_app1 in E by lia. eapply nth_error_In. exact E.
Qed.
Lemma middle_exists : forall s e, 0 <= e -> 2 * e <= Z.of_nat (List.length s) -> exists k, middle s e k.
Proof.
  intros s e H0 H. exists (firstn (List.length s - 2 * Z.to_nat e) (skipn (Z.to_nat e) s)), (firstn (Z.to_nat e) s), (skipn (List.length s - 2 * Z.to_nat e) (skipn (Z.to_nat e) s)).
  split; [rewrite firstn_skipn; rewrite firstn_skipn; reflexivity|]. rewrite firstn_length, skipn_length, skipn_length. split; lia.
Qed.
Lemma analysed_exists : forall s, exists k, analysed_part s k.
Proof.
  intros s. unfold analysed_part. set (n := Z.of_nat (List.length s)). assert (0 <= n) by lia.
  destruct (Z_le_gt_dec 367 n) as [L|L].
  - destruct (middle_exists s (Z.min 180 ((n - 365) / 2))) as (k & Hk).
    + assert (0 <= (n - 365) / 2) by (apply Z.div_pos; lia). lia.
    + fold n. pose proof (Z.mul_div_le (n - 365) 2 ltac:(lia)). lia.
    + exists k. left. auto.
  - destruct (Z_le_gt_dec n 181) as [L'|L'].
    + destruct (middle_exists s (Z.max 0 (n - (365 - n) / 2))) as (k & Hk).
      * lia.
      * fold n. pose proof (Z.mul_succ_div_gt (365 - n) 2 ltac:(lia)). lia.
      * exists k. right. right. auto.
    + exists []. right. left. split; [lia|reflexivity].
Qed.

(** The finite rows of the trimmed signal are those of the analysed part. *)
Lemma analysed_rows : forall s k, analysed_part s k -> forall t q,
  In (t, Fin q) (trim_edges (map (fun r => (midnight (fst r), snd r)) s)) <-> exists u, In (u, Fin q) k /\ midnight u = t.
Proof.
  intros s k A t q. set (s0 := map (fun r => (midnight (fst r), snd r)) s).
  assert (L0 : List.length s0 = List.length s) by apply map_length.
  assert (KR : forall r, In r k <-> exists i, nth_error s i = Some r /\ kept_row (Z.of_nat (List.length s)) (Z.of_nat i)).
  { intro r. unfold kept_row. destruct A as [(Hn & M)|[(Hn & ->)|(Hn & M)]].
    - rewrite (middle_In _ _ _ M). split; intros (i & E & Hi); exists i; (split; [exact E|]); lia.
    - split; [intros []|]. intros (i & E & Hi). lia.
    - rewrite (middle_In _ _ _ M). split; intros (i & E & Hi); exists i; (split; [exact E|]); lia. }
  split.
  - intro I. apply In_nth_error in I. destruct I as [i Ei]. rewrite trim_nth in Ei.
    destruct (nth_error s0 i) as [[a b]|] eqn:Es; [|discriminate Ei]. cbv zeta in Ei. cbn [fst snd] in Ei.
    assert (i < List.length s)%nat as Hi by (rewrite <- L0; apply nth_error_Some; congruence).
    rewrite L0 in Ei. destruct ((Z.of_nat i <? _) || _) eqn:T in Ei; [discriminate Ei|]. injection Ei as <- ->.
    apply trim_row in T; [|lia]. unfold s0 in Es. rewrite nth_error_map_some in Es.
    destruct (nth_error s i) as [[u v]|] eqn:Eu; [|discriminate Es]. cbn [fst snd] in Es. injection Es as <- ->.
    exists u. split; [|reflexivity]. apply KR. exists i. auto.
  - intros (u & I & <-). apply KR in I. destruct I as (i & Ei & K). apply nth_error_In with i. rewrite trim_nth.
    unfold s0 at 1. rewrite nth_error_map_some, Ei. cbv zeta. cbn [fst snd]. rewrite L0.
    assert (i < List.length s)%nat as Hi by (apply nth_error_Some; congruence).
    assert ((Z.of_nat i <? slice_bound (Z.of_nat (List.length s)) (remove_length (Z.of_nat (List.length s))))
      || (slice_bound (Z.of_nat (List.length s)) (- remove_length (Z.of_nat (List.length s))) <=? Z.of_nat i) = false) as ->; [|reflexivity].
    apply trim_row; [lia|exact K].
Qed.

Lemma trim_times : forall s, times (trim_edges s) = times s.
Proof.
  intros s. unfold times. apply ext_nth. intros i. rewrite !nth_error_map_some, trim_nth. destruct (nth_error s i); reflexivity.
Qed.

Lemma nodup_length : forall l : list Z, (List.length (nodup Z.eq_dec l) =? List.length l)%nat = true <-> NoDup l.
Proof.
  intros l. rewrite Nat.eqb_eq. induction l as [|x l IH]; [split; [constructor|reflexivity]|]. cbn [nodup].
  assert (List.length (nodup Z.eq_dec l) <= List.length l)%nat as LE
    by (apply NoDup_incl_length; [apply NoDup_nodup|intros y Hy; apply nodup_In in Hy; exact Hy]).
  destruct (in_dec Z.eq_dec x l) as [I|I]; cbn [List.length]; split; intro H.
  - lia.
  - inversion H; contradiction.
  - constructor; [exact I|]. apply IH. lia.
  - inversion H; subst. f_equal. apply IH. assumption.
Qed.

Lemma nodup_right : forall (A : Type) (a b : list A), NoDup (a ++ b) -> NoDup b.
Proof. induction a as [|x a IH]; intros b N; [exact N|]. inversion N; subst. apply IH. assumption. Qed.
Lemma nodup_left : forall (A : Type) (a b : list A), NoDup (a ++ b) -> NoDup a.
Proof.
  induction a as [|x a IH]; intros b N; [constructor|]. inversion N as [|? ? N1 N2]; subst. constructor; [|exact (IH _ N2)].
  intro C. apply N1. apply in_or_app. auto.
Qed.

Lemma analysed_days : forall s k, analysed_part s k -> different_days s -> different_days k.
Proof.
  intros s k A N. unfold different_days in *. destruct A as [(_ & M)|[(_ & ->)|(_ & M)]]; [|apply NoDup_nil|];
    destruct M as (pre & post & -> & _ & _); rewrite !map_app in N; apply nodup_right in N; apply nodup_left in N; exact N.
Qed.

Lemma NoDup_filter_map : forall (A : Type) (g : A -> Z) p l, NoDup (map g l) -> NoDup (map g (filter p l)).
Proof.
  induction l as [|x l IH]; intro N; [constructor|]. cbn [map] in N. inversion N as [|? ? N1 N2]; subst. cbn [filter].
  destruct (p x); [|apply IH; exact N2]. cbn [map]. constructor; [|apply IH; exact N2].
  intro C. apply N1. apply in_map_iff in C. destruct C as (y & E & I). apply filter_In in I. apply in_map_iff. exists y. tauto.
Qed.

(** Over the years. *)
Lemma year_values : forall s k d, analysed_part s k -> different_days s -> 1 <= d <= 365 ->
  let signal := trim_edges (map (fun r => (midnight (fst r), snd r)) s) in
  Permutation (finvals (map (fun y => lookup signal (year_day y (d - 1))) (zset (map ts_year (times signal))))) (day_values k d).
Proof.
  intros s k d A N Hd signal.
  assert (TS : times signal = map (fun r => midnight (fst r)) s) by (unfold signal; rewrite trim_times; unfold times; rewrite map_map; reflexivity).
  assert (ND : NoDup (times signal)).
  { rewrite TS. assert (map (fun r : Z * fl => midnight (fst r)) s = map (fun d => d * ns_day) (map (fun r => ts_day (fst r)) s)) as -> by (rewrite map_map; reflexivity).
    apply FinFun.Injective_map_NoDup; [|exact N]. intros a b E. assert (ns_day <> 0) by discriminate. nia. }
  set (years := zset (map ts_year (times signal))).
  set (rows := map (fun y => (year_day y (d - 1), lookup signal (year_day y (d - 1)))) years).
  assert (E1 : finvals (map (fun y => lookup signal (year_day y (d - 1))) years) = map snd (fin_part rows)).
  { rewrite fin_part_vals. unfold rows. rewrite map_map. reflexivity. }
  set (rows2 := map (fun r : Z * fl => (midnight (fst r), snd r)) (filter (fun r => ts_doy (fst r) =? d) k)).
  assert (E2 : day_values k d = map snd (fin_part rows2)).
  { rewrite fin_part_vals. unfold rows2, day_values. rewrite map_map. reflexivity. }
  rewrite E1, E2. apply Permutation_map. apply NoDup_Permutation.
  - apply NoDup_pairs. apply fin_part_NoDup. unfold rows. rewrite map_map. cbn [fst].
    apply FinFun.Injective_map_NoDup.
    + intros a b E. destruct (year_of_day a (d - 1) ltac:(lia)) as [Ha _]. destruct (year_of_day b (d - 1) ltac:(lia)) as [Hb _]. congruence.
    + pose proof (zset_sorted (map ts_year (times signal))) as SS. fold years in SS. clear -SS.
      induction SS as [|x l S IH F]; [constructor|]. constructor; [|exact IH]. intro C. rewrite Forall_forall in F. specialize (F _ C). lia.
  - apply NoDup_pairs. apply fin_part_NoDup. unfold rows2. rewrite map_map. cbn [fst].
    apply NoDup_filter_map. pose proof (analysed_days _ _ A N) as NK. unfold different_days in NK.
    assert (map (fun r : Z * fl => midnight (fst r)) k = map (fun d => d * ns_day) (map (fun r => ts_day (fst r)) k)) as -> by (rewrite map_map; reflexivity).
    apply FinFun.Injective_map_NoDup; [|exact NK]. intros a b E. assert (ns_day <> 0) by discriminate. nia.
  - intros [t q]. rewrite !fin_part_In. unfold rows, rows2. rewrite !in_map_iff. split.
    + intros (y & E & Iy). injection E as <- El. destruct (lookup_cases signal (year_day y (d - 1))) as [(v & Iv & Ev)|[_ Ev]]; rewrite El in Ev; [|discriminate Ev].
      subst v. apply (analysed_rows s k A) in Iv. destruct Iv as (u & Iu & Eu). exists (u, Fin q). cbn [fst snd].
      split; [rewrite Eu; reflexivity|]. apply filter_In. split; [exact Iu|]. cbn [fst]. apply Z.eqb_eq.
      rewrite <- midnight_doy, Eu. destruct (year_of_day y (d - 1) ltac:(lia)) as (_ & -> & _). lia.
    + intros ((u & v) & E & Iu). cbn [fst snd] in E. injection E as <- ->. apply filter_In in Iu. destruct Iu as [Iu Eu]. cbn [fst] in Eu. apply Z.eqb_eq in Eu.
      assert (In (midnight u, Fin q) signal) as Is by (apply (analysed_rows s k A); exists u; auto).
      exists (ts_year u). rewrite <- Eu, <- midnight_year_day. split.
      * f_equal. destruct (lookup_cases signal (midnight u)) as [(v & Iv & Ev)|[C _]].
        -- rewrite Ev. clear -ND Iv Is. unfold times in ND. induction signal as [|[a b] l IH]; [destruct Is|].
           cbn [map fst] in ND. inversion ND as [|? ? N1 N2]; subst. destruct Iv as [Ev|Iv]; destruct Is as [Es|Is].
           ++ congruence.
           ++ exfalso. apply N1. injection Ev as -> ->. apply in_map_iff. exists (midnight u, Fin q). auto.
           ++ exfalso. apply N1. injection Es as -> ->. apply in_map_iff. exists (midnight u, v). auto.
           ++ apply IH; assumption.
        -- exfalso. apply C. unfold times. apply in_map_iff. exists (midnight u, Fin q). auto.
      * unfold years. apply zset_In. apply in_map_iff. exists (midnight u). split; [apply midnight_year|].
        unfold times. apply in_map_iff. exists (midnight u, Fin q). auto.
Qed.

Lemma fmedian_median : forall l, noinf l -> median_or_missing (finvals l) (fmedian l).
Proof.
  intros l N. destruct (finvals l) as [|a r] eqn:E.
  - left. split; [reflexivity|]. apply fmedian_empty. rewrite (dropna_noinf _ N), E. reflexivity.
  - right. assert (NE : finvals l <> []) by (rewrite E; discriminate). rewrite (fmedian_noinf _ N NE). eexists. split; [reflexivity|].
    rewrite <- E. apply qmedian_spec. exact NE.
Qed.
Lemma median_perm : forall l l' v, Permutation l l' -> median_or_missing l v -> median_or_missing l' v.
Proof.
  intros l l' v P [[-> ->]|(m & -> & H)]; [left; apply Permutation_nil in P; auto|]. right. exists m. split; [reflexivity|]. eapply is_median_perm; eassumption.
Qed.

Lemma lookup_noinf : forall s, noinf (vals s) -> forall t, lookup s t <> PInf /\ lookup s t <> NInf.
Proof.
  intros s N t. destruct (lookup_cases s t) as [(v & I & E)|[_ E]]; rewrite E; [|split; discriminate].
  apply N. unfold vals. apply in_map_iff. exists (t, v). auto.
Qed.

Lemma force_periodicity_spec : forall s out, noinf (vals s) -> different_days s ->
  exists k o, analysed_part s k /\ force_periodicity s out = Ok o /\ times o = out /\
  forall t v, In (t, v) o -> (ts_doy t = 366 /\ v = NaN) \/ (1 <= ts_doy t <= 365 /\ median_or_missing (day_values k (ts_doy t)) v).
Proof.
  intros s out N D. destruct (analysed_exists s) as (k & A). exists k.
  unfold force_periodicity. set (signal := trim_edges (map (fun r => (midnight (fst r), snd r)) s)).
  assert (TS : times signal = map (fun r => midnight (fst r)) s) by (unfold signal; rewrite trim_times; unfold times; rewrite map_map; reflexivity).
  assert (NoDup (times signal)) as ND.
  { rewrite TS. assert (map (fun r : Z * fl => midnight (fst r)) s = map (fun d => d * ns_day) (map (fun r => ts_day (fst r)) s)) as -> by (rewrite map_map; reflexivity).
    apply FinFun.Injective_map_NoDup; [|exact D]. intros a b E. assert (ns_day <> 0) by discriminate. nia. }
  apply nodup_length in ND. assert (List.length (times signal) = List.length signal) as L by apply map_length. rewrite L in ND. rewrite ND. cbn [negb].
  eexists. split; [exact A|]. split; [reflexivity|]. split; [unfold times; rewrite map_map; apply map_id|].
  assert (NS : noinf (vals signal)).
  { intros x Hx. unfold vals in Hx. apply in_map_iff in Hx. destruct Hx as ([t v] & <- & I). apply In_nth_error in I. destruct I as [i Ei].
    unfold signal in Ei. rewrite trim_nth in Ei. rewrite nth_error_map_some in Ei. destruct (nth_error s i) as [[a b]|] eqn:Es; [|discriminate Ei].
    cbv zeta in Ei. cbn [fst snd] in Ei. injection Ei as _ <-. destruct (_ || _); [split; discriminate|].
    apply N. unfold vals. apply in_map_iff. exists (a, b). split; [reflexivity|]. eapply nth_error_In. exact Es. }
  intros t v I. apply in_map_iff in I. destruct I as (u & E & _). cbv zeta in E. injection E as <- <-.
  pose proof (ts_doy_bounds u) as B. destruct (Z.ltb_spec (ts_doy u - 1) 365) as [Lt|Ge].
  - right. split; [lia|]. eapply median_perm; [apply (year_values s k (ts_doy u) A D); lia|]. apply fmedian_median.
    intros x Hx. apply in_map_iff in Hx. destruct Hx as (y & <- & _). apply lookup_noinf. exact NS.
  - left. split; [|reflexivity]. destruct (leap (ts_year u)); lia.
Qed.

Lemma force_periodicity_repeats : forall s out, ~ different_days s -> force_periodicity s out = Raise ValueError.
Proof.
  intros s out D. unfold force_periodicity. set (signal := trim_edges (map (fun r => (midnight (fst r), snd r)) s)).
  assert (TS : times signal = map (fun r => midnight (fst r)) s) by (unfold signal; rewrite trim_times; unfold times; rewrite map_map; reflexivity).
  destruct (List.length (nodup Z.eq_dec (times signal)) =? List.length signal)%nat eqn:E; [|reflexivity]. exfalso. apply D.
  assert (List.length (times signal) = List.length signal) as L by apply map_length. rewrite <- L in E. apply nodup_length in E. rewrite TS in E.
  unfold different_days. assert (map (fun r : Z * fl => midnight (fst r)) s = map (fun d => d * ns_day) (map (fun r => ts_day (fst r)) s)) as EM by (rewrite map_map; reflexivity).
  rewrite EM in E. apply NoDup_map_inv in E. exact E.
Qed.

(** The result depends on the day of the year only. *)
Lemma force_periodicity_periodic : forall s out o t u v w, force_periodicity s out = Ok o ->
  In (t, v) o -> In (u, w) o -> ts_doy t = ts_doy u -> v = w.
Proof.
  intros s out o t u v w E It Iu H. unfold force_periodicity in E. destruct (negb _) in E; [discriminate E|]. injection E as <-.
  apply in_map_iff in It. destruct It as (a & E & _). cbv zeta in E. injection E as <- <-.
  apply in_map_iff in Iu. destruct Iu as (b & E & _). cbv zeta in E. injection E as <- <-. rewrite H. reflexivity.
Qed.

Lemma force_periodicity_year : forall s out o, noinf (vals s) -> (182 <= Z.of_nat (List.length s) <= 366) -> force_periodicity s out = Ok o ->
  forall t v, In (t, v) o -> v = NaN.
Proof.
  intros s out o N L E t v I. assert (D : different_days s).
  { unfold force_periodicity in E. set (signal := trim_edges (map (fun r => (midnight (fst r), snd r)) s)) in E.
    destruct (List.length (nodup Z.eq_dec (times signal)) =? List.length signal)%nat eqn:Q; [|discriminate E].
    assert (TS : times signal = map (fun r => midnight (fst r)) s) by (unfold signal; rewrite trim_times; unfold times; rewrite map_map; reflexivity).
    assert (List.length (times signal) = List.length signal) as LL by apply map_length. rewrite <- LL in Q. apply nodup_length in Q. rewrite TS in Q.
    unfold different_days. assert (map (fun r : Z * fl => midnight (fst r)) s = map (fun d => d * ns_day) (map (fun r => ts_day (fst r)) s)) as EM by (rewrite map_map; reflexivity).
    rewrite EM in Q. apply NoDup_map_inv in Q. exact Q. }
  destruct (force_periodicity_spec s out N D) as (k & o' & A & E' & _ & H). assert (o = o') as <- by congruence.
  destruct A as [(Hn & _)|[(_ & ->)|(Hn & _)]]; [lia| |lia].
  destruct (H t v I) as [(_ & ->)|(_ & [(_ & ->)|(m & _ & s0 & (P & _) & C)])]; try reflexivity.
  exfalso. unfold day_values in P. cbn in P. apply Permutation_nil in P. subst s0. destruct C as [(x & C & _)|(x & C & _)]; cbn in C; lia.
Qed.

(** ** Samples *)

Lemma mean_or_missing : forall l, noinf l -> finvals l <> [] -> fmean l = Fin (qsum (finvals l) / qz (Z.of_nat (List.length (finvals l))))%Qc.
Proof. intros l N NE. rewrite (fmean_noinf _ N NE). reflexivity. Qed.

Lemma on_doy_noinf : forall s d, noinf (vals s) -> noinf (on_doy s d).
Proof.
  intros s d N x Hx. apply N. unfold on_doy, vals in *. apply in_map_iff in Hx. destruct Hx as (r & <- & I). apply filter_In in I.
  apply in_map_iff. exists r. tauto.
Qed.

Lemma seasonal_sample_spec : forall s m shift, noinf (vals s) -> finvals (vals s) <> [] ->
  times (seasonal_sample s (Fin m) shift) = times s /\
  forall t v, In (t, v) (seasonal_sample s (Fin m) shift) ->
    let d := (ts_doy t - shift) mod 365 + 1 in
    1 <= d <= 365 /\
    exists x, median_or_missing (day_values s d) x /\
      v = match x with Fin y => Fin (m * (y - qsum (finvals (vals s)) / qz (Z.of_nat (List.length (finvals (vals s))))) + 1)%Qc | _ => NaN end.
Proof.
  intros s m shift N NE. split; [unfold times, seasonal_sample; rewrite map_map; reflexivity|].
  intros t v I. unfold seasonal_sample in I. apply in_map_iff in I. destruct I as ([u w] & E & _). cbn [fst] in E. injection E as <- <-. cbv zeta.
  split; [pose proof (Z.mod_pos_bound (ts_doy u - shift) 365 ltac:(lia)); lia|].
  rewrite (mean_or_missing _ N NE). pose proof (fmedian_median _ (on_doy_noinf s (shifted_doy shift u) N)) as M.
  unfold shifted_doy in *. exists (fmedian (on_doy s ((ts_doy u - shift) mod 365 + 1))). split; [exact M|].
  destruct M as [(_ & ->)|(y & -> & _)]; [reflexivity|]. reflexivity.
Qed.

Lemma seasonal_samples_spec : forall signals nr draw,
  match seasonal_samples signals nr draw with
  | Ok l => signals <> [] /\ Forall different_days signals /\ List.length l = (List.length signals * nr)%nat /\
      forall i j s, (j < nr)%nat -> nth_error signals i = Some s ->
        nth_error l (i * nr + j) = Some (seasonal_sample s (fst (draw i j)) (snd (draw i j)))
  | Raise e => (signals = [] /\ e = IndexError) \/ (signals <> [] /\ e = ValueError /\ ~ Forall different_days signals)
  end.
Proof.
  intros signals nr draw. unfold seasonal_samples. destruct signals as [|s0 ss]; [left; auto|].
  assert (DD : forall s, same_days s = false <-> different_days s).
  { intro s. unfold same_days, different_days. rewrite Nat.ltb_ge.
    pose proof (nodup_length (map (fun r : Z * fl => ts_day (fst r)) s)) as Q. rewrite Nat.eqb_eq, map_length in Q.
    assert (List.length (nodup Z.eq_dec (map (fun r : Z * fl => ts_day (fst r)) s)) <= List.length s)%nat as LE.
    { rewrite <- (map_length (fun r : Z * fl => ts_day (fst r)) s). apply NoDup_incl_length; [apply NoDup_nodup|intros y Hy; apply nodup_In in Hy; exact Hy]. }
    rewrite <- Q. lia. }
  set (signals := s0 :: ss). assert (NE : signals <> []) by discriminate. clearbody signals.
  destruct (existsb same_days signals) eqn:E.
  - right. split; [exact NE|]. split; [reflexivity|]. intro F. apply existsb_exists in E. destruct E as (s & I & E).
    rewrite Forall_forall in F. specialize (F s I). apply DD in F. congruence.
  - split; [exact NE|]. split.
    { rewrite Forall_forall. intros s I. apply DD. destruct (same_days s) eqn:Q; [|reflexivity].
      assert (existsb same_days signals = true) by (apply existsb_exists; exists s; auto). congruence. }
    clear E NE. change (fun p : nat * series => map (fun j => let '(m, sh) := draw (fst p) j in seasonal_sample (snd p) m sh) (seq 0 nr))
      with (fun p : nat * series => map (fun j => let '(m, sh) := draw (fst p) j in seasonal_sample (snd p) m sh) (seq 0 nr)).
    assert (G : forall l a, List.length (flat_map (fun p : nat * series => map (fun j => let '(m, sh) := draw (fst p) j in seasonal_sample (snd p) m sh) (seq 0 nr)) (combine (seq a (List.length l)) l)) = (List.length l * nr)%nat /\
       forall i j s, (j < nr)%nat -> nth_error l i = Some s ->
        nth_error (flat_map (fun p : nat * series => map (fun j => let '(m, sh) := draw (fst p) j in seasonal_sample (snd p) m sh) (seq 0 nr)) (combine (seq a (List.length l)) l)) (i * nr + j)
          = Some (seasonal_sample s (fst (draw (a + i)%nat j)) (snd (draw (a + i)%nat j)))).
    { induction l as [|x l IH]; intro a; [split; [reflexivity|]; intros [|i] j s _ E; discriminate E|].
      destruct (IH (S a)) as [IL IN]. cbn [List.length seq combine flat_map]. split.
      - rewrite app_length, map_length, seq_length, IL. lia.
      - intros [|i] j s Hj Es.
        + cbn [nth_error] in Es. injection Es as ->. rewrite nth_error_app1 by (rewrite map_length, seq_length; lia).
          rewrite nth_error_map_some, nth_error_seq. assert (0 * nr + j <? nr = true)%nat as -> by (apply Nat.ltb_lt; lia).
          cbn [fst snd]. replace (0 + (0 * nr + j))%nat with j by lia. rewrite Nat.add_0_r. destruct (draw a j); reflexivity.
        + cbn [nth_error] in Es. rewrite nth_error_app2 by (rewrite map_length, seq_length; lia). rewrite map_length, seq_length.
          replace (S i * nr + j - nr)%nat with (i * nr + j)%nat by lia. rewrite (IN i j s Hj Es). replace (S a + i)%nat with (a + S i)%nat by lia. reflexivity. }
    destruct (G signals 0%nat) as [GL GN]. split; [exact GL|exact GN].
Qed.
