(** Start levels of all intervals. *)

From Coq Require Import QArith Qcanon List ZArith Bool Arith Lia Sorted String.
From Verif.Base Require Import QcExtra ISort Quantile Fl TimeSeries Calendar Rolling Segments.
From Verif.Spec Require Import Stats Filters Soiling.
From Verif.Model Require Import Soiling.
From Verif.Proofs Require Import StatsP FiltersP2 SoilP SoilP2 SoilP3 SoilP4 SoilP5 SoilP6 SoilP7.
Import ListNotations.
Open Scope list_scope.
Open Scope Qc_scope.

Lemma select_bad : forall A B (f : A -> bool) (d : B) t info o, List.length info = List.length t ->
  map snd (filter (fun p => negb (f (fst p))) (combine t info)) = map (fun k => nth (k - o) info d) (bad_from o (map f t)).
Proof.
  induction t as [| x t IH]; intros [| y info] o L; try discriminate; [reflexivity |]. cbn [combine filter fst map bad_from].
  assert (map (fun k => nth (k - o) (y :: info) d) (bad_from (S o) (map f t)) = map (fun k => nth (k - S o) info d) (bad_from (S o) (map f t))) as E.
  { apply map_ext_in. intros k Hk. apply bad_In in Hk. replace (k - o)%nat with (S (k - S o)) by lia. reflexivity. }
  destruct (f x); cbn [negb map snd]; rewrite ?Nat.sub_diag, (IH info (S o)) by (cbn in L; lia); rewrite E; reflexivity.
Qed.

(** ** Stretches *)

Section Stretch.
Variable valid : list bool.
Let bad (k : nat) : Prop := nth_error valid k = Some false.
Let cnt (k : nat) : nat := count_true (firstn (S k) valid).
Let is_start (m : nat) : bool := negb (nth m valid true) && ((m =? 0)%nat || nth (m - 1) valid false).

Lemma cnt_bad : forall k, bad (S k) -> cnt (S k) = cnt k.
Proof. intros k H. unfold cnt. rewrite count_step. apply nth_error_nth with (d := false) in H. rewrite H. lia. Qed.
Lemma cnt_good : forall k, nth_error valid (S k) = Some true -> cnt (S k) = S (cnt k).
Proof. intros k H. unfold cnt. rewrite count_step. apply nth_error_nth with (d := false) in H. rewrite H. lia. Qed.
Lemma cnt_mono : forall i j, (i <= j)%nat -> (cnt i <= cnt j)%nat.
Proof. intros i j H. induction H as [| j H IH]; [lia |]. unfold cnt in *. rewrite count_step. lia. Qed.
Lemma cnt_same : forall x y, (x <= y)%nat -> (y < List.length valid)%nat -> cnt x = cnt y -> forall j, (x < j <= y)%nat -> bad j.
Proof.
  intros x y Hxy Hy E j Hj. unfold bad. destruct (nth_error valid j) as [b |] eqn:Eb; [| apply nth_error_None in Eb; lia]. destruct b; [| reflexivity]. exfalso.
  destruct j as [| j]; [lia |]. pose proof (cnt_good j Eb). pose proof (cnt_mono x j ltac:(lia)). pose proof (cnt_mono (S j) y ltac:(lia)). lia.
Qed.

Lemma start_iff : forall m, (m < List.length valid)%nat -> (is_start m = true <-> bad m /\ (m = 0%nat \/ nth_error valid (m - 1) = Some true)).
Proof.
  intros m Hm. unfold is_start, bad. rewrite andb_true_iff, negb_true_iff, orb_true_iff, Nat.eqb_eq.
  assert (forall k d, (k < List.length valid)%nat -> nth_error valid k = Some (nth k valid d)) as K by (intros k d Hk; apply nth_error_nth'; exact Hk).
  rewrite (K m true Hm), (K (m - 1)%nat false ltac:(lia)). split; intros [H1 H2]; (split; [congruence |]); destruct H2 as [H2 | H2]; [left; exact H2 | right; congruence | left; exact H2 | right; congruence].
Qed.
Lemma own_start : forall k, bad k -> exists s, (s <= k)%nat /\ is_start s = true /\ forall j, (s <= j <= k)%nat -> bad j.
Proof.
  induction k as [| k IH]; intros H; assert (forall j, bad j -> (j < List.length valid)%nat) as B by (intros j Hj; apply nth_error_Some; unfold bad in Hj; congruence).
  - exists 0%nat. split; [lia |]. split; [apply start_iff; [apply B; exact H | split; [exact H | left; reflexivity]] |]. intros j Hj. replace j with 0%nat by lia. exact H.
  - pose proof (B _ H) as L. destruct (nth_error valid k) as [[|] |] eqn:E.
    + exists (S k). split; [lia |]. split; [apply start_iff; [exact L | split; [exact H | right; cbn; rewrite Nat.sub_0_r; exact E]] |]. intros j Hj. replace j with (S k) by lia. exact H.
    + destruct (IH E) as (s & L1 & L2 & L3). exists s. split; [lia |]. split; [exact L2 |]. intros j Hj. destruct (Nat.eq_dec j (S k)) as [-> | N]; [exact H | apply L3; lia].
    + apply nth_error_None in E. lia.
Qed.

Lemma cnt_flat : forall s k, (s <= k)%nat -> (forall j, (s <= j <= k)%nat -> bad j) -> cnt k = cnt s.
Proof. intros s k H. induction H as [| k H IH]; intros B; [reflexivity |]. rewrite cnt_bad by (apply B; lia). apply IH. intros j Hj. apply B. lia. Qed.

Let n := List.length valid.
Let starts := filter is_start (seq 0 n).
Let g (k : nat) : Z := Z.of_nat (cnt k).

Lemma starts_sorted : StronglySorted Z.lt (map g starts).
Proof.
  assert (StronglySorted lt starts) as SS.
  { unfold starts. apply sorted_filter. generalize 0%nat, n. clear. intros s m. revert s. induction m as [| m IH]; intros s; [constructor |]. cbn. constructor; [apply IH |]. apply Forall_forall. intros x Hx. apply in_seq in Hx. lia. }
  assert (forall s, In s starts -> (s < n)%nat /\ is_start s = true) as K by (intros s Hs; unfold starts in Hs; apply filter_In in Hs; destruct Hs as [H1 H2]; apply in_seq in H1; split; [lia | exact H2]).
  induction SS as [| s l SS IH F]; [constructor |]. cbn [map]. constructor; [apply IH; intros x Hx; apply K; right; exact Hx |]. apply Forall_forall. intros x Hx. apply in_map_iff in Hx. destruct Hx as (s' & <- & Hs').
  rewrite Forall_forall in F. specialize (F s' Hs'). destruct (K s (or_introl eq_refl)) as [L1 E1]. destruct (K s' (or_intror Hs')) as [L2 E2]. apply start_iff in E1; [| exact L1]. apply start_iff in E2; [| exact L2].
  destruct E1 as [B1 _]. destruct E2 as [B2 [C | V]]; [lia |]. unfold g. destruct s' as [| t]; [lia |]. cbn in V. rewrite Nat.sub_0_r in V.
  assert (s <> t) as D by (intros ->; unfold bad in B1; congruence). destruct t as [| t]; [lia |]. pose proof (cnt_good t V). pose proof (cnt_mono s t ltac:(lia)). pose proof (cnt_mono (S t) (S (S t)) ltac:(lia)). lia.
Qed.

Lemma groups_starts : zset (map g (bad_from 0 valid)) = map g starts.
Proof.
  apply sorted_lt_unique; [apply zset_sorted | apply starts_sorted |]. intros t. rewrite zset_In, !in_map_iff. split.
  - intros (k & <- & Hk). apply bad_In in Hk. destruct Hk as [_ Hk]. rewrite Nat.sub_0_r in Hk. destruct (own_start k Hk) as (s & L1 & L2 & L3).
    exists s. split; [unfold g; rewrite (cnt_flat s k L1 L3); reflexivity |]. unfold starts. apply filter_In. split; [| exact L2]. apply in_seq. assert (k < n)%nat by (apply nth_error_Some; congruence). lia.
  - intros (s & <- & Hs). unfold starts in Hs. apply filter_In in Hs. destruct Hs as [H1 H2]. apply in_seq in H1. apply start_iff in H2; [| unfold n in H1; lia]. exists s. split; [reflexivity |]. apply bad_In. rewrite Nat.sub_0_r. split; [lia | apply H2].
Qed.

Lemma stretch_index : forall k, bad k -> nth_error (zset (map g (bad_from 0 valid))) (stretch valid k) = Some (g k).
Proof.
  intros k Hk. rewrite groups_starts, nth_error_map_some. destruct (own_start k Hk) as (s & L1 & L2 & L3). assert (k < n)%nat as Ln by (apply nth_error_Some; unfold bad in Hk; congruence).
  assert (filter is_start (seq 0 (S k)) = filter is_start (seq 0 s) ++ [s]) as E.
  { replace (S k) with (s + S (k - s))%nat by lia. rewrite seq_app, filter_app. f_equal. cbn [Nat.add seq filter]. rewrite L2. f_equal. apply filter_none. intros j Hj. apply in_seq in Hj.
    apply not_true_iff_false. intros C. apply start_iff in C; [| unfold n in Ln; lia]. destruct C as [_ [C | C]]; [lia |]. specialize (L3 (j - 1)%nat ltac:(lia)). unfold bad in L3. congruence. }
  assert (starts = filter is_start (seq 0 (S k)) ++ filter is_start (seq (S k) (n - S k))) as ES.
  { unfold starts. rewrite <- filter_app. f_equal. rewrite <- seq_app. f_equal. lia. }
  unfold stretch. fold is_start. rewrite ES, E, app_length. cbn [List.length]. rewrite <- app_assoc, nth_error_app2 by lia. replace (List.length (filter is_start (seq 0 s)) + 1 - 1 - List.length (filter is_start (seq 0 s)))%nat with 0%nat by lia.
  cbn [app nth_error]. unfold g. rewrite (cnt_flat s k L1 L3). reflexivity.
Qed.
End Stretch.

(** ** All intervals *)

Definition fin_of (x : fl) : Qc := match x with Fin q => q | _ => 0 end.

Section Starts.
Variables (m : clean_method) (d : draws) (table : list (interval * fl)) (ls : list Qc).
Hypothesis len : List.length ls = List.length table.
Hypothesis recs : forall x, In x table -> snd x <> PInf /\ snd x <> NInf.
Let valid := map (fun x => i_valid (fst x)) table.
Let loss (k : nat) := nth k ls 0.
Let recovery (k : nat) := rec_value (nth k (map snd table) NaN).

Variable lv : list (option (Qc * Qc)).
Hypothesis lv_code : valid_levels m (dr_clean d) 0 (Fin 1) (map (fun p => (fst (fst p), snd (fst p), snd p)) (combine table (map Fin ls))) = Ok (fin_opt lv).
Hypothesis lv_len : List.length lv = List.length table.
Hypothesis lv_bad : forall k, nth_error valid k = Some false -> nth_error lv k = Some None.
Hypothesis lv_good : forall k, nth_error valid k = Some true -> exists s, nth_error lv k = Some (Some (s, s + nth k ls 0)) /\
       ((forall j, (j < k)%nat -> nth_error valid j = Some false) -> s = 1) /\
       (forall j s' e', prev_true valid k j -> nth_error lv j = Some (Some (s', e')) ->
          s = cleaned (is_half m) (dr_clean d (0 + count_true (firstn j valid))%nat) e' (rec_value (nth j (map snd table) NaN))).

Lemma valid_len : List.length valid = List.length table.
Proof. apply map_length. Qed.
Lemma lv_valid : map (fun x => match x with Some _ => true | None => false end) lv = valid.
Proof.
  apply ext_nth. intros k. rewrite nth_error_map_some. destruct (nth_error valid k) as [[|] |] eqn:E.
  - destruct (lv_good k E) as (s & -> & _). reflexivity.
  - rewrite (lv_bad k E). reflexivity.
  - apply nth_error_None in E. rewrite valid_len, <- lv_len in E. apply nth_error_None in E. rewrite E. reflexivity.
Qed.
Lemma lv_none : forall k, nth_error lv k = Some None -> nth_error valid k = Some false.
Proof. intros k H. rewrite <- lv_valid, nth_error_map_some, H. reflexivity. Qed.
Lemma lv_some : forall k x, nth_error lv k = Some (Some x) -> nth_error valid k = Some true.
Proof. intros k x H. rewrite <- lv_valid, nth_error_map_some, H. reflexivity. Qed.

Let P (k : nat) : Qc := fin_of (nth k (previous_ends (Fin 1) (fin_opt lv)) NaN).
Let N (k : nat) : Qc := fin_of (nth k (next_starts (fin_opt lv)) NaN).
Let g (k : nat) : Z := Z.of_nat (count_true (firstn (S k) valid)).
Let bad := bad_from 0 valid.

Lemma P_spec : forall k, (k < List.length table)%nat -> nth k (previous_ends (Fin 1) (fin_opt lv)) NaN = Fin (P k) /\
  ((exists j s, (j <= k)%nat /\ nth_error lv j = Some (Some (s, P k)) /\ forall q, (j < q <= k)%nat -> nth_error lv q = Some None) \/
   (P k = 1 /\ forall q, (q <= k)%nat -> nth_error lv q = Some None)).
Proof.
  intros k Hk. destruct (previous_spec lv 1 k ltac:(lia)) as (p & E & H). unfold P. apply nth_error_nth with (d := NaN) in E. rewrite E. cbn [fin_of]. auto.
Qed.
Lemma N_spec : forall k, (k < List.length table)%nat -> nth k (next_starts (fin_opt lv)) NaN = Fin (N k) /\
  ((exists j e, (k <= j)%nat /\ nth_error lv j = Some (Some (N k, e)) /\ forall q, (k <= q < j)%nat -> nth_error lv q = Some None) \/
   (N k = 1 /\ forall q, (k <= q < List.length lv)%nat -> nth_error lv q = Some None)).
Proof.
  intros k Hk. destruct (next_spec lv k ltac:(lia)) as (p & E & H). unfold N. apply nth_error_nth with (d := NaN) in E. rewrite E. cbn [fin_of]. auto.
Qed.

Lemma same_level : forall x y, (x <= y)%nat -> (y < List.length table)%nat -> (forall j, (x <= j <= y)%nat -> nth_error lv j = Some None) -> P x = P y /\ N x = N y.
Proof.
  intros x y Hxy Hy H. destruct (P_spec x ltac:(lia)) as [_ Px]. destruct (P_spec y Hy) as [_ Py]. destruct (N_spec x ltac:(lia)) as [_ Nx]. destruct (N_spec y Hy) as [_ Ny]. split.
  - destruct Px as [(j & s & J1 & J2 & J3) | [Ex J]]; destruct Py as [(j' & s' & K1 & K2 & K3) | [Ey K]].
    + assert (j' < x)%nat as L by (destruct (Nat.lt_ge_cases j' x) as [L | L]; [exact L | rewrite (H j' ltac:(lia)) in K2; discriminate]).
      assert (j = j') as <-; [| congruence]. destruct (Nat.lt_trichotomy j j') as [C | [C | C]]; [rewrite (J3 j' ltac:(lia)) in K2; discriminate | exact C | rewrite (K3 j ltac:(lia)) in J2; discriminate].
    + rewrite (K j ltac:(lia)) in J2. discriminate.
    + destruct (Nat.lt_ge_cases j' x) as [L | L]; [rewrite (J j' ltac:(lia)) in K2; discriminate | rewrite (H j' ltac:(lia)) in K2; discriminate].
    + congruence.
  - destruct Nx as [(j & s & J1 & J2 & J3) | [Ex J]]; destruct Ny as [(j' & s' & K1 & K2 & K3) | [Ey K]].
    + assert (y < j)%nat as L by (destruct (Nat.lt_ge_cases y j) as [L | L]; [exact L | rewrite (H j ltac:(lia)) in J2; discriminate]).
      assert (j = j') as <-; [| congruence]. destruct (Nat.lt_trichotomy j j') as [C | [C | C]]; [rewrite (K3 j ltac:(lia)) in J2; discriminate | exact C | rewrite (J3 j' ltac:(lia)) in K2; discriminate].
    + assert (j < List.length lv)%nat as Lj by (apply nth_error_Some; congruence).
      destruct (Nat.lt_ge_cases y j) as [L | L]; [rewrite (K j ltac:(lia)) in J2; discriminate | rewrite (H j ltac:(lia)) in J2; discriminate].
    + assert (j' < List.length lv)%nat as Lj by (apply nth_error_Some; congruence). rewrite (J j' ltac:(lia)) in K2. discriminate.
    + congruence.
Qed.

Lemma bad_iff : forall k, In k bad <-> nth_error valid k = Some false.
Proof. intros k. unfold bad. rewrite bad_In, Nat.sub_0_r. split; [intros [_ H]; exact H | intros H; split; [lia | exact H]]. Qed.
Lemma same_group : forall x y, In x bad -> In y bad -> g x = g y -> P x = P y /\ N x = N y.
Proof.
  assert (forall x y, (x <= y)%nat -> In x bad -> In y bad -> g x = g y -> P x = P y /\ N x = N y) as K.
  { intros x y L Hx Hy E. apply bad_iff in Hx, Hy. assert (y < List.length valid)%nat as Ly by (apply nth_error_Some; congruence). apply same_level; [exact L | rewrite <- valid_len; exact Ly |].
    intros j Hj. apply lv_bad. destruct (Nat.eq_dec j x) as [-> | D]; [exact Hx |]. apply Nat2Z.inj in E. apply (cnt_same valid x y L Ly E). lia. }
  intros x y Hx Hy E. destruct (Nat.le_ge_cases x y) as [L | L]; [apply K; assumption |]. destruct (K y x L Hy Hx ltac:(congruence)) as [E1 E2]. auto.
Qed.

Lemma invalid_rows : map snd (filter (fun p => negb (i_valid (fst (fst p)))) (combine table
    (combine (groups_from 0 (map fst table)) (combine (previous_ends (Fin 1) (fin_opt lv)) (next_starts (fin_opt lv)))))) =
  map (fun x => (g x, (Fin (P x), Fin (N x)))) bad.
Proof.
  assert (List.length (fin_opt lv) = List.length table) as LF by (unfold fin_opt; rewrite map_length; exact lv_len).
  assert (List.length (groups_from 0 (map fst table)) = List.length table) as LG by (rewrite groups_count, count_length, !map_length; reflexivity).
  rewrite (select_bad _ _ (fun x => i_valid (fst x)) (0%Z, (NaN, NaN)) table _ 0); [| rewrite !combine_length, previous_length, next_length, LF, LG; lia]. fold valid. fold bad.
  apply map_ext_in. intros k Hk. apply bad_iff in Hk. assert (k < List.length table)%nat as L by (rewrite <- valid_len; apply nth_error_Some; congruence). rewrite Nat.sub_0_r.
  rewrite combine_nth by (rewrite combine_length, previous_length, next_length, LF, LG; lia). rewrite combine_nth by (rewrite previous_length, next_length; reflexivity).
  destruct (P_spec k L) as [-> _]. destruct (N_spec k L) as [-> _]. f_equal. rewrite groups_count, map_map. fold valid. rewrite count_nth by (rewrite valid_len; exact L). reflexivity.
Qed.

Lemma group_sorted : StronglySorted (fun x y => (g x <= g y)%Z) bad.
Proof.
  pose proof (bad_sorted valid 0) as S. fold bad in S. induction S as [| x l S IH F]; [constructor |]. constructor; [exact IH |]. rewrite Forall_forall in *. intros y Hy. specialize (F y Hy). unfold g.
  pose proof (cnt_mono valid x y ltac:(lia)). lia.
Qed.

(** The starts for any filling. *)
Lemma levels_any : forall starts, List.length starts = List.length table ->
  (forall k, (k < List.length lv)%nat -> (exists s e, nth_error lv k = Some (Some (s, e)) /\ nth k starts 0 = s) \/ nth_error lv k = Some None) ->
  levels_ok (is_half m) (dr_clean d) valid loss recovery (fun k => nth k starts 0).
Proof.
  intros starts L H k Hk. destruct (lv_good k Hk) as (s & E & E1 & E2). assert (forall j x, nth_error lv j = Some (Some x) -> nth j starts 0 = fst x) as K.
  { intros j x Ej. destruct (H j) as [(s' & e' & G & <-) | G]; [apply nth_error_Some; congruence | rewrite Ej in G; injection G as ->; reflexivity | congruence]. }
  rewrite (K k _ E). cbn [fst]. split; [exact E1 |]. intros j Hj. pose proof Hj as (_ & Vj & _). destruct (lv_good j Vj) as (s' & Ej & _). rewrite (K j _ Ej). cbn [fst]. apply (E2 j s' _ Hj Ej).
Qed.

Lemma starts_ascending : forall visit, visit (map fst (map (fun x => (g x, (Fin (P x), Fin (N x)))) bad)) = zset (map g bad) ->
  exists starts, random_starts m visit d table (map Fin ls) = Ok (map Fin starts) /\ List.length starts = List.length table /\
    levels_ok (is_half m) (dr_clean d) valid loss recovery (fun k => nth k starts 0) /\ fill_ok (dr_level d) valid loss (fun k => nth k starts 0).
Proof.
  intros visit HV. unfold random_starts. cbv zeta. change (fz 1) with (Fin 1). rewrite lv_code. cbn [bind]. rewrite invalid_rows, HV.
  rewrite (group_levels_sorted nat bad g P N (dr_level d) same_group (zset (map g bad)) (stretch valid)).
  - cbn [bind]. set (F := fun x => P x + (N x - P x) * dr_level d (stretch valid x)).
    exists (map (fun k => match nth k lv None with Some (s, _) => s | None => F k end) (seq 0 (List.length table))).
    assert (forall k, (k < List.length table)%nat -> nth k (map (fun k => match nth k lv None with Some (s, _) => s | None => F k end) (seq 0 (List.length table))) 0 = match nth k lv None with Some (s, _) => s | None => F k end) as HN
      by (intros k Hk; apply (map_seq_nth _ (fun k => match nth k lv None with Some (s, _) => s | None => F k end)); exact Hk).
    split; [| split; [rewrite map_length, seq_length; reflexivity | split]].
    + f_equal. apply ext_nth. intros k. match goal with |- nth_error (place_levels _ ?b) _ = _ => replace b with (map (fun x => Fin (F x)) (bad_from 0 (map (fun x => match x with Some _ => true | None => false end) lv))) by (rewrite lv_valid; reflexivity) end.
      rewrite (place_spec F lv 0 k), !nth_error_map_some, nth_error_seq. cbn [Nat.add].
      destruct (nth_error lv k) as [x |] eqn:E.
      * assert (k < List.length table)%nat as L by (rewrite <- lv_len; apply nth_error_Some; congruence). assert (k <? List.length table = true)%nat as -> by (apply Nat.ltb_lt; exact L).
        cbn [option_map]. rewrite (nth_error_nth _ _ None E). destruct x as [[s e] |]; reflexivity.
      * apply nth_error_None in E. rewrite lv_len in E. assert (k <? List.length table = false)%nat as -> by (apply Nat.ltb_ge; exact E). reflexivity.
    + apply levels_any; [rewrite map_length, seq_length; reflexivity |]. intros k Hk. rewrite HN by lia. destruct (nth_error lv k) as [x |] eqn:E; [| apply nth_error_None in E; lia].
      rewrite (nth_error_nth _ _ None E). destruct x as [[s e] |]; [left; exists s, e; auto | right; reflexivity].
    + intros k Hk. pose proof (lv_bad k Hk) as E. assert (k < List.length table)%nat as L by (rewrite <- lv_len; apply nth_error_Some; congruence).
      assert (forall j x, nth_error lv j = Some (Some x) -> nth j (map (fun k => match nth k lv None with Some (s, _) => s | None => F k end) (seq 0 (List.length table))) 0 = fst x) as KS.
      { intros j [s e] Ej. rewrite HN by (rewrite <- lv_len; apply nth_error_Some; congruence). rewrite (nth_error_nth _ _ None Ej). reflexivity. }
      exists (P k), (N k). rewrite (HN k L), (nth_error_nth _ _ None E). split; [| split; [| reflexivity]].
      * destruct (P_spec k L) as [_ [(j & s & J1 & J2 & J3) | [EP J]]].
        -- left. exists j. assert (j <> k) as D by (intros ->; congruence). split.
           ++ split; [lia |]. split; [apply (lv_some j _ J2) |]. intros q Hq. apply lv_none. apply J3. lia.
           ++ rewrite (KS j _ J2). cbn [fst]. destruct (lv_good j (lv_some j _ J2)) as (s' & E' & _). rewrite J2 in E'. injection E' as <- E'. exact E'.
        -- right. split; [| exact EP]. intros j (C1 & C2 & _). rewrite (lv_none j (J j ltac:(lia))) in C2. discriminate.
      * destruct (N_spec k L) as [_ [(j & e & J1 & J2 & J3) | [EN J]]].
        -- left. exists j. assert (j <> k) as D by (intros ->; congruence). split.
           ++ split; [lia |]. split; [apply (lv_some j _ J2) |]. intros q Hq. apply lv_none. apply J3. lia.
           ++ rewrite (KS j _ J2). reflexivity.
        -- right. split; [| exact EN]. intros j (C1 & C2 & _). assert (j < List.length lv)%nat as Lj by (rewrite lv_len, <- valid_len; apply nth_error_Some; congruence).
           rewrite (lv_none j (J j ltac:(lia))) in C2. discriminate.
  - apply zset_sorted.
  - intros h Hh. rewrite zset_In, in_map_iff in Hh. destruct Hh as (x & <- & Hx). eauto.
  - apply group_sorted.
  - intros x Hx. apply bad_iff in Hx. apply (stretch_index valid x Hx).
Qed.

Lemma starts_any : forall visit, set_order (map g bad) (visit (map fst (map (fun x => (g x, (Fin (P x), Fin (N x)))) bad))) ->
  exists starts, random_starts m visit d table (map Fin ls) = Ok (map Fin starts) /\ List.length starts = List.length table /\
    levels_ok (is_half m) (dr_clean d) valid loss recovery (fun k => nth k starts 0) /\
    (forall k s e, nth_error lv k = Some (Some (s, e)) -> nth k starts 0 = s) /\
    forall k, nth_error valid k = Some false -> exists j i, nth_error valid j = Some false /\ nth k starts 0 = P j + (N j - P j) * dr_level d i.
Proof.
  intros visit [ND HV]. unfold random_starts. cbv zeta. change (fz 1) with (Fin 1). rewrite lv_code. cbn [bind]. rewrite invalid_rows.
  destruct (group_levels_range nat bad g P N (dr_level d) same_group (visit (map fst (map (fun x => (g x, (Fin (P x), Fin (N x)))) bad))) ND) as (fills & EF & LF & HF).
  { intros h. rewrite HV, in_map_iff. split; intros (x & H1 & H2); eauto. }
  rewrite EF. cbn [bind]. destruct (place_any lv fills) as (starts & ES & LS & HS); [rewrite lv_valid, LF; apply bad_length |]. exists starts. rewrite ES. split; [reflexivity |]. split; [lia |]. split.
  - apply levels_any; [lia |]. intros k Hk. destruct (HS k Hk) as [H | [H _]]; [left; exact H | right; exact H].
  - split; [intros k s e Ek; destruct (HS k) as [(s' & e' & C & <-) | [C _]]; [apply nth_error_Some; congruence | congruence | congruence] |].
    intros k Hk. pose proof (lv_bad k Hk) as E. destruct (HS k) as [(s & e & C & _) | [_ Hin]]; [apply nth_error_Some; congruence | congruence |].
    destruct (HF _ Hin) as (j & i & Hj & Ey). exists j, i. split; [apply bad_iff; exact Hj | exact Ey].
Qed.

Lemma level_bounds : (m = RandomClean -> forall k, 0 <= dr_clean d k /\ dr_clean d k <= 1) -> (forall q, In q ls -> q <= 0) ->
  forall k, (k < List.length table)%nat -> P k <= 1 /\ N k <= 1.
Proof.
  intros HZ HL k Hk. assert (forall s e, In (Some (s, e)) lv -> s <= 1 /\ e <= s) as K.
  { refine (valid_levels_le1 m (dr_clean d) _ 0%nat 1 lv HZ (Qcle_refl 1) _ lv_code). intros x Hx. apply in_map_iff in Hx. destruct Hx as ([[i rec] l0] & <- & Hx). cbn [fst snd].
    split; [apply (recs (i, rec)); apply in_combine_l in Hx; exact Hx |]. apply in_combine_r in Hx. apply in_map_iff in Hx. destruct Hx as (q & <- & Hq). exists q. split; [reflexivity | apply HL; exact Hq]. }
  split.
  - destruct (P_spec k Hk) as [_ [(j & s & _ & J & _) | [-> _]]]; [| apply Qcle_refl]. apply nth_error_In in J. destruct (K _ _ J). qlra.
  - destruct (N_spec k Hk) as [_ [(j & e & _ & J & _) | [-> _]]]; [| apply Qcle_refl]. apply nth_error_In in J. apply (K _ _ J).
Qed.
End Starts.

Theorem random_starts_spec : forall m d table ls visit, List.length ls = List.length table -> (forall x, In x table -> snd x <> PInf /\ snd x <> NInf) ->
  (forall l, set_order l (visit l)) ->
  let valid := map (fun x => i_valid (fst x)) table in
  let loss k := nth k ls 0 in
  let recovery k := match nth k (map snd table) NaN with Fin q => q | _ => 1 end in
  exists starts, random_starts m visit d table (map Fin ls) = Ok (map Fin starts) /\ List.length starts = List.length table /\
    levels_ok (match m with HalfNorm => true | RandomClean => false end) (dr_clean d) valid loss recovery (fun k => nth k starts 0) /\
    ((forall l, visit l = zset l) -> fill_ok (dr_level d) valid loss (fun k => nth k starts 0)) /\
    ((m = RandomClean -> forall k, 0 <= dr_clean d k /\ dr_clean d k <= 1) -> (forall k, 0 <= dr_level d k /\ dr_level d k <= 1) -> (forall q, In q ls -> q <= 0) ->
     forall s, In s starts -> s <= 1).
Proof.
  intros m d table ls visit len recs HV valid loss recovery.
  destruct (valid_levels_spec m (dr_clean d) table ls 0%nat 1 len recs) as (lv & E & L & HB & HG). fold valid in HB, HG.
  destruct (starts_any m d table ls len lv E L HB HG visit) as (starts & E1 & L1 & HL & HS & HF); [rewrite map_map; apply HV |]. exists starts.
  split; [exact E1 |]. split; [exact L1 |]. split; [exact HL |]. split.
  - intros HZ. destruct (starts_ascending m d table ls len lv E L HB HG visit) as (starts' & E2 & L2 & _ & F2); [rewrite HZ, map_map; reflexivity |]. rewrite E1 in E2. injection E2 as E2.
    assert (starts = starts') as ->; [| exact F2]. clear -E2. revert starts' E2. induction starts as [| s st IH]; intros [| s' st'] E; try discriminate; [reflexivity |]. injection E as -> E. f_equal. apply IH. exact E.
  - intros HZ HU HN s Hs. apply In_nth with (d := 0) in Hs. destruct Hs as (k & Hk & <-). rewrite L1 in Hk.
    assert (forall s e, In (Some (s, e)) lv -> s <= 1 /\ e <= s) as KK.
    { refine (valid_levels_le1 m (dr_clean d) _ 0%nat 1 lv HZ (Qcle_refl 1) _ E). intros x Hx. apply in_map_iff in Hx. destruct Hx as ([[i rec] l0] & <- & Hx). cbn [fst snd].
      split; [apply (recs (i, rec)); apply in_combine_l in Hx; exact Hx |]. apply in_combine_r in Hx. apply in_map_iff in Hx. destruct Hx as (q & <- & Hq). exists q. split; [reflexivity | apply HN; exact Hq]. }
    assert (k < List.length valid)%nat as Lv by (unfold valid; rewrite map_length; exact Hk). destruct (nth_error valid k) as [[|] |] eqn:EV; [| | apply nth_error_None in EV; lia].
    + destruct (HG k EV) as (s & Es & _). rewrite (HS k _ _ Es). apply nth_error_In in Es. apply (KK _ _ Es).
    + destruct (HF k EV) as (j & i & Hj & ->). assert (j < List.length table)%nat as Lj by (rewrite <- (map_length (fun x => i_valid (fst x)) table); apply nth_error_Some; unfold valid in Hj; congruence).
      destruct (level_bounds m d table ls len recs lv E L HZ HN j Lj) as [B1 B2]. destruct (HU i) as [U0 U1]. set (p := fin_of (nth j (previous_ends _ _) NaN)) in *. set (n0 := fin_of (nth j (next_starts _) NaN)) in *.
      assert (0 <= (1 - p) * (1 - dr_level d i)) by (apply Qc_mul_nonneg; qlra). assert (0 <= (1 - n0) * dr_level d i) by (apply Qc_mul_nonneg; qlra).
      replace (p + (n0 - p) * dr_level d i) with (1 - (1 - p) * (1 - dr_level d i) - (1 - n0) * dr_level d i) by ring. qlra.
Qed.
