(** Year-on-year values of a part of a record. *)

From Coq Require Import QArith Qcanon List ZArith Bool Permutation Sorted Lia.
From Verif.Base Require Import QcExtra ISort Quantile Fl Calendar.
From Verif.Spec Require Import Stats Time YoY Window.
From Verif.Model Require Import Utilities Bootstrap YearOnYear.
From Verif.Proofs Require Import StatsP FlP YoYP YoYP2 YoYP3.
Import ListNotations.
Open Scope Z_scope.
Opaque add_years.

Lemma between_In : forall a b input r, In r (between a b input) <-> In r input /\ a <= fst r <= b.
Proof. intros. unfold between. rewrite filter_In, andb_true_iff, !Z.leb_le. tauto. Qed.
Lemma up_to_In : forall b input r, In r (up_to b input) <-> In r input /\ fst r <= b.
Proof. intros. unfold up_to. rewrite filter_In, Z.leb_le. tauto. Qed.

Lemma later : forall t t', one_year_later t t' -> t < t'.
Proof. intros t t' H. apply one_year_later_eq in H. subst. pose proof (add_one_year_bounds t). pose proof ns_day_pos. lia. Qed.

(** ** Partners *)

Lemma partner_between : forall input a b dt r, clean_cut input a -> dt <= b ->
  (is_partner (between a b input) dt r <-> is_partner input dt r /\ a <= fst r).
Proof.
  intros input a b dt r HC Hd. unfold is_partner. split.
  - intros (Hr & t' & H1 & H2 & H3 & H4). apply between_In in Hr. destruct Hr as [Hr Hw]. split; [| lia]. split; [exact Hr |]. exists t'.
    split; [exact H1 |]. split; [exact H2 |]. split; [exact H3 |]. intros r2 t2 I2 L2 B2. pose proof (later _ _ L2).
    destruct (Z.lt_ge_cases (fst r2) a) as [C | C].
    + apply (HC r2 r t2 t'); auto. lia.
    + apply (H4 r2 t2); auto. apply between_In. split; [exact I2 | lia].
  - intros ((Hr & t' & H1 & H2 & H3 & H4) & Ha). pose proof (later _ _ H1). split; [apply between_In; split; [exact Hr | lia] |]. exists t'.
    split; [exact H1 |]. split; [exact H2 |]. split; [exact H3 |]. intros r2 t2 I2. apply between_In in I2. apply H4. apply I2.
Qed.

(** ** Clean cuts *)

Lemma landing_strict : forall y m d, valid_date (mkdate y m d) -> (m, d) <> (2, 29) ->
  let z := day_of_civil (mkdate y m d) in
  day_of_civil (add_years_date 1 (civil_of_day (z - 1))) < day_of_civil (add_years_date 1 (civil_of_day z)).
Proof.
  intros y m d V N z. destruct (add_one_year_march z) as (y1 & r1 & B1 & E1 & L1). destruct (add_one_year_march (z - 1)) as (y2 & r2 & B2 & E2 & L2).
  assert (r1 <> 365) as R.
  { intros ->. pose proof (valid_march _ V) as H. destruct V as [Vm Vd]. cbn [d_year d_month d_day] in *. cbv zeta in H. destruct H as (_ & H & _).
    unfold z, day_of_civil in E1.
    destruct (march_unique (if m <=? 2 then y - 1 else y) y1 (moff (if m <=? 2 then m + 9 else m - 3) + (d - 1)) 365 H B1 ltac:(lia)) as [_ K].
    destruct moff_values as (V0&V1&V2&V3&V4&V5&V6&V7&V8&V9&V10&V11). apply N. clear - K Vm Vd V0 V1 V2 V3 V4 V5 V6 V7 V8 V9 V10 V11.
    month_cases m HM; unfold days_in_month in *;
      cbn [Z.ltb Z.leb Z.eqb Z.compare Pos.compare Pos.compare_cont Pos.eqb orb] in *;
      change (3 - 3) with 0 in *; change (4 - 3) with 1 in *; change (5 - 3) with 2 in *;
      change (6 - 3) with 3 in *; change (7 - 3) with 4 in *; change (8 - 3) with 5 in *;
      change (9 - 3) with 6 in *; change (10 - 3) with 7 in *; change (11 - 3) with 8 in *;
      change (12 - 3) with 9 in *; change (1 + 9) with 10 in *; change (2 + 9) with 11 in *; try lia. f_equal; lia. }
  pose proof (ylen_bounds y1) as Y1. pose proof (ylen_bounds y2) as Y2.
  destruct (Z.eq_dec r1 0) as [-> | Z0].
  - destruct (march_unique (y1 - 1) y2 (ylen (y1 - 1) - 1) r2) as [<- <-]; [pose proof (ylen_bounds (y1 - 1)); lia | exact B2 | |].
    + pose proof (ystart_succ (y1 - 1)) as S. replace (y1 - 1 + 1) with y1 in S by lia. lia.
    + replace (y1 - 1 + 1) with y1 in L2 by lia. pose proof (ystart_succ y1). lia.
  - destruct (march_unique y1 y2 (r1 - 1) r2) as [<- <-]; [lia | exact B2 | lia |]. lia.
Qed.

Lemma midnight_clean : forall input a, ordinary_midnight a -> clean_cut input a.
Proof.
  intros input a (y & m & d & V & N & Ha) r r' t t' _ _ [L1 L2] H H'. apply one_year_later_eq in H, H'. subst t t'. pose proof (landing_strict y m d V N) as S. cbv zeta in S.
  set (z := day_of_civil (mkdate y m d)) in *. pose proof ns_day_pos as P.
  destruct (ts_split (fst r)) as [E1 B1]. destruct (ts_split (fst r')) as [E2 B2].
  assert (ts_day (fst r) <= z - 1) as D1 by nia. assert (z <= ts_day (fst r')) as D2 by nia.
  pose proof (add_one_year_day_mono _ _ D1) as M1. pose proof (add_one_year_day_mono _ _ D2) as M2. Transparent add_years. unfold add_years, ts_date. nia.
Qed.
Opaque add_years.

Lemma no_cut : forall input a, (forall t, In t (times input) -> a <= t) -> clean_cut input a.
Proof. intros input a H r r' t t' Hr _ [L _] _ _. exfalso. assert (a <= fst r) by (apply H; unfold times; apply in_map; exact Hr). lia. Qed.

(** ** Values *)

Lemma one_value : forall input dt e e', NoDup (times input) -> In (dt, e) input -> In (dt, e') input -> e = e'.
Proof. intros input dt e e' H A B. assert ((dt, e) = (dt, e')) as E by (apply (nodup_fst_inj input); auto). congruence. Qed.

Lemma value_iff : forall infer sortv choice starts rc ep cl m input o dt v,
  sorts_by_shifted sortv -> NoDup (times input) -> degradation_year_on_year infer sortv choice starts rc ep cl m input = Ok o ->
  one_partner input dt ->
  (In (dt, v) (yo_values o) <-> v <> NaN /\ exists e r, In (dt, e) input /\ is_partner input dt r /\ v = pair_value (yo_renorm o) dt e r).
Proof.
  intros infer sortv choice starts rc ep cl m input o dt v HS HN H H1.
  destruct (yoy_values_pairs _ _ _ _ _ _ _ _ _ _ HS HN H) as (pick & [P _] & HV). rewrite (HV dt v). specialize (P dt).
  split; intros (Hv & e & r & A & B & C); (split; [exact Hv |]); exists e, r; (split; [exact A |]); (split; [| exact C]).
  - rewrite B in P. exact P.
  - destruct (pick dt) as [r' |]; [f_equal; apply H1; assumption | exfalso; exact (P r B)].
Qed.

Section Cut.
Variables (infer infer' : list Z -> option (Z -> Z)) (sortv sortv' : series -> series) (choice choice' : nat -> list (list nat)) (starts starts' : list (list nat)).
Variables (rc rc' : bool) (ep cl ep' cl' : Qc) (m m' : umethod) (input : series) (a b : Z) (o o' : yoy_out).
Hypothesis sortv_ok : sorts_by_shifted sortv.
Hypothesis sortv_ok' : sorts_by_shifted sortv'.
Hypothesis distinct : NoDup (times input).
Hypothesis cut : clean_cut input a.
Hypothesis whole : degradation_year_on_year infer sortv choice starts rc ep cl m input = Ok o.
Hypothesis part : degradation_year_on_year infer' sortv' choice' starts' rc' ep' cl' m' (between a b input) = Ok o'.

Lemma nodup_part : forall f, NoDup (times (filter f input)).
Proof.
  intros f. clear - distinct. unfold times in *. induction input as [| r l IH]; [constructor |]. cbn [map] in distinct. apply NoDup_cons_iff in distinct. destruct distinct as [N D].
  cbn [filter]. destruct (f r); [| exact (IH D)]. cbn [map]. constructor; [| exact (IH D)]. intros C. apply N. apply in_map_iff in C. destruct C as (x & E & Hx).
  apply filter_In in Hx. apply in_map_iff. exists x. split; [exact E | apply Hx].
Qed.

Lemma cut_sound : forall dt v, In (dt, v) (yo_values o') ->
  dt <= b /\ v <> NaN /\ exists e r, In (dt, e) input /\ is_partner input dt r /\ a <= fst r /\ v = pair_value (yo_renorm o') dt e r.
Proof.
  intros dt v Hv. destruct (yoy_values_sound _ _ _ _ _ _ _ _ _ _ sortv_ok' part dt v Hv) as (Nv & e & r & A & B & C & _).
  apply between_In in A. destruct A as [A W]. cbn [fst] in W. apply partner_between in B; [| exact cut | lia]. destruct B as [B1 B2].
  split; [lia |]. split; [exact Nv |]. exists e, r. auto.
Qed.

Lemma cut_values : forall dt v, one_partner input dt -> yo_renorm o' = yo_renorm o ->
  (In (dt, v) (yo_values o') <-> In (dt, v) (yo_values o) /\ dt <= b /\ exists r, is_partner input dt r /\ a <= fst r).
Proof.
  intros dt v H1 ER. rewrite (value_iff _ _ _ _ _ _ _ _ _ _ dt v sortv_ok distinct whole H1). split.
  - intros Hv. destruct (cut_sound dt v Hv) as (Hb & Nv & e & r & A & B & C & D). rewrite ER in D. split; [split; [exact Nv |]; exists e, r; auto |].
    split; [exact Hb |]. exists r. auto.
  - intros ((Nv & e & r & A & B & C) & Hb & r0 & B0 & W0). assert (r0 = r) as -> by (apply H1; assumption).
    assert (is_partner (between a b input) dt r) as B' by (apply partner_between; auto).
    apply (value_iff _ _ _ _ _ _ _ _ _ _ dt v sortv_ok' (nodup_part _) part).
    + intros r1 r2 P1 P2. apply partner_between in P1; [| exact cut | exact Hb]. apply partner_between in P2; [| exact cut | exact Hb]. apply H1; tauto.
    + split; [exact Nv |]. exists e, r. split; [| split; [exact B' | rewrite ER; exact C]].
      apply between_In. split; [exact A |]. cbn [fst]. destruct B as (_ & t' & L & L2 & _). pose proof (later _ _ L). lia.
Qed.
End Cut.

(** ** Adding data at the end *)

Lemma isort_row_filter : forall f s, NoDup (times s) -> sort_index (filter f s) = filter f (sort_index s).
Proof.
  intros f s HN. assert (forall l, StronglySorted (fun a b => row_le a b = true) l -> sort_index l = l) as K.
  { intros l Hl. apply isort_fixed. exact Hl. }
  rewrite <- (K (filter f (sort_index s))).
  - apply sort_index_perm_eq; [apply nodup_part; exact HN |]. clear. assert (Permutation s (sort_index s)) as P by apply isort_perm.
    induction P; cbn [filter]; repeat match goal with |- context [if ?c then _ else _] => destruct c end; auto; try apply perm_swap. eapply perm_trans; eassumption.
  - apply StronglySorted_filter. apply isort_sorted; [apply row_le_total | apply row_le_trans].
Qed.

Lemma earliest_up_to : forall b input, NoDup (times input) -> up_to b input <> [] -> earliest (up_to b input) = earliest input.
Proof.
  intros b input HN Hne. assert (input <> []) as Hi by (intros ->; apply Hne; reflexivity).
  apply (first_unique input); [| apply earliest_first; exact Hi]. destruct (earliest_first _ Hne) as [A B].
  assert (forall t, In t (times (up_to b input)) <-> In t (times input) /\ t <= b) as T.
  { intros t. unfold times. rewrite !in_map_iff. split.
    - intros (r & E & Hr). apply up_to_In in Hr. destruct Hr as [Hr L]. split; [exists r; auto | lia].
    - intros ((r & E & Hr) & L). exists r. split; [exact E |]. apply up_to_In. split; [exact Hr | lia]. }
  apply T in A. destruct A as [A L]. split; [exact A |]. intros t Ht. destruct (Z.le_gt_cases t b) as [C | C]; [apply B, T; auto | lia].
Qed.

Lemma renorm_up_to : forall rc b input first, NoDup (times input) -> up_to b input <> [] -> is_first input first ->
  (rc = true -> first + days 364 <= b) -> renorm_of rc (up_to b input) = renorm_of rc input.
Proof.
  intros rc b input first HN Hne HF Hrc. unfold renorm_of. rewrite (earliest_up_to b input HN Hne).
  assert (input <> []) as Hi by (intros ->; apply Hne; reflexivity).
  rewrite (first_unique input _ _ (earliest_first input Hi) HF). destruct rc; [| reflexivity]. specialize (Hrc eq_refl). unfold renorm_factor.
  unfold up_to. rewrite isort_row_filter by exact HN. f_equal. f_equal.
  assert (forall g h (l : series), (forall r, In r l -> h r = true -> g r = true) -> filter h (filter g l) = filter h l) as K.
  { intros g h l. induction l as [| r l IH]; intros H; [reflexivity |]. cbn [filter]. assert (filter h (filter g l) = filter h l) as E by (apply IH; intros x Hx; apply H; right; exact Hx).
    destruct (g r) eqn:G; cbn [filter]; destruct (h r) eqn:Hr; rewrite E; try reflexivity. rewrite (H r (or_introl eq_refl) Hr) in G. discriminate. }
  apply K. intros r _ Hr. apply andb_true_iff in Hr. destruct Hr as [_ Hr]. apply Z.leb_le in Hr. apply Z.leb_le. change (days 364) with (364 * ns_day) in Hrc. lia.
Qed.

Lemma sorted_same : forall l1 l2 : series, StronglySorted Z.lt (times l1) -> StronglySorted Z.lt (times l2) -> (forall p, In p l1 <-> In p l2) -> l1 = l2.
Proof.
  induction l1 as [| p l1 IH]; intros l2 S1 S2 H.
  - destruct l2 as [| q l2]; [reflexivity |]. exfalso. apply (proj2 (H q)). left. reflexivity.
  - destruct l2 as [| q l2]; [exfalso; apply (proj1 (H p)); left; reflexivity |].
    cbn [times map] in S1, S2. apply StronglySorted_inv in S1. destruct S1 as [S1 F1]. apply StronglySorted_inv in S2. destruct S2 as [S2 F2]. rewrite Forall_forall in F1, F2.
    assert (forall x, In x l1 -> fst p < fst x) as G1 by (intros x Hx; apply F1; apply in_map; exact Hx).
    assert (forall x, In x l2 -> fst q < fst x) as G2 by (intros x Hx; apply F2; apply in_map; exact Hx).
    assert (p = q) as <-.
    { destruct (proj1 (H p) (or_introl eq_refl)) as [E | A]; [auto |]. destruct (proj2 (H q) (or_introl eq_refl)) as [E | B]; [auto |]. pose proof (G1 _ B). pose proof (G2 _ A). lia. }
    f_equal. apply IH; [exact S1 | exact S2 |]. intros x. split; intros Hx.
    + destruct (proj1 (H x) (or_intror Hx)) as [<- | A]; [pose proof (G1 _ Hx); lia | exact A].
    + destruct (proj2 (H x) (or_intror Hx)) as [<- | A]; [pose proof (G2 _ Hx); lia | exact A].
Qed.

Lemma past_kept : forall infer infer' sortv sortv' choice choice' starts starts' rc ep cl ep' cl' m m' input b o o' first,
  sorts_by_shifted sortv -> sorts_by_shifted sortv' -> NoDup (times input) -> no_clash input ->
  is_first input first -> (rc = true -> first + days 364 <= b) ->
  degradation_year_on_year infer sortv choice starts rc ep cl m input = Ok o ->
  degradation_year_on_year infer' sortv' choice' starts' rc ep' cl' m' (up_to b input) = Ok o' ->
  yo_renorm o' = yo_renorm o /\ yo_values o' = filter (fun p => fst p <=? b) (yo_values o).
Proof.
  intros infer infer' sortv sortv' choice choice' starts starts' rc ep cl ep' cl' m m' input b o o' first HS HS' HN HC HF Hrc H H'.
  assert (up_to b input = between first b input) as EU.
  { unfold up_to, between. apply filter_ext_in. intros r Hr. destruct HF as [_ HF]. assert (first <= fst r) as L by (apply HF; unfold times; apply in_map; exact Hr).
    apply Z.leb_le in L. rewrite L. reflexivity. }
  assert (clean_cut input first) as CC by (apply no_cut; apply HF).
  assert (yo_renorm o' = yo_renorm o) as ER.
  { destruct (full_core _ _ _ _ _ _ _ _ _ _ H) as (q & rows & HQ & _ & _ & E1 & _). destruct (full_core _ _ _ _ _ _ _ _ _ _ H') as (q' & rows' & HQ' & _ & _ & E2 & _).
    destruct (core_Ok _ _ _ _ _ _ _ HQ) as (_ & _ & _ & _ & R1 & _). destruct (core_Ok _ _ _ _ _ _ _ HQ') as (Hne & _ & _ & _ & R2 & _).
    rewrite E1, E2, R1, R2. apply (renorm_up_to rc b input first); auto. }
  split; [exact ER |].
  assert (NoDup (times (up_to b input))) as HN' by (apply nodup_part; exact HN).
  apply sorted_same.
  - exact (yoy_values_once _ _ _ _ _ _ _ _ _ _ HN' H').
  - assert (times (filter (fun p => fst p <=? b) (yo_values o)) = filter (fun t => t <=? b) (times (yo_values o))) as ->.
    { unfold times. generalize (yo_values o) as l. induction l as [| p l IH]; [reflexivity |]. cbn [filter map]. destruct (fst p <=? b); cbn [map]; rewrite IH; reflexivity. }
    apply StronglySorted_filter. exact (yoy_values_once _ _ _ _ _ _ _ _ _ _ HN H).
  - intros [dt v]. rewrite filter_In. cbn [fst]. rewrite Z.leb_le. rewrite EU in H'.
    assert (one_partner input dt) as H1.
    { intros r r' A B. apply (nodup_fst_inj input); [exact HN | apply A | apply B | exact (partner_unique input dt r r' HC A B)]. }
    rewrite (cut_values infer infer' sortv sortv' choice choice' starts starts' rc rc ep cl ep' cl' m m' input first b o o' HS HS' HN CC H H' dt v H1 ER).
    split; [tauto |]. intros [A B]. split; [exact A |]. split; [exact B |].
    destruct (yoy_values_sound _ _ _ _ _ _ _ _ _ _ HS H dt v A) as (_ & e & r & _ & P & _). exists r. split; [exact P |]. apply HF. unfold times. apply in_map. apply P.
Qed.
