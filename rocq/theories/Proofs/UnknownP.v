(** Year-on-year with rows that have no value. *)

From Coq Require Import QArith Qcanon List ZArith Bool Permutation Sorted Lia.
From Verif.Base Require Import QcExtra ISort Quantile Fl Calendar.
From Verif.Spec Require Import Stats Time YoY Window Wrong Unknown.
From Verif.Model Require Import Utilities Bootstrap YearOnYear.
From Verif.Proofs Require Import StatsP FlP YoYP YoYP2 YoYP3 WindowP WrongP.
Import ListNotations.
Open Scope Z_scope.
Opaque add_years.

Lemma known_In : forall x r, In r (known_rows x) <-> In r x /\ snd r <> NaN.
Proof. intros x [t v]. unfold known_rows. rewrite filter_In. cbn [snd]. destruct v; split; intros [A B]; split; auto; try discriminate; congruence. Qed.

Lemma partner_known : forall x dt r, is_partner x dt r -> snd r <> NaN -> is_partner (known_rows x) dt r.
Proof.
  intros x dt r (I & t' & L & B & C & M) N. split; [apply known_In; split; assumption |]. exists t'. split; [exact L |]. split; [exact B |]. split; [exact C |].
  intros r2 t2 I2. apply known_In in I2. apply M. apply I2.
Qed.
Lemma known_partner : forall x dt r, is_partner (known_rows x) dt r -> is_partner x dt r \/ hidden x dt r.
Proof.
  intros x dt r P. pose proof P as (I & t' & L & B & C & M). apply known_In in I. destruct I as [I N].
  destruct (existsb (fun s => match snd s with NaN => (t' <? add_years 1 (fst s)) && (add_years 1 (fst s) <=? dt) | _ => false end) x) eqn:E.
  - right. split; [exact P |]. apply existsb_exists in E. destruct E as ([t v] & J & E). cbn [fst snd] in E. destruct v; try discriminate. apply andb_true_iff in E. destruct E as [E1 E2].
    apply Z.ltb_lt in E1. apply Z.leb_le in E2. exists t, t', (add_years 1 t). split; [exact J |]. split; [exact L |]. split; [apply add_years_one_spec | lia].
  - left. split; [exact I |]. exists t'. split; [exact L |]. split; [exact B |]. split; [exact C |]. intros [t v] t2 J L2 B2. cbn [fst] in L2.
    destruct (Z.le_gt_cases t2 t') as [K | K]; [exact K |]. exfalso. destruct (isnan v) eqn:V.
    + assert (existsb (fun s => match snd s with NaN => (t' <? add_years 1 (fst s)) && (add_years 1 (fst s) <=? dt) | _ => false end) x = true) as F; [| congruence].
      apply existsb_exists. exists (t, v). split; [exact J |]. cbn [fst snd]. destruct v; try discriminate. apply one_year_later_eq in L2. subst t2. apply andb_true_iff. split; [apply Z.ltb_lt | apply Z.leb_le]; lia.
    + assert (t2 <= t') by (apply (M (t, v)); [apply known_In; split; [exact J | cbn; intros ->; discriminate] | exact L2 | exact B2]). lia.
Qed.
Lemma hidden_not : forall x dt r, hidden x dt r -> ~ is_partner x dt r.
Proof.
  intros x dt r (_ & t & t1 & t2 & I & L1 & L2 & B) (_ & t' & L & _ & _ & M). apply one_year_later_eq in L, L1. subst t' t1. specialize (M (t, NaN) t2 I L2 ltac:(lia)). lia.
Qed.

Section Two.
Variables (infer infer' : list Z -> option (Z -> Z)) (sortv sortv' : series -> series) (choice choice' : nat -> list (list nat)) (starts starts' : list (list nat)).
Variables (rc rc' : bool) (ep cl ep' cl' : Qc) (m m' : umethod) (x : series) (o o' : yoy_out).
Hypothesis (sort_ok : sorts_by_shifted sortv) (sort_ok' : sorts_by_shifted sortv') (distinct : NoDup (times x)).
Hypothesis (all_run : degradation_year_on_year infer sortv choice starts rc ep cl m x = Ok o).
Hypothesis (known_run : degradation_year_on_year infer' sortv' choice' starts' rc' ep' cl' m' (known_rows x) = Ok o').
Hypothesis (same_factor : yo_renorm o' = yo_renorm o).

Lemma known_nodup : NoDup (times (known_rows x)).
Proof. apply nodup_part. exact distinct. Qed.

Lemma known_values : forall dt v, one_partner x dt -> one_partner (known_rows x) dt ->
  (In (dt, v) (yo_values o) <-> In (dt, v) (yo_values o') /\ forall r, ~ hidden x dt r).
Proof.
  intros dt v O O'. rewrite (value_iff _ _ _ _ _ _ _ _ _ _ dt v sort_ok distinct all_run O), (value_iff _ _ _ _ _ _ _ _ _ _ dt v sort_ok' known_nodup known_run O'). rewrite same_factor.
  split.
  - intros (N & e & r & I & P & E). assert (e <> NaN /\ snd r <> NaN) as [Ne Nr] by (split; intros K; apply N; rewrite E; apply pair_value_nan; auto).
    split; [split; [exact N |]; exists e, r; split; [apply known_In; split; [exact I | exact Ne] |]; split; [apply partner_known; assumption | exact E] |].
    intros r' H. pose proof (proj1 H) as P'. assert (r' = r) as -> by (apply O'; [exact P' | apply partner_known; assumption]). exact (hidden_not _ _ _ H P).
  - intros ((N & e & r & I & P & E) & H). split; [exact N |]. exists e, r. apply known_In in I. split; [apply I |]. split; [| exact E]. destruct (known_partner x dt r P) as [Q | Q]; [exact Q | exfalso; exact (H r Q)].
Qed.
End Two.

(** ** Complete daily index *)

Lemma daily_value : forall infer sortv choice starts rc ep cl m x first last o dt v,
  sorts_by_shifted sortv -> NoDup (times x) -> daily_from first last x -> In dt (times x) -> ~ late_february dt ->
  degradation_year_on_year infer sortv choice starts rc ep cl m x = Ok o ->
  (In (dt, v) (yo_values o) <-> v <> NaN /\ exists t0 e0 e, one_year_later t0 dt /\ In (t0, e0) x /\ In (dt, e) x /\ v = pair_value (yo_renorm o) dt e (t0, e0)).
Proof.
  intros infer sortv choice starts rc ep cl m x first last o dt v HS N D I F R. destruct (daily_partner first last x dt D I F) as (t0 & L & U).
  assert (one_partner x dt) as O by (apply (daily_affected first last x (fun _ => False) dt D N I F); [intros [] | intros t []]).
  rewrite (value_iff _ _ _ _ _ _ _ _ _ _ dt v HS N R O). split.
  - intros (Nv & e & [t e0] & Ie & P & E). split; [exact Nv |]. pose proof (U _ P) as T. cbn [fst] in T. subst t. exists t0, e0, e. split; [exact L |]. split; [apply P |]. split; [exact Ie | exact E].
  - intros (Nv & t & e0 & e & Lt & I0 & Ie & E). split; [exact Nv |]. exists e, (t, e0). split; [exact Ie |]. split; [| exact E]. split; [exact I0 |]. exists dt.
    split; [exact Lt |]. unfold eight_days. split; [lia |]. split; [lia |]. intros r2 t2 _ _ B. exact B.
Qed.

Lemma daily_origin : forall first last x dt t0 t1, daily_from first last x -> ~ late_february dt -> In t0 (times x) -> In t1 (times x) -> In dt (times x) ->
  one_year_later t0 dt -> one_year_later t1 dt -> t0 = t1.
Proof.
  intros first last x dt t0 t1 D F I0 I1 I L0 L1. destruct (daily_partner first last x dt D I F) as (t & _ & U).
  assert (forall s, In s (times x) -> one_year_later s dt -> s = t) as K.
  { intros s Is Ls. apply in_map_iff in Is. destruct Is as ([s' e] & E & J). cbn in E. subst s'. apply (U (s, e)). split; [exact J |]. exists dt. split; [exact Ls |]. unfold eight_days. split; [lia |]. split; [lia |]. intros r2 t2 _ _ B. exact B. }
  rewrite (K t0 I0 L0), (K t1 I1 L1). reflexivity.
Qed.
