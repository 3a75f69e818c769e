(** Year-on-year with a few wrong values. *)

From Coq Require Import QArith Qcanon List ZArith Bool Permutation Sorted Lia.
From Verif.Base Require Import QcExtra ISort Quantile Fl Calendar.
From Verif.Spec Require Import Stats Time YoY Window Wrong.
From Verif.Model Require Import Utilities Bootstrap YearOnYear.
From Verif.Proofs Require Import StatsP FlP YoYP YoYP2 YoYP3 WindowP.
Import ListNotations.
Open Scope Z_scope.
Opaque add_years.

(** ** Partners *)

Lemma differ_sym : forall bad x y, differ_at bad x y -> differ_at bad y x.
Proof. intros bad x y [T V]. split; [intros t; symmetry; apply T | intros t v N; symmetry; apply V; exact N]. Qed.

Lemma partner_moves : forall bad x y dt t v w, differ_at bad x y -> is_partner x dt (t, v) -> In (t, w) y -> is_partner y dt (t, w).
Proof.
  intros bad x y dt t v w [T _] (_ & t' & L & B & C & M) I. split; [exact I |]. exists t'. split; [exact L |]. split; [exact B |]. split; [exact C |].
  intros [u e] t2 I2 L2 B2. cbn [fst] in *. assert (In u (times x)) as J by (apply T; apply (in_map fst) in I2; exact I2).
  apply in_map_iff in J. destruct J as ([u' e'] & E & J). cbn in E. subst u'. exact (M (u, e') t2 J L2 B2).
Qed.
Lemma partner_kept : forall bad x y dt r, differ_at bad x y -> is_partner x dt r -> ~ bad (fst r) -> is_partner y dt r.
Proof.
  intros bad x y dt [t v] D P N. eapply partner_moves; [exact D | exact P |]. apply (proj2 D); [exact N |]. apply P.
Qed.
Lemma partner_row : forall bad x y dt t w, differ_at bad x y -> is_partner y dt (t, w) -> exists v, is_partner x dt (t, v).
Proof.
  intros bad x y dt t w D P. assert (In t (times x)) as J by (apply (proj1 D); destruct P as [I _]; apply (in_map fst) in I; exact I).
  apply in_map_iff in J. destruct J as ([u v] & E & J). cbn in E. subst u. exists v. eapply partner_moves; [apply differ_sym; exact D | exact P | exact J].
Qed.

Lemma kept_points : forall bad x y dt, differ_at bad x y -> NoDup (times y) -> ~ affected x bad dt -> one_partner x dt ->
  one_partner y dt /\ forall r, is_partner x dt r <-> is_partner y dt r.
Proof.
  intros bad x y dt D N A O.
  assert (forall r, is_partner x dt r -> is_partner y dt r) as F.
  { intros r P. eapply partner_kept; [exact D | exact P |]. intros B. apply A. right. left. exists r. split; assumption. }
  assert (forall r, is_partner y dt r -> is_partner x dt r) as G.
  { intros [t w] P. destruct (partner_row _ _ _ _ _ _ D P) as [v Q]. assert (v = w) as ->; [| exact Q]. apply (one_value y t v w N); [apply (F _ Q) | apply P]. }
  split; [| intros r; split; [apply F | apply G]]. intros r r' P Q. apply O; apply G; assumption.
Qed.

Section Two.
Variables (infer infer' : list Z -> option (Z -> Z)) (sortv sortv' : series -> series) (choice choice' : nat -> list (list nat)) (starts starts' : list (list nat)).
Variables (rc rc' : bool) (ep cl ep' cl' : Qc) (m m' : umethod) (x y : series) (bad : Z -> Prop) (o o' : yoy_out).
Hypothesis (sort_ok : sorts_by_shifted sortv) (sort_ok' : sorts_by_shifted sortv') (distinct : NoDup (times x)) (distinct' : NoDup (times y)) (differ : differ_at bad x y).
Hypothesis (right_run : degradation_year_on_year infer sortv choice starts rc ep cl m x = Ok o).
Hypothesis (wrong_run : degradation_year_on_year infer' sortv' choice' starts' rc' ep' cl' m' y = Ok o').
Hypothesis (same_factor : yo_renorm o' = yo_renorm o).

Lemma unaffected_values : forall dt v, ~ affected x bad dt -> one_partner x dt -> (In (dt, v) (yo_values o') <-> In (dt, v) (yo_values o)).
Proof.
  intros dt v A O. destruct (kept_points bad x y dt differ distinct' A O) as [O' P].
  rewrite (value_iff _ _ _ _ _ _ _ _ _ _ dt v sort_ok distinct right_run O), (value_iff _ _ _ _ _ _ _ _ _ _ dt v sort_ok' distinct' wrong_run O').
  rewrite same_factor. assert (~ bad dt) as B by (intros B; apply A; left; exact B).
  split; intros (N & e & r & I & Q & E); (split; [exact N |]); exists e, r; (split; [apply (proj2 differ); assumption |]); (split; [apply P; exact Q | exact E]).
Qed.
End Two.

(** ** The median of a list most of which lies between two numbers *)

Open Scope Qc_scope.
Lemma perm_filter_length : forall (f : Qc -> bool) l l', Permutation l l' -> length (filter f l) = length (filter f l').
Proof. intros f l l' P. induction P; cbn [filter]; repeat match goal with |- context [if ?c then _ else _] => destruct c end; cbn [length]; congruence. Qed.
Lemma all_filter : forall (f : Qc -> bool) l, (forall a, In a l -> f a = true) -> filter f l = l.
Proof. intros f l. induction l as [| a l IH]; intros H; [reflexivity |]. cbn [filter]. rewrite (H a (or_introl eq_refl)). f_equal. apply IH. intros b B. apply H. right. exact B. Qed.
Lemma sorted_tail : forall s k, StronglySorted (fun a b => a <= b) s -> forall c, In c (skipn k s) -> nth k s 0 <= c.
Proof.
  intros s. induction s as [| a s IH]; intros k S c I; [destruct k; contradiction |]. apply StronglySorted_inv in S. destruct S as [S F]. destruct k as [| k].
  - cbn [skipn nth] in *. destruct I as [<- | I]; [apply Qcle_refl |]. rewrite Forall_forall in F. apply F. exact I.
  - cbn [skipn nth] in *. apply IH; assumption.
Qed.
Lemma above_count : forall s k hi, StronglySorted (fun a b => a <= b) s -> hi < nth k s 0 -> (length s - k <= length (filter (fun a => qlt hi a) s))%nat.
Proof.
  intros s k hi S H. rewrite <- (firstn_skipn k s) at 2. rewrite filter_app, app_length, (all_filter _ (skipn k s)).
  - rewrite skipn_length. lia.
  - intros c I. pose proof (sorted_tail s k S c I). apply qlt_spec. qlra.
Qed.
Lemma majority_below : forall l md hi, is_median l md -> (2 * length (filter (fun a => qlt hi a) l) < length l)%nat -> md <= hi.
Proof.
  intros l md hi (s & [P S] & M) C. rewrite (perm_filter_length _ _ _ P), (Permutation_length P) in C.
  assert (StronglySorted (fun a b => a <= b) s) as SS by (apply Sorted_StronglySorted; [intros a b c; apply Qcle_trans | exact S]).
  assert (forall k, (2 * (length s - k) >= length s)%nat -> nth k s 0 <= hi) as K.
  { intros k Hk. destruct (Qclt_le_dec hi (nth k s 0)) as [L | L]; [| exact L]. pose proof (above_count s k hi SS L). lia. }
  destruct M as [(k & Hk & ->) | (k & Hk & ->)]; [apply K; lia |].
  assert (nth k s 0 <= hi) by (apply K; lia). assert (nth (k + 1) s 0 <= hi) by (apply K; lia).
  apply Qc_div_le; [apply qz_pos; lia |]. replace (hi * qz 2) with (hi + hi) by (change (qz 2) with (1 + 1); ring). qlra.
Qed.
Lemma median_opp : forall l md, is_median l md -> l <> [] -> is_median (map Qcopp l) (- md).
Proof.
  intros l md M N. apply is_median_unique in M; [| exact N]. subst md. rewrite <- qmedian_opp by exact N. apply qmedian_spec. destruct l; [congruence | discriminate].
Qed.
Lemma majority_above : forall l md lo, l <> [] -> is_median l md -> (2 * length (filter (fun a => qlt a lo) l) < length l)%nat -> lo <= md.
Proof.
  intros l md lo N M C. pose proof (majority_below _ _ (- lo) (median_opp l md M N)) as H. rewrite map_length in H.
  enough (- md <= - lo) by qlra. apply H. replace (length (filter (fun a => qlt (- lo) a) (map Qcopp l))) with (length (filter (fun a => qlt a lo) l)); [exact C |].
  clear. induction l as [| a l IH]; [reflexivity |]. cbn [map filter]. assert (qlt (- lo) (- a) = qlt a lo) as ->.
  { destruct (qlt a lo) eqn:E; [apply qlt_spec in E; apply qlt_spec; qlra |]. destruct (qlt (- lo) (- a)) eqn:F; [apply qlt_spec in F | reflexivity].
    assert (a < lo) as G by qlra. apply qlt_spec in G. congruence. }
  destruct (qlt a lo); cbn [length]; rewrite IH; reflexivity.
Qed.

Lemma outside_count : forall (values : series) qs (f : Qc -> bool) (A : list Z), NoDup (times values) -> vals values = map Fin qs ->
  (forall dt q, In (dt, Fin q) values -> f q = true -> In dt A) -> (length (filter f qs) <= length A)%nat.
Proof.
  intros values qs f A N E H. set (L := map fst (filter (fun r => match snd r with Fin q => f q | _ => false end) values)).
  assert (length (filter f qs) = length L) as ->.
  { unfold L. rewrite map_length. clear N H L. revert qs E. induction values as [| [t v] values IH]; intros qs E; [destruct qs; [reflexivity | discriminate] |].
    destruct qs as [| q qs]; [discriminate |]. cbn [vals map snd] in E. injection E as -> E. cbn [filter snd]. destruct (f q); cbn [length]; rewrite (IH qs E); reflexivity. }
  apply NoDup_incl_length.
  - unfold L. clear - N. induction values as [| r values IH]; [constructor |]. cbn [times map] in N. apply NoDup_cons_iff in N. destruct N as [N D]. cbn [filter].
    destruct (match snd r with Fin q => f q | _ => false end); [| exact (IH D)]. cbn [map]. constructor; [| exact (IH D)]. intros C. apply N. apply in_map_iff in C. destruct C as (s & E & I). apply filter_In in I.
    rewrite <- E. apply in_map. apply I.
  - intros dt I. unfold L in I. apply in_map_iff in I. destruct I as ([t v] & E' & I). cbn [fst] in E'. subst t. apply filter_In in I. destruct I as [I F]. cbn [snd] in F. destruct v as [| | q |]; try discriminate. exact (H dt q I F).
Qed.

Lemma sorted_nodup : forall l, StronglySorted Z.lt l -> NoDup l.
Proof. intros l S. induction S as [| a l _ IH F]; constructor; [| exact IH]. intros I. rewrite Forall_forall in F. specialize (F a I). lia. Qed.

Lemma rate_between : forall infer infer' sortv sortv' choice choice' starts starts' rc rc' ep cl ep' cl' m m' x y bad o o' (A : list Z) qs lo hi,
  sorts_by_shifted sortv -> sorts_by_shifted sortv' -> NoDup (times x) -> NoDup (times y) -> differ_at bad x y ->
  degradation_year_on_year infer sortv choice starts rc ep cl m x = Ok o ->
  degradation_year_on_year infer' sortv' choice' starts' rc' ep' cl' m' y = Ok o' ->
  yo_renorm o' = yo_renorm o ->
  (forall dt, In dt (times x) -> ~ In dt A -> ~ affected x bad dt /\ one_partner x dt) ->
  vals (yo_values o') = map Fin qs -> (2 * length A < length qs)%nat ->
  (forall dt q, In (dt, Fin q) (yo_values o) -> ~ In dt A -> lo <= q /\ q <= hi) ->
  exists q, yo_rate o' = Fin q /\ lo <= q /\ q <= hi.
Proof.
  intros infer infer' sortv sortv' choice choice' starts starts' rc rc' ep cl ep' cl' m m' x y bad o o' A qs lo hi HS HS' HN HN' HD R W F HA HQ C HB.
  destruct (yoy_median _ _ _ _ _ _ _ _ _ _ W) as [NE HM]. destruct (HM qs HQ) as (q & E & M & _). exists q. split; [exact E |].
  pose proof (sorted_nodup _ (yoy_values_once _ _ _ _ _ _ _ _ _ _ HN' W)) as ND.
  assert (forall dt p, In (dt, Fin p) (yo_values o') -> ~ In dt A -> lo <= p /\ p <= hi) as HB'.
  { intros dt p I NA. apply (HB dt p); [| exact NA].
    assert (In dt (times x)) as T.
    { destruct (yoy_values_sound _ _ _ _ _ _ _ _ _ _ HS' W dt (Fin p) I) as (_ & e & _ & K & _). apply (proj1 HD). apply (in_map fst) in K. exact K. }
    destruct (HA dt T NA) as [N1 N2].
    apply (unaffected_values infer infer' sortv sortv' choice choice' starts starts' rc rc' ep cl ep' cl' m m' x y bad o o' HS HS' HN HN' HD R W F dt (Fin p) N1 N2). exact I. }
  assert (qs <> []) as NQ by (intros ->; cbn in C; lia).
  split.
  - apply (majority_above qs q lo NQ M). assert (length (filter (fun a => qlt a lo) qs) <= length A)%nat; [| lia].
    apply (outside_count (yo_values o')); [exact ND | exact HQ |]. intros dt p I L. destruct (in_dec Z.eq_dec dt A) as [Y | N]; [exact Y |]. apply qlt_spec in L. destruct (HB' dt p I N). exfalso. qlra.
  - apply (majority_below qs q hi M). assert (length (filter (fun a => qlt hi a) qs) <= length A)%nat; [| lia].
    apply (outside_count (yo_values o')); [exact ND | exact HQ |]. intros dt p I L. destruct (in_dec Z.eq_dec dt A) as [Y | N]; [exact Y |]. apply qlt_spec in L. destruct (HB' dt p I N). exfalso. qlra.
Qed.

(** ** Daily data *)

Open Scope Z_scope.
Definition land (z : Z) : Z := day_of_civil (add_years_date 1 (civil_of_day z)).
Transparent add_years.
Lemma land_midnight : forall z, add_years 1 (z * ns_day) = land z * ns_day.
Proof. intros z. unfold add_years, ts_date, ts_day. pose proof ns_day_pos. rewrite Z.div_mul, Z.mod_mul by lia. unfold land. lia. Qed.
Opaque add_years.

Lemma land_strict : forall y m d, valid_date (mkdate y m d) -> (m, d) <> (2, 29) -> land (day_of_civil (mkdate y m d) - 1) < land (day_of_civil (mkdate y m d)).
Proof. exact landing_strict. Qed.
Lemma land_mono : forall z1 z2, z1 <= z2 -> land z1 <= land z2.
Proof. exact add_one_year_day_mono. Qed.
Opaque land.

Lemma days_other_year : forall y y' m d, 1 <= m <= 12 -> (m, d) <> (2, 29) -> d <= days_in_month y m -> d <= days_in_month y' m.
Proof.
  intros y y' m d M N D. unfold days_in_month in *. destruct (m =? 2) eqn:E; [| exact D]. apply Z.eqb_eq in E. subst m.
  assert (d <> 29) by (intros ->; apply N; reflexivity). destruct (leap y), (leap y'); lia.
Qed.

Lemma daily_partner : forall first last x dt, daily_from first last x -> In dt (times x) -> ~ late_february dt -> exists t0, one_year_later t0 dt /\ forall r, is_partner x dt r -> fst r = t0.
Proof.
  intros first last x dt D I NF. pose proof ns_day_pos as NS. destruct (proj1 (D dt) I) as (z & Hz & ->).
  destruct (civil_of_day_spec z) as [V Ez]. destruct (civil_of_day z) as [y mo d] eqn:Ec. clear Ec.
  assert ((mo, d) <> (2, 28) /\ (mo, d) <> (2, 29)) as [N28 N29].
  { split; intros E; injection E as -> ->; apply NF; exists y; [exists 28 | exists 29]; (split; [auto |]); (split; [exact V |]); rewrite Ez; reflexivity. }
  assert (valid_date (mkdate (y - 1) mo d)) as V'.
  { destruct V as [V1 V2]. cbn [d_year d_month d_day] in *. split; cbn [d_year d_month d_day]; [exact V1 |]. split; [apply V2 |]. apply (days_other_year y (y - 1) mo d V1 N29). apply V2. }
  remember (day_of_civil (mkdate (y - 1) mo d)) as z' eqn:Hz'.
  assert (one_year_later (z' * ns_day) (z * ns_day)) as HO.
  { exists (y - 1), mo, d, 0. split; [exact V' |]. split; [lia |]. split; [lia |]. replace (y - 1 + 1) with y by lia.
    destruct ((mo =? 2) && (d =? 29))%bool eqn:E; [| rewrite Ez; lia]. apply andb_true_iff in E. destruct E as [E1 E2]. apply Z.eqb_eq in E1, E2. subst. exfalso. apply N29. reflexivity. }
  pose proof (one_year_later_eq _ _ HO) as EL. rewrite land_midnight in EL. apply Z.mul_reg_r in EL; [| lia].
  exists (z' * ns_day). split; [exact HO |]. intros r (Ir & t' & L & B & _ & M). destruct (proj1 (D (fst r)) (in_map fst _ _ Ir)) as (zr & Hzr & Er).
  rewrite Er in *. apply one_year_later_eq in L. rewrite land_midnight in L. subst t'. assert (land zr <= z) as LZ by nia.
  destruct (Z.lt_trichotomy zr z') as [C | [-> | C]]; [| reflexivity |].
  - exfalso. pose proof (land_strict (y - 1) mo d V' N29) as S. rewrite <- Hz' in S.
    pose proof (land_mono zr (z' - 1) ltac:(lia)) as Q.
    assert (z' < z) as ZZ. { pose proof (later _ _ HO). nia. }
    assert (In (z' * ns_day) (times x)) as J by (apply D; exists z'; split; [lia | reflexivity]). apply in_map_iff in J. destruct J as ([u e] & E & J). cbn in E. subst u.
    assert (z * ns_day <= land zr * ns_day) as K by (apply (M (z' * ns_day, e)); [exact J | exact HO | lia]). nia.
  - exfalso. destruct (civil_of_day_spec (z' + 1)) as [V1 E1]. destruct (civil_of_day (z' + 1)) as [y1 m1 d1] eqn:C1.
    assert ((m1, d1) <> (2, 29)) as N1.
    { intros E. injection E as -> ->. assert (valid_date (mkdate y1 2 28)) as V28 by (destruct V1 as [A1 A2]; cbn [d_year d_month d_day] in *; split; cbn [d_year d_month d_day]; lia).
      pose proof (day_of_civil_next _ V28) as X. unfold next_day in X. cbn [d_year d_month d_day] in X. destruct V1 as [_ V1]. cbn [d_year d_month d_day] in V1.
      assert (28 <? days_in_month y1 2 = true) as T by (apply Z.ltb_lt; lia). rewrite T in X. change (28 + 1) with 29 in X.
      assert (day_of_civil (mkdate y1 2 28) = z') as X' by lia. rewrite Hz' in X'. apply (f_equal civil_of_day) in X'. rewrite !civil_of_day_inv in X' by assumption. injection X' as _ <- <-. apply N28. reflexivity. }
    pose proof (land_strict y1 m1 d1 V1 N1) as S. rewrite E1 in S. replace (z' + 1 - 1) with z' in S by lia.
    pose proof (land_mono (z' + 1) zr ltac:(lia)) as Q. lia.
Qed.

Lemma daily_affected : forall first last x bad dt, daily_from first last x -> NoDup (times x) -> In dt (times x) -> ~ late_february dt ->
  ~ bad dt -> (forall t, bad t -> ~ one_year_later t dt) -> ~ affected x bad dt /\ one_partner x dt.
Proof.
  intros first last x bad dt D N I F B Y. destruct (daily_partner first last x dt D I F) as (t0 & L & U).
  assert (one_partner x dt) as O.
  { intros [t v] [t' v'] P Q. pose proof (U _ P) as E. pose proof (U _ Q) as E'. cbn [fst] in *. subst t t'. f_equal. apply (one_value x t0 v v' N); [apply P | apply Q]. }
  split; [| exact O]. intros [A | [(r & P & A) | A]]; [exact (B A) | | exact (A O)]. apply (Y (fst r) A). rewrite (U r P). exact L.
Qed.
