(** Energies as the record grows. *)

From Coq Require Import QArith Qcanon List ZArith Bool Arith Lia Sorted.
From Verif.Base Require Import QcExtra ISort Quantile Fl TimeSeries Rolling Segments.
From Verif.Spec Require Import Stats Interp Energy Window.
From Verif.Model Require Import Interpolation Energy.
From Verif.Proofs Require Import StatsP InterpP EnergyP EnergyP2 EnergyP3 EnergyP4 EnergyP5 EnergyP6 WindowP.
Import ListNotations.
Open Scope list_scope.
Open Scope Qc_scope.

(** ** Lists *)
Definition last_one {A} (l : list A) : list A := skipn (length l - 1) l.

Lemma last_one_In : forall A (l : list A) x, In x (last_one l) -> In x l.
Proof. intros A l x H. unfold last_one in H. rewrite <- (firstn_skipn (length l - 1) l). apply in_or_app. right. exact H. Qed.

Lemma consec_app : forall A (l l' : list A), consec (l ++ l') = consec l ++ consec (last_one l ++ l').
Proof.
  intros A l l'. induction l as [| a l IH]; [reflexivity |]. destruct l as [| b l]; [reflexivity |].
  change ((a :: b :: l) ++ l') with (a :: b :: l ++ l'). rewrite !consec_cons. change (b :: l ++ l') with ((b :: l) ++ l'). rewrite IH.
  cbn [app]. f_equal. f_equal. unfold last_one. cbn [length]. rewrite !Nat.sub_succ, !Nat.sub_0_r. reflexivity.
Qed.

Lemma last_one_max : forall A (f : A -> Z) l x y, StronglySorted Z.lt (map f l) -> In x (last_one l) -> In y l -> (f y <= f x)%Z.
Proof.
  intros A f l x y. induction l as [| a l IH]; intros S Hx Hy; [destruct Hy |].
  cbn [map] in S. apply StronglySorted_inv in S. destruct S as [S F]. rewrite Forall_forall in F. destruct l as [| b l].
  - destruct Hx as [<- | []]. destruct Hy as [<- | []]. lia.
  - assert (In x (last_one (b :: l))) as Hx' by (unfold last_one in *; cbn [length] in *; rewrite !Nat.sub_succ, !Nat.sub_0_r in *; exact Hx).
    destruct Hy as [<- | Hy]; [| exact (IH S Hx' Hy)]. assert (f a < f x)%Z; [| lia]. apply F. apply in_map, last_one_In, Hx'.
Qed.

Lemma points_app : forall s s', points (s ++ s') = points s ++ points s'.
Proof. induction s as [| [t [| | q |]] s IH]; intros s'; cbn [app points]; rewrite ?IH; reflexivity. Qed.

Lemma qsum_zeros : forall A (f : A -> Qc) l, (forall x, In x l -> f x = 0) -> qsum (map f l) = 0.
Proof.
  intros A f l. induction l as [| a l IH]; intros H; [reflexivity |]. cbn [map]. change (qsum (f a :: map f l)) with (f a + qsum (map f l)). rewrite (H a (or_introl eq_refl)), IH; [ring |].
  intros x Hx. apply H. right. exact Hx.
Qed.

Lemma hours_0 : hours 0 = 0.
Proof. unfold hours. change (qz 0) with 0. unfold Qcdiv. ring. Qed.

Lemma sorted_split : forall l m : list Z, StronglySorted Z.lt (l ++ m) ->
  StronglySorted Z.lt l /\ StronglySorted Z.lt m /\ forall x y, In x l -> In y m -> (x < y)%Z.
Proof.
  induction l as [| a l IH]; intros m S; cbn [app] in S; [split; [constructor | split; [exact S | intros x y []]] |].
  apply StronglySorted_inv in S. destruct S as [S F]. destruct (IH m S) as (S1 & S2 & S3). rewrite Forall_forall in F. split; [| split; [exact S2 |]].
  - constructor; [exact S1 |]. apply Forall_forall. intros x Hx. apply F. apply in_or_app. left. exact Hx.
  - intros x y [<- | Hx] Hy; [apply F; apply in_or_app; right; exact Hy | exact (S3 x y Hx Hy)].
Qed.

Lemma last_In : forall (l : list Z) d, l <> [] -> In (List.last l d) l.
Proof.
  intros l d H. destruct (exists_last H) as (l' & x & ->). rewrite last_last. apply in_or_app. right. left. reflexivity.
Qed.
Lemma last_max : forall (l : list Z) d x, StronglySorted Z.lt l -> In x l -> (x <= List.last l d)%Z.
Proof.
  intros l d x S Hx. assert (l <> []) as H by (intros ->; destruct Hx). destruct (exists_last H) as (l' & y & ->). rewrite last_last.
  destruct (sorted_split _ _ S) as (_ & _ & F). apply in_app_or in Hx. destruct Hx as [Hx | [<- | []]]; [| lia]. pose proof (F x y Hx (or_introl eq_refl)). lia.
Qed.

(** ** Decisions *)
Lemma reported_fun : forall (L C : Prop) e v v', (L \/ ~ L) -> (C \/ ~ C) -> reported L C e v -> reported L C e v' -> v = v'.
Proof.
  intros L C e v v' [HL | HL] [HC | HC] (A1 & A2 & A3) (B1 & B2 & B3);
    rewrite ?(A1 HL), ?(B1 HL), ?(A2 HC), ?(B2 HC), ?(A3 HL HC), ?(B3 HL HC); reflexivity.
Qed.
Lemma reported_iff : forall (L C L' C' : Prop) e v, (L <-> L') -> (C <-> C') -> reported L C e v -> reported L' C' e v.
Proof. intros L C L' C' e v HL HC (A1 & A2 & A3). split; [| split]; intuition. Qed.

Lemma ex_dec : forall A (P : A -> Prop) l, (forall x, P x \/ ~ P x) -> (exists x, In x l /\ P x) \/ ~ (exists x, In x l /\ P x).
Proof.
  intros A P l D. induction l as [| a l IH]; [right; intros (x & [] & _) |]. destruct (D a) as [Ha | Ha]; [left; exists a; split; [left; reflexivity | exact Ha] |].
  destruct IH as [(x & Hx & Px) | N]; [left; exists x; split; [right; exact Hx | exact Px] |]. right. intros (x & [<- | Hx] & Px); [contradiction |]. apply N. exists x. auto.
Qed.

Lemma long_dec : forall s limit t, in_long_step s limit t \/ ~ in_long_step s limit t.
Proof.
  intros s limit t. unfold in_long_step.
  destruct (ex_dec _ (fun p : Z * Z => (fst p < t <= snd p)%Z /\ limit < qz (snd p - fst p)) (consec (times s))) as [((a, b) & H & H') | N].
  - intros [a b]. cbn [fst snd]. destruct (Z_lt_dec a t); [| right; intros [? _]; lia]. destruct (Z_le_dec t b); [| right; intros [? _]; lia].
    destruct (Qclt_le_dec limit (qz (b - a))) as [q | q]; [left; auto | right; intros [_ ?]; qlra].
  - left. exists a, b. split; [exact H | exact H'].
  - right. intros (a & b & H & H'). apply N. exists (a, b). split; [exact H | exact H'].
Qed.
Lemma covered_dec : forall s limit lo hi, rect_covered s limit lo hi \/ ~ rect_covered s limit lo hi.
Proof. intros s limit lo hi. unfold rect_covered. apply ex_dec. intros x. destruct (Z_lt_dec 0 (overlap (fst (fst x)) (fst (snd x)) lo hi)); auto. Qed.
Lemma trap_covered_dec : forall s limit t0 w stop lo hi, trap_covered s limit t0 w stop lo hi \/ ~ trap_covered s limit t0 w stop lo hi.
Proof. intros s limit t0 w stop lo hi. unfold trap_covered. apply ex_dec. intros x. destruct (Z_lt_dec 0 (overlap (trap_from s limit t0 w x) (fst (snd x)) lo hi)); auto. Qed.

Lemma interp_total : forall s limit t, sorted_index s -> noinf (vals s) -> 0 <= limit -> exists v, interp s limit t v.
Proof.
  intros s limit t S I H0.
  assert (interpolate false false s (TIndex [t]) (Some limit) = Ok (interpolate_series s [t] (Some limit))) as E by reflexivity.
  destruct (interpolate_index_spec false s [t] (Some limit) _ limit S I eq_refl ltac:(discriminate) H0 E) as [T V].
  assert (In t (times (interpolate_series s [t] (Some limit)))) as H by (rewrite T; left; reflexivity).
  apply in_map_iff in H. destruct H as ([t' v] & Et & H). cbn [fst] in Et. subst t'. exists v. apply V. exact H.
Qed.
Lemma interp_dec : forall s limit t, sorted_index s -> noinf (vals s) -> 0 <= limit -> (exists q, interp s limit t (Fin q)) \/ ~ (exists q, interp s limit t (Fin q)).
Proof.
  intros s limit t S I H0. destruct (interp_total s limit t S I H0) as (v & Hv). destruct v as [| | q |].
  - right. intros (q & Hq). pose proof (interp_unique _ _ _ _ _ S Hv Hq). discriminate.
  - inversion Hv.
  - left. exists q. exact Hv.
  - inversion Hv.
Qed.
Lemma ends_dec : forall s width limit t, sorted_index s -> noinf (vals s) -> 0 <= limit -> (exists q, both_ends s width limit t q) \/ (forall q, ~ both_ends s width limit t q).
Proof.
  intros s width limit t S I H0. unfold both_ends. destruct (Qclt_le_dec limit (qz width)) as [L | L]; [right; intros q (H & _); qlra |].
  destruct (interp_dec s limit t S I H0) as [(q & Hq) | N]; [| right; intros q (_ & H & _); apply N; exists q; exact H].
  destruct (interp_dec s limit (t - width) S I H0) as [Hq' | N]; [left; exists q; auto | right; intros q' (_ & _ & H); exact (N H)].
Qed.
Lemma grid_dec : forall s width limit, sorted_index s -> noinf (vals s) -> 0 <= limit -> (0 < width)%Z -> s <> [] ->
  (exists t q, on_grid s width t /\ interp s limit t (Fin q)) \/ (forall t q, on_grid s width t -> ~ interp s limit t (Fin q)).
Proof.
  intros s width limit S I H0 HW HN. assert (times s <> []) as HT by (destruct s; [congruence | discriminate]).
  assert (List.last (times s) (first_time s) = final_time s) as EF.
  { unfold final_time. destruct (exists_last HT) as (l & x & ->). rewrite !last_last. reflexivity. }
  assert (hd (first_time s) (times s) = first_time s) as E1 by (unfold first_time; destruct (times s); [congruence | reflexivity]).
  assert (first_time s <= final_time s)%Z as HL.
  { unfold final_time. apply last_max; [exact S |]. unfold first_time. destruct (times s); [congruence | left; reflexivity]. }
  destruct (interpolate_freq_spec false false s (first_time s) (final_time s) width None HT E1 EF HW HL) as [_ G].
  destruct (ex_dec _ (fun t => exists q, interp s limit t (Fin q)) (date_range (first_time s) (final_time s) width)) as [(t & Ht & q & Hq) | N].
  - intros t. apply interp_dec; assumption.
  - left. exists t, q. split; [apply G; exact Ht | exact Hq].
  - right. intros t q Ht Hq. apply N. exists t. split; [apply G; exact Ht | exists q; exact Hq].
Qed.

Lemma last_time_spec : forall s, points s <> [] -> exists q, In (last_time s, q) (points s).
Proof.
  intros s H. unfold last_time. destruct (exists_last H) as (l & [t q] & E). rewrite E, rev_app_distr. cbn [rev app]. exists q. apply in_or_app. right. left. reflexivity.
Qed.
Lemma last_time_max : forall s t q, sorted_index s -> In (t, q) (points s) -> (t <= last_time s)%Z.
Proof.
  intros s t q S H. unfold last_time. assert (points s <> []) as HN by (intros E; rewrite E in H; destruct H).
  pose proof (points_sorted s S) as SP. destruct (exists_last HN) as (l & [t' q'] & E). rewrite E in *. rewrite rev_app_distr. cbn [rev app].
  rewrite map_app in SP. destruct (sorted_split _ _ SP) as (_ & _ & F). apply in_app_or in H. destruct H as [H | [H | []]]; [| injection H; lia].
  pose proof (F t t' (in_map fst _ _ H) (or_introl eq_refl)). lia.
Qed.

Lemma cut_later : forall s t0 width t, (0 < width)%Z -> (t <= next_cut s t0 width t)%Z.
Proof.
  intros s t0 width t HW. unfold next_cut. pose proof (Z_div_mod_eq_full (t - t0) width) as D. pose proof (Z.mod_pos_bound (t - t0) width HW) as B.
  assert (t < t0 + width * ((t - t0) / width + 1))%Z as HA by lia. destruct (find _ s) as [r |] eqn:F; [| lia]. apply find_some in F. destruct F as [_ F]. apply Z.ltb_lt in F. lia.
Qed.
Lemma from_later : forall s limit t0 width pr, (0 < width)%Z -> (fst (fst pr) <= trap_from s limit t0 width pr)%Z.
Proof. intros s limit t0 width pr HW. unfold trap_from. destruct (trusted s limit (fst (fst pr))); [lia | apply cut_later; exact HW]. Qed.

Section Grow.
Context (old new : series).
Let all : series := old ++ new.
Hypothesis HS : sorted_index all.

Lemma grow_parts : sorted_index old /\ sorted_index new /\ forall x y, In x (times old) -> In y (times new) -> (x < y)%Z.
Proof. unfold sorted_index, times in *. unfold all in HS. rewrite map_app in HS. exact (sorted_split _ _ HS). Qed.

Lemma time_In : forall t v s, In (t, v) s -> In t (times s).
Proof. intros t v s H. change t with (fst (t, v)). apply in_map, H. Qed.

Lemma row_all : forall t v, reached old t -> (In (t, v) all <-> In (t, v) old).
Proof.
  intros t v (u & q & Hu & Hle). unfold all. rewrite in_app_iff. split; [| auto]. intros [H | H]; [exact H |].
  destruct grow_parts as (_ & _ & F). pose proof (F _ _ (time_In _ _ _ Hu) (time_In _ _ _ H)). lia.
Qed.
Lemma new_later : forall t u v, reached old t -> In (u, v) new -> (t < u)%Z.
Proof.
  intros t u v (u' & q & Hu & Hle) H. destruct grow_parts as (_ & _ & F). pose proof (F _ _ (time_In _ _ _ Hu) (time_In _ _ _ H)). lia.
Qed.
Lemma reached_le : forall t u, reached old t -> (u <= t)%Z -> reached old u.
Proof. intros t u (u' & q & Hu & Hle) H. exists u', q. split; [exact Hu | lia]. Qed.

(** ** Interpolation *)
Lemma bracket_grow : forall t1 v1 t2 v2 t, reached old t -> (bracket all t1 v1 t2 v2 t <-> bracket old t1 v1 t2 v2 t).
Proof.
  intros t1 v1 t2 v2 t R. split.
  - intros (H1 & H2 & Hlt & H). assert (reached old t1) as R1 by (apply (reached_le t); [exact R | lia]).
    destruct R as (u & q & Hu & Hle).
    assert (In (t2, Fin v2) old) as H2'.
    { unfold all in H2. apply in_app_or in H2. destruct H2 as [H2 | H2]; [exact H2 |]. exfalso.
      destruct (H u q) as [C | C]; [unfold all; apply in_or_app; left; exact Hu | lia |].
      destruct grow_parts as (_ & _ & F). pose proof (F _ _ (time_In _ _ _ Hu) (time_In _ _ _ H2)). lia. }
    split; [apply (proj1 (row_all t1 (Fin v1) R1)); exact H1 |]. split; [exact H2' |]. split; [exact Hlt |].
    intros u' w Hu'. apply (H u' w). unfold all. apply in_or_app. left. exact Hu'.
  - intros (H1 & H2 & Hlt & H). split; [unfold all; apply in_or_app; left; exact H1 |]. split; [unfold all; apply in_or_app; left; exact H2 |]. split; [exact Hlt |].
    intros u w Hu. unfold all in Hu. apply in_app_or in Hu. destruct Hu as [Hu | Hu]; [exact (H u w Hu) |]. right.
    destruct grow_parts as (_ & _ & F). pose proof (F _ _ (time_In _ _ _ H2) (time_In _ _ _ Hu)). lia.
Qed.
Lemma interp_grow : forall limit t x, reached old t -> (interp all limit t x <-> interp old limit t x).
Proof.
  intros limit t x R. split; intros H; destruct H as [q H | t1 v1 t2 v2 H L | t1 v1 t2 v2 H L | H | H].
  - apply interp_point. apply row_all; assumption.
  - apply interp_between; [apply bracket_grow; assumption | exact L].
  - apply (interp_gap _ _ _ t1 v1 t2 v2); [apply bracket_grow; assumption | exact L].
  - apply interp_before. intros u w Hu. apply (H u w). unfold all. apply in_or_app. left. exact Hu.
  - exfalso. destruct R as (u & q & Hu & Hle). pose proof (H u q (in_or_app _ _ _ (or_introl Hu))). lia.
  - apply interp_point. apply row_all; assumption.
  - apply interp_between; [apply bracket_grow; assumption | exact L].
  - apply (interp_gap _ _ _ t1 v1 t2 v2); [apply bracket_grow; assumption | exact L].
  - apply interp_before. intros u w Hu. unfold all in Hu. apply in_app_or in Hu. destruct Hu as [Hu | Hu]; [exact (H u w Hu) | exact (new_later t u _ R Hu)].
  - exfalso. destruct R as (u & q & Hu & Hle). pose proof (H u q Hu). lia.
Qed.
Lemma interp_reached : forall limit t q, interp old limit t (Fin q) -> reached old t.
Proof.
  intros limit t q H. inversion H as [q' Hp | t1 v1 t2 v2 (_ & H2 & Hlt & _) _ E | | |]; [exists t, q; split; [exact Hp | lia] |].
  exists t2, v2. split; [exact H2 | lia].
Qed.

(** ** Steps *)
Lemma long_grow : forall limit t, reached old t -> (in_long_step all limit t <-> in_long_step old limit t).
Proof.
  intros limit t (u & q & Hu & Hle). unfold in_long_step. unfold all, times. rewrite map_app, consec_app. split.
  - intros (a & b & H & Hab & L). exists a, b. split; [| auto]. apply in_app_or in H. destruct H as [H | H]; [exact H |]. exfalso.
    apply consec_fst in H. destruct H as [Ha _]. destruct grow_parts as (S & _ & F). apply in_app_or in Ha. destruct Ha as [Ha | Ha].
    + pose proof (last_one_max _ (fun z => z) (map fst old) a u) as M. rewrite map_id in M. specialize (M S Ha (time_In _ _ _ Hu)). lia.
    + pose proof (F _ _ (time_In _ _ _ Hu) Ha). lia.
  - intros (a & b & H & R). exists a, b. split; [apply in_or_app; left; exact H | exact R].
Qed.

Lemma extra_later : forall a b t, reached old t -> In (a, b) (consec (last_one (points old) ++ points new)) -> (t <= fst a)%Z /\ (fst a < fst b)%Z.
Proof.
  intros a b t (u & q & Hu & Hle) H. destruct grow_parts as (S & _ & F). apply points_In in Hu. split.
  - apply consec_fst in H. destruct H as [H _]. apply in_app_or in H. destruct H as [H | H].
    + pose proof (last_one_max _ fst (points old) a (u, q) (points_sorted _ S) H Hu) as M. cbn [fst] in M. lia.
    + destruct a as [ta qa]. apply points_In in H. apply points_In in Hu. pose proof (F _ _ (time_In _ _ _ Hu) (time_In _ _ _ H)). cbn [fst]. lia.
  - apply (sorted_consec (points all) a b (points_sorted _ HS)). unfold all. rewrite points_app, consec_app. apply in_or_app. right. exact H.
Qed.

Lemma steps_grow : forall limit, steps_used all limit = steps_used old limit ++ filter (close limit) (consec (last_one (points old) ++ points new)).
Proof. intros limit. unfold steps_used, all. rewrite points_app, consec_app, filter_app. reflexivity. Qed.

Lemma rect_grow : forall limit lo t, reached old t -> rect_energy all limit lo t = rect_energy old limit lo t.
Proof.
  intros limit lo t R. unfold rect_energy. rewrite steps_grow, map_app, qsum_app. rewrite (qsum_zeros _ (rect_part lo t) (filter _ _)); [ring |].
  intros [a b] H. apply filter_In in H. destruct H as [H _]. destruct (extra_later a b t R H) as [H1 H2]. unfold rect_part. cbn [fst snd].
  replace (overlap (fst a) (fst b) lo t) with 0%Z by (unfold overlap; lia). rewrite hours_0. ring.
Qed.
Lemma covered_grow : forall limit lo t, reached old t -> (rect_covered all limit lo t <-> rect_covered old limit lo t).
Proof.
  intros limit lo t R. unfold rect_covered. rewrite steps_grow. split.
  - intros ((a, b) & H & O). exists (a, b). split; [| exact O]. apply in_app_or in H. destruct H as [H | H]; [exact H |]. exfalso.
    apply filter_In in H. destruct H as [H _]. destruct (extra_later a b t R H) as [H1 H2]. cbn [fst snd] in O. unfold overlap in O. lia.
  - intros (pr & H & O). exists pr. split; [apply in_or_app; left; exact H | exact O].
Qed.

(** ** First and last row *)
Lemma first_grow : old <> [] -> first_time all = first_time old.
Proof. intros H. unfold first_time, all, times. destruct old as [| r o]; [congruence | reflexivity]. Qed.
Lemma final_old : forall t, reached old t -> (t <= final_time old)%Z.
Proof.
  intros t (u & q & Hu & Hle). pose proof (last_max (times old) 0%Z u (proj1 grow_parts) (time_In _ _ _ Hu)). unfold final_time. lia.
Qed.
Lemma final_all : forall t, reached old t -> (t <= final_time all)%Z.
Proof.
  intros t (u & q & Hu & Hle). pose proof (last_max (times all) 0%Z u HS (time_In u (Fin q) all (in_or_app _ _ _ (or_introl Hu)))). unfold final_time. lia.
Qed.

(** Two sorted results that agree up to [b]. *)
Lemma agree_up_to : forall (e e' : series) b, StronglySorted Z.lt (times e) -> StronglySorted Z.lt (times e') ->
  (forall t, (t <= b)%Z -> (In t (times e) <-> In t (times e'))) ->
  (forall t v v', (t <= b)%Z -> In (t, v) e -> In (t, v') e' -> v = v') -> up_to b e' = up_to b e.
Proof.
  intros e e' b S S' T V. assert (forall l : series, StronglySorted Z.lt (times l) -> StronglySorted Z.lt (times (up_to b l))) as SF.
  { intros l. unfold up_to, times. induction l as [| r l IH]; intros H; [constructor |]. cbn [map] in H. apply StronglySorted_inv in H. destruct H as [H F]. cbn [filter].
    destruct (fst r <=? b)%Z; [| exact (IH H)]. cbn [map]. constructor; [exact (IH H) |]. rewrite Forall_forall in F. apply Forall_forall. intros x Hx. apply F.
    apply in_map_iff in Hx. destruct Hx as (y & <- & Hy). apply filter_In in Hy. apply in_map, (proj1 Hy). }
  apply sorted_same; [exact (SF _ S') | exact (SF _ S) |]. intros [t v]. unfold up_to. rewrite !filter_In. cbn [fst]. rewrite Z.leb_le.
  split; intros [H L]; (split; [| exact L]).
  - pose proof (proj2 (T t L) (time_In _ _ _ H)) as Ht. apply in_map_iff in Ht. destruct Ht as ([t' v'] & E & H'). cbn [fst] in E. subst t'. rewrite <- (V t v' v L H' H). exact H'.
  - pose proof (proj1 (T t L) (time_In _ _ _ H)) as Ht. apply in_map_iff in Ht. destruct Ht as ([t' v'] & E & H'). cbn [fst] in E. subst t'. rewrite (V t v v' L H H'). exact H'.
Qed.

Hypothesis HI : noinf (vals all).
Hypothesis HL : (2 <= length old)%nat.
Lemma old_noinf : noinf (vals old).
Proof. intros x Hx. apply HI. unfold all, vals. rewrite map_app. apply in_or_app. left. exact Hx. Qed.
Lemma all_length : (2 <= length all)%nat.
Proof. unfold all. rewrite app_length. lia. Qed.
Lemma old_nonempty : old <> [].
Proof. intros E. rewrite E in HL. cbn in HL. lia. Qed.
Lemma points_all : points old <> [] -> points all <> [].
Proof. intros H E. unfold all in E. rewrite points_app in E. apply app_eq_nil in E. tauto. Qed.

Lemma points_nil_dec : {points old = []} + {points old <> []}.
Proof. destruct (points old); [left; reflexivity | right; discriminate]. Qed.

(** ** Intervals longer than the median step *)
Theorem grow_long : forall freq freq' width max med med' e, is_median (gaps_between (times old)) med -> is_median (gaps_between (times all)) med' ->
  (0 < width)%Z -> med < qz width -> med' < qz width -> the_limit max med = the_limit max med' ->
  energy_from_power freq old (Some width) max RightLabeled = Ok e ->
  exists e', energy_from_power freq' all (Some width) max RightLabeled = Ok e' /\ forall b, reached old b -> up_to b e' = up_to b e.
Proof.
  intros freq freq' width max med med' e HM HM' HW L L' EL E.
  destruct (energy_long freq old width max med (proj1 grow_parts) old_noinf HL HM HW L) as [N P].
  destruct points_nil_dec as [Ep | Np]; [rewrite (N Ep) in E; discriminate |]. destruct (P Np) as (out & Eo & S1 & T1 & V1). rewrite Eo in E. injection E as <-.
  destruct (energy_long freq' all width max med' HS HI all_length HM' HW L') as [_ P']. destruct (P' (points_all Np)) as (e' & E' & S2 & T2 & V2).
  exists e'. split; [exact E' |]. intros b R. rewrite <- EL in V2. apply agree_up_to; [exact S1 | exact S2 | |].
  - intros t Hle. assert (reached old t) as Rt by (apply (reached_le b); assumption). pose proof (final_old t Rt). pose proof (final_all t Rt).
    rewrite T1, T2, (first_grow old_nonempty). split; intros (k & Hk & -> & _); exists k; (split; [exact Hk | split; [reflexivity | lia]]).
  - intros t v v' Hle H H'. assert (reached old t) as Rt by (apply (reached_le b); assumption). apply V1 in H. apply V2 in H'.
    rewrite (rect_grow _ _ _ Rt) in H'. apply (reported_iff _ _ _ _ _ _ (long_grow _ _ Rt) (covered_grow _ _ _ Rt)) in H'.
    exact (reported_fun _ _ _ _ _ (long_dec _ _ _) (covered_dec _ _ _ _) H H').
Qed.

(** ** Intervals up to the median step *)
Lemma grid_grow : forall width t, reached old t -> (on_grid all width t <-> on_grid old width t).
Proof.
  intros width t R. unfold on_grid. rewrite (first_grow old_nonempty). pose proof (final_old t R). pose proof (final_all t R).
  split; intros (k & Hk & E & _); exists k; auto.
Qed.
Lemma ends_grow : forall width limit t q, reached old t -> (0 < width)%Z -> (both_ends all width limit t q <-> both_ends old width limit t q).
Proof.
  intros width limit t q R HW. unfold both_ends. rewrite (interp_grow limit t (Fin q) R).
  assert (reached old (t - width)) as R' by (apply (reached_le t); [exact R | lia]).
  split; intros (H1 & H2 & q' & H3); (split; [exact H1 | split; [exact H2 | exists q'; apply (interp_grow limit (t - width) (Fin q') R'); exact H3]]).
Qed.

Theorem grow_short : forall freq freq' target width max med med' limit e, is_median (gaps_between (times old)) med -> is_median (gaps_between (times all)) med' ->
  width = match target with Some w => w | None => qfloor med end -> width = match target with Some w => w | None => qfloor med' end ->
  limit = the_limit max med -> limit = the_limit max med' -> (0 < width)%Z -> qz width <= med -> qz width <= med' -> 0 <= limit ->
  energy_from_power freq old target max RightLabeled = Ok e ->
  exists e', energy_from_power freq' all target max RightLabeled = Ok e' /\ forall b, reached old b -> up_to b e' = up_to b e.
Proof.
  intros freq freq' target width max med med' limit e HM HM' EW EW' EL EL' HW L L' H0 E.
  destruct (energy_short freq old target width max med limit (proj1 grow_parts) old_noinf HL HM EW EL HW L H0) as [N P].
  destruct (grid_dec old width limit (proj1 grow_parts) old_noinf H0 HW old_nonempty) as [(t0 & q0 & G0 & I0) | NG]; [| rewrite (N NG) in E; discriminate].
  destruct (P t0 q0 G0 I0) as (out & Eo & S1 & T1 & V1). rewrite Eo in E. injection E as <-.
  pose proof (interp_reached _ _ _ I0) as R0.
  destruct (energy_short freq' all target width max med' limit HS HI all_length HM' EW' EL' HW L' H0) as [_ P'].
  destruct (P' t0 q0 (proj2 (grid_grow width t0 R0) G0) (proj2 (interp_grow limit t0 (Fin q0) R0) I0)) as (e' & E' & S2 & T2 & V2).
  exists e'. split; [exact E' |]. intros b R. apply agree_up_to; [exact S1 | exact S2 | |].
  - intros t Hle. assert (reached old t) as Rt by (apply (reached_le b); assumption). rewrite T1, T2, (first_grow old_nonempty).
    fold (on_grid old width t) (on_grid all width t). rewrite <- (first_grow old_nonempty). fold (on_grid all width t). rewrite (grid_grow width t Rt). reflexivity.
  - intros t v v' Hle H H'. assert (reached old t) as Rt by (apply (reached_le b); assumption).
    destruct (V1 t v H) as (A1 & A2 & A3). destruct (V2 t v' H') as (B1 & B2 & B3).
    destruct (long_dec old limit t) as [Y | Y]; [rewrite (A1 Y), (B1 (proj2 (long_grow limit t Rt) Y)); reflexivity |].
    assert (~ in_long_step all limit t) as Y' by (intros C; apply Y; apply long_grow; assumption).
    destruct (ends_dec old width limit t (proj1 grow_parts) old_noinf H0) as [(q & Q) | Q].
    + rewrite (A3 q Y Q), (B3 q Y' (proj2 (ends_grow width limit t q Rt HW) Q)). reflexivity.
    + rewrite (A2 Q). symmetry. apply B2. intros q C. apply (Q q). apply ends_grow; assumption.
Qed.

(** ** Trapezoids *)
(** The steps used, without and with the held one. *)
Lemma trap_used_split : forall s limit stop, sorted_index s -> points s <> [] ->
  exists more, trap_used s limit stop = steps_used s limit ++ more /\ forall pr, In pr more -> (last_time s <= fst (fst pr))%Z.
Proof.
  intros s limit stop S HN. unfold trap_used, steps_used, held. rewrite consec_app, filter_app. eexists. split.
  - f_equal. apply filter_ext_in. intros [a [tb qb]] H. destruct (sorted_consec _ _ _ (points_sorted s S) H) as [Hlt _].
    apply consec_fst in H. destruct H as [_ H]. pose proof (last_time_max s tb qb S H) as M. cbn [fst snd] in *.
    destruct (last_time s <=? fst a)%Z eqn:C; [apply Z.leb_le in C; lia | apply orb_false_r].
  - intros [a b] H. apply filter_In in H. destruct H as [H _]. apply consec_fst in H. destruct H as [H _]. cbn [fst]. apply in_app_or in H. destruct H as [H | H].
    + destruct (last_time_spec s HN) as (q & Hq). exact (last_one_max _ fst (points s) a _ (points_sorted s S) H Hq).
    + unfold last_time. destruct (rev (points s)) as [| [t q] l]; [destruct H |]. destruct (t <? stop)%Z eqn:C; [| destruct H]. apply Z.ltb_lt in C.
      destruct H as [<- | []]. cbn [fst]. lia.
Qed.

Lemma trap_all_split : forall limit stop, points old <> [] ->
  exists more, trap_used all limit stop = steps_used old limit ++ more /\ forall t pr, reached old t -> In pr more -> (t <= fst (fst pr))%Z.
Proof.
  intros limit stop HN. destruct (trap_used_split all limit stop HS (points_all HN)) as (more & E & M). rewrite steps_grow, <- app_assoc in E.
  eexists. split; [exact E |]. intros t [a b] R H. apply in_app_or in H. destruct H as [H | H].
  - apply filter_In in H. exact (proj1 (extra_later a b t R (proj1 H))).
  - apply M in H. destruct R as (u & q & Hu & Hle). pose proof (last_time_max all u q HS) as L. rewrite points_In in L. specialize (L (in_or_app _ _ _ (or_introl Hu))). lia.
Qed.
Lemma trap_old_split : forall limit stop, points old <> [] ->
  exists more, trap_used old limit stop = steps_used old limit ++ more /\ forall t pr, reached old t -> In pr more -> (t <= fst (fst pr))%Z.
Proof.
  intros limit stop HN. destruct (trap_used_split old limit stop (proj1 grow_parts) HN) as (more & E & M).
  eexists. split; [exact E |]. intros t [a b] R H. apply M in H. destruct R as (u & q & Hu & Hle).
  pose proof (last_time_max old u q (proj1 grow_parts)) as L. rewrite points_In in L. specialize (L Hu). lia.
Qed.

Lemma trusted_grow : forall limit t, reached old t -> trusted all limit t = trusted old limit t.
Proof.
  intros limit t R. unfold trusted. f_equal.
  - assert (forall o n : series, o <> [] -> match o ++ n with (t0, Fin _) :: _ => (t0 =? t)%Z | _ => false end = match o with (t0, Fin _) :: _ => (t0 =? t)%Z | _ => false end) as G
      by (intros [| r o] n Ho; [congruence | reflexivity]).
    exact (G old new old_nonempty).
  - rewrite steps_grow, existsb_app. match goal with |- (_ || ?x)%bool = _ => assert (x = false) as -> end; [| apply orb_false_r].
    apply not_true_is_false. intros C. apply existsb_exists in C. destruct C as ([a b] & H & C). apply filter_In in H. destruct (extra_later a b t R (proj1 H)) as [H1 H2].
    cbn [fst snd] in C. apply Z.eqb_eq in C. lia.
Qed.
Lemma find_app : forall A (f : A -> bool) l l', find f (l ++ l') = match find f l with Some x => Some x | None => find f l' end.
Proof. intros A f l l'. induction l as [| a l IH]; [reflexivity |]. cbn [app find]. destruct (f a); [reflexivity | exact IH]. Qed.
Lemma cut_grow : forall t0 width t u v, In (u, v) old -> (t < u)%Z -> next_cut all t0 width t = next_cut old t0 width t.
Proof.
  intros t0 width t u v Hu Hlt. unfold next_cut, all. rewrite find_app. destruct (find _ old) as [r |] eqn:F; [reflexivity |].
  pose proof (find_none _ _ F _ Hu) as C. cbn [fst] in C. apply Z.ltb_ge in C. lia.
Qed.
Lemma from_grow : forall limit t0 width pr, In pr (steps_used old limit) -> trap_from all limit t0 width pr = trap_from old limit t0 width pr.
Proof.
  intros limit t0 width [[ta qa] [tb qb]] H. apply filter_In in H. destruct H as [H _]. destruct (sorted_consec _ _ _ (points_sorted _ (proj1 grow_parts)) H) as [Hlt _].
  apply consec_fst in H. destruct H as [Ha Hb]. apply points_In in Ha. apply points_In in Hb. cbn [fst] in Hlt. unfold trap_from. cbn [fst].
  rewrite (trusted_grow limit ta); [| exists tb, qb; split; [exact Hb | lia]]. rewrite (cut_grow t0 width ta tb _ Hb Hlt). reflexivity.
Qed.

Lemma late_part : forall s limit t0 width lo t pr, (0 < width)%Z -> (t <= fst (fst pr))%Z -> trap_part (trap_from s limit t0 width pr) lo t pr = 0.
Proof.
  intros s limit t0 width lo t pr HW H. pose proof (from_later s limit t0 width pr HW) as F. unfold trap_part.
  destruct (Z.max (trap_from s limit t0 width pr) lo <? Z.min (fst (snd pr)) t)%Z eqn:C; [apply Z.ltb_lt in C; lia | reflexivity].
Qed.
Lemma late_overlap : forall s limit t0 width lo t pr, (0 < width)%Z -> (t <= fst (fst pr))%Z -> ~ (0 < overlap (trap_from s limit t0 width pr) (fst (snd pr)) lo t)%Z.
Proof. intros s limit t0 width lo t pr HW H. pose proof (from_later s limit t0 width pr HW) as F. unfold overlap. lia. Qed.

Lemma trap_grow : forall limit t0 width stop stop' lo t, points old <> [] -> (0 < width)%Z -> reached old t ->
  trap_energy all limit t0 width stop' lo t = trap_energy old limit t0 width stop lo t.
Proof.
  intros limit t0 width stop stop' lo t HN HW R. unfold trap_energy.
  destruct (trap_all_split limit stop' HN) as (m' & -> & M'). destruct (trap_old_split limit stop HN) as (m & -> & M). rewrite !map_app, !qsum_app.
  rewrite (qsum_zeros _ _ m') by (intros pr Hp; apply late_part; [exact HW | exact (M' t pr R Hp)]).
  rewrite (qsum_zeros _ _ m) by (intros pr Hp; apply late_part; [exact HW | exact (M t pr R Hp)]). f_equal. f_equal.
  apply map_ext_in. intros pr Hp. rewrite from_grow by exact Hp. reflexivity.
Qed.
Lemma trap_covered_grow : forall limit t0 width stop stop' lo t, points old <> [] -> (0 < width)%Z -> reached old t ->
  (trap_covered all limit t0 width stop' lo t <-> trap_covered old limit t0 width stop lo t).
Proof.
  intros limit t0 width stop stop' lo t HN HW R. unfold trap_covered.
  destruct (trap_all_split limit stop' HN) as (m' & -> & M'). destruct (trap_old_split limit stop HN) as (m & -> & M). split; intros (pr & H & O).
  - apply in_app_or in H. destruct H as [H | H]; [| destruct (late_overlap _ _ _ _ _ _ _ HW (M' t pr R H) O)].
    exists pr. rewrite from_grow in O by exact H. split; [apply in_or_app; left; exact H | exact O].
  - apply in_app_or in H. destruct H as [H | H]; [| destruct (late_overlap _ _ _ _ _ _ _ HW (M t pr R H) O)].
    exists pr. rewrite from_grow by exact H. split; [apply in_or_app; left; exact H | exact O].
Qed.

Theorem grow_trap : forall freq freq' width max med med' e, is_median (gaps_between (times old)) med -> is_median (gaps_between (times all)) med' ->
  (0 < width)%Z -> med < qz width -> med' < qz width -> the_limit max med = the_limit max med' ->
  energy_from_power freq old (Some width) max Instantaneous = Ok e ->
  exists e', energy_from_power freq' all (Some width) max Instantaneous = Ok e' /\ forall b, reached old b -> up_to b e' = up_to b e.
Proof.
  intros freq freq' width max med med' e HM HM' HW L L' EL E.
  destruct (energy_long_trap freq old width max med (proj1 grow_parts) old_noinf HL HM HW L) as [N P].
  destruct points_nil_dec as [Ep | Np]; [rewrite (N Ep) in E; discriminate |]. destruct (P Np) as (out & Eo & S1 & T1 & V1). rewrite Eo in E. injection E as <-.
  destruct (energy_long_trap freq' all width max med' HS HI all_length HM' HW L') as [_ P']. destruct (P' (points_all Np)) as (e' & E' & S2 & T2 & V2).
  exists e'. split; [exact E' |]. intros b R. rewrite <- EL in V2. apply agree_up_to; [exact S1 | exact S2 | |].
  - intros t Hle. assert (reached old t) as Rt by (apply (reached_le b); assumption). pose proof (final_old t Rt). pose proof (final_all t Rt).
    rewrite T1, T2, (first_grow old_nonempty). split; intros (k & Hk & -> & _); exists k; (split; [exact Hk | split; [reflexivity | lia]]).
  - intros t v v' Hle H H'. assert (reached old t) as Rt by (apply (reached_le b); assumption). apply V1 in H. apply V2 in H'. cbv zeta in H, H'.
    rewrite (first_grow old_nonempty) in H'.
    rewrite (trap_grow _ _ _ (end_of_bins (first_time old) width (final_time old)) _ _ _ Np HW Rt) in H'.
    apply (reported_iff _ _ _ _ _ _ (long_grow _ _ Rt) (trap_covered_grow _ _ _ (end_of_bins (first_time old) width (final_time old)) _ _ _ Np HW Rt)) in H'.
    exact (reported_fun _ _ _ _ _ (long_dec _ _ _) (trap_covered_dec _ _ _ _ _ _ _) H H').
Qed.
End Grow.
