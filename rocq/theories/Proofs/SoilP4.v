(** The intervals and the analysed days. *)

From Coq Require Import QArith Qcanon List ZArith Bool Arith Lia Sorted String.
From Verif.Base Require Import QcExtra ISort Quantile Fl TimeSeries Calendar Rolling Segments.
From Verif.Spec Require Import Stats Filters Soiling.
From Verif.Model Require Import Soiling.
From Verif.Proofs Require Import StatsP FiltersP2 SoilP SoilP2 SoilP3.
Import ListNotations.
Open Scope list_scope.
Open Scope Qc_scope.

Lemma daily_numbered : forall pm insolation precip day_scale thr recenter c pthr factor r rows,
  calc_daily_df pm insolation precip day_scale thr recenter c pthr factor = Ok (r, rows) ->
  rows <> [] /\ forall i d, nth_error rows i = Some d ->
    d_day d = Z.of_nat i /\ d_run d = Z.of_nat (count_true (firstn (S i) (map d_event rows))).
Proof.
  intros pm insolation precip day_scale thr recenter c pthr factor r rows. unfold calc_daily_df. destruct (valid_part pm) as [| x0 p]; [discriminate |]. set (s := x0 :: p).
  destruct (day_scale =? 0)%nat; [discriminate |]. destruct (combine_events _ _ _) as [l |]; [| discriminate]. cbn [bind]. intros H.
  set (event := map (fun i => nth i l false || _ || _) _) in H. set (row := fun i => DayRow _ _ _ _ _ _ _) in H.
  assert (rows = map row (seq 0 (List.length s))) as E by (injection H; intros <- _; reflexivity). clear H.
  assert (forall i, nth_error rows i = if (i <? List.length s)%nat then Some (row i) else None) as HR.
  { intros i. rewrite E, nth_error_map_some, nth_error_seq. destruct (i <? List.length s)%nat; reflexivity. }
  assert (List.length event = List.length s) as Le by (unfold event; rewrite map_length, seq_length; reflexivity).
  assert (map d_event rows = event) as EE.
  { rewrite E, map_map. unfold row. cbn [d_event]. apply ext_nth. intros i. rewrite nth_error_map_some, nth_error_seq.
    destruct (Nat.ltb_spec i (List.length s)) as [L | L]; [symmetry; apply nth_error_nth'; lia | symmetry; apply nth_error_None; lia]. }
  split; [rewrite E; discriminate |]. intros i d Hd. rewrite HR in Hd. destruct (Nat.ltb_spec i (List.length s)) as [L | L]; [| discriminate]. injection Hd as <-.
  rewrite EE. unfold row. cbn [d_day d_run]. split; [reflexivity |]. rewrite count_nth by lia. reflexivity.
Qed.

Lemma F2_impl : forall A B (P Q : A -> B -> Prop) xs ys, (forall x y, P x y -> Q x y) -> Forall2 P xs ys -> Forall2 Q xs ys.
Proof. intros A B P Q xs ys I H. induction H; constructor; auto. Qed.
Lemma NoDup_sorted : forall l, StronglySorted Z.lt l -> NoDup l.
Proof.
  induction l as [| x l IH]; intros H; [constructor |]. inversion H as [| a b H1 H2]; subst. constructor; [| apply IH; exact H1]. intros C. rewrite Forall_forall in H2. specialize (H2 x C). lia.
Qed.
Lemma NoDup_map_inj : forall A B (f : A -> B) l x y, NoDup (map f l) -> In x l -> In y l -> f x = f y -> x = y.
Proof.
  induction l as [| a l IH]; intros x y N Hx Hy E; [destruct Hx |]. cbn in N. inversion N as [| b m N1 N2]; subst.
  destruct Hx as [-> | Hx]; destruct Hy as [-> | Hy]; [reflexivity | | | apply IH; assumption].
  - exfalso. apply N1. rewrite E. apply in_map. exact Hy.
  - exfalso. apply N1. rewrite <- E. apply in_map. exact Hx.
Qed.
Lemma NoDup_kept : forall A (f : nat * nat -> A) trim l, NoDup (map f l) -> NoDup (map f (kept_blocks trim l)).
Proof.
  assert (forall A (l : list A), NoDup l -> NoDup (removelast l)) as R.
  { intros A l. induction l as [| x l IH]; intros N; [constructor |]. destruct l as [| y l]; [constructor |]. inversion N as [| b m N1 N2]; subst. cbn [removelast]. constructor; [| apply IH; exact N2].
    intros C. apply N1. clear -C. change (In x (removelast (y :: l))) in C. revert C. generalize (y :: l) as r. induction r as [| a r IH]; intros C; [exact C |]. destruct r; [destruct C |]. destruct C as [C | C]; [left; exact C | right; apply IH; exact C]. }
  intros A f [|] l N; [| exact N]. cbn [kept_blocks]. rewrite map_removelast, map_tl. apply R. destruct (map f l); [constructor | inversion N; assumption].
Qed.

(** With trimming the first and the last block go. *)
Lemma kept_parts : forall trim l, (kept_blocks trim l = l) \/
  (trim = true /\ exists x, l = [x] /\ kept_blocks trim l = []) \/ (trim = true /\ exists x z, l = x :: kept_blocks trim l ++ [z]).
Proof.
  intros [|] l; [| left; reflexivity]. destruct l as [| x l]; [left; reflexivity |]. right. cbn [kept_blocks tl]. destruct l as [| y l] using rev_ind.
  - left. split; [reflexivity |]. eauto.
  - right. split; [reflexivity |]. exists x, y. rewrite removelast_last. reflexivity.
Qed.

Lemma flat_map_concat : forall A B (f : A -> list B) m, flat_map f (List.concat m) = List.concat (map (flat_map f) m).
Proof. induction m as [| x m IH]; [reflexivity |]. cbn. rewrite flat_map_app, IH. reflexivity. Qed.
Lemma flat_map_none : forall A B (f : A -> list B) m, (forall x, In x m -> f x = []) -> flat_map f m = [].
Proof. induction m as [| x m IH]; intros H; [reflexivity |]. cbn. rewrite (H x (or_introl eq_refl)). apply IH. intros y Hy. apply H. right. exact Hy. Qed.
Lemma flat_map_one : forall A B (P : A -> B -> Prop) (f : A -> list B) m, (forall x, In x m -> exists y, f x = [y] /\ P x y) -> Forall2 P m (flat_map f m).
Proof.
  induction m as [| x m IH]; intros H; [constructor |]. destruct (H x (or_introl eq_refl)) as (y & E & Hy). cbn. rewrite E. constructor; [exact Hy | apply IH; intros z Hz; apply H; right; exact Hz].
Qed.
Lemma Forall2_in_right : forall A B (P : A -> B -> Prop) xs ys y, Forall2 P xs ys -> In y ys -> exists x, In x xs /\ P x y.
Proof. intros A B P xs ys y H. induction H as [| a b xs ys Hab H IH]; intros Hy; [destruct Hy |]. destruct Hy as [<- | Hy]; [exists a; split; [left; reflexivity | exact Hab] |]. destruct (IH Hy) as (x & Hx & HP). exists x. split; [right; exact Hx | exact HP]. Qed.
Lemma Forall2_in_left : forall A B (P : A -> B -> Prop) xs ys x, Forall2 P xs ys -> In x xs -> exists y, In y ys /\ P x y.
Proof. intros A B P xs ys x H. induction H as [| a b xs ys Hab H IH]; intros Hx; [destruct Hx |]. destruct Hx as [<- | Hx]; [exists b; split; [left; reflexivity | exact Hab] |]. destruct (IH Hx) as (y & Hy & HP). exists y. split; [right; exact Hy | exact HP]. Qed.
Section Blocks.
Variable rows : list day_row.
Hypothesis numbered : forall i d, nth_error rows i = Some d ->
  d_day d = Z.of_nat i /\ d_run d = Z.of_nat (count_true (firstn (S i) (map d_event rows))).
Variable l : list (nat * nat).
Hypothesis tiled : tiles (event_row rows) (List.length rows) 0 l.

Lemma run_nodup : NoDup (map (run_at rows) l).
Proof. rewrite <- (runs_list rows numbered l tiled). apply NoDup_sorted, zset_sorted. Qed.
Lemma run_in_block : forall ab d, In ab l -> In d (block rows ab) -> d_run d = run_at rows ab.
Proof.
  intros ab d Hab Hd. rewrite <- (block_rows rows numbered l ab tiled Hab) in Hd. apply filter_In in Hd. apply Z.eqb_eq. apply Hd.
Qed.



Definition row_of_interval (d : day_row) (e : analyzed) (i : interval) : Prop :=
  i_run i = d_run d /\ a_days e = ((d_date d - i_start i) / ns_day)%Z /\ a_valid e = i_valid i /\
  a_loss_perfect e = fill1 (fadd (fz 1) (fmul (fz (a_days e)) (i_slope i))) /\ a_loss_inferred e = fill1 (fadd (i_start_loss i) (fmul (fz (a_days e)) (i_slope i))).

Lemma analyzed_rows : forall trim table, Forall2 (fun ab i => i_run i = run_at rows ab) (kept_blocks trim l) table ->
  Forall2 (fun d e => a_date e = d_date d /\ a_insol e = d_insol d /\ a_run e = d_run d /\ exists i, In i table /\ row_of_interval d e i)
    (List.concat (map (block rows) (kept_blocks trim l))) (flat_map (analyze_row table) rows).
Proof.
  intros trim table F. assert (map i_run table = map (run_at rows) (kept_blocks trim l)) as EM.
  { clear -F. induction F as [| ab i m t E F IH]; [reflexivity |]. cbn. rewrite E, IH. reflexivity. }
  assert (flat_map (analyze_row table) rows = flat_map (analyze_row table) (List.concat (map (block rows) (kept_blocks trim l)))) as ->.
  { assert (forall ab, In ab l -> ~ In (run_at rows ab) (map (run_at rows) (kept_blocks trim l)) -> flat_map (analyze_row table) (block rows ab) = []) as OUT.
    { intros ab Hab N. apply flat_map_none. intros d Hd. apply analyze_none. intros i Hi C. apply N. rewrite <- EM, <- (run_in_block ab d Hab Hd), <- C. apply in_map. exact Hi. }
    rewrite <- (skipn_O rows) at 1. rewrite <- (tiles_partition _ _ _ rows 0 l eq_refl tiled). pose proof run_nodup as ND.
    destruct (kept_parts trim l) as [-> | [(_ & x & El & Ek) | (_ & x & z & El)]]; [reflexivity | |].
    - rewrite Ek in *. rewrite El in *. cbn [map List.concat]. rewrite app_nil_r, (OUT x); [reflexivity | left; reflexivity | intros []].
    - set (k := kept_blocks trim l) in *. rewrite El in ND |- * at 1. cbn [map List.concat]. rewrite map_app, concat_app. cbn [map List.concat]. rewrite app_nil_r, !flat_map_app.
      cbn [map] in ND. rewrite map_app in ND. inversion ND as [| a b N1 N2]; subst a b. rewrite (OUT x), (OUT z), app_nil_r; [reflexivity | | | |].
      + rewrite El. right. apply in_or_app. right. left. reflexivity.
      + apply NoDup_remove_2 in N2. rewrite app_nil_r in N2. exact N2.
      + rewrite El. left. reflexivity.
      + intros C. apply N1. apply in_or_app. left. exact C. }
  apply flat_map_one. intros d Hd. apply in_concat in Hd. destruct Hd as (b & Hb & Hd). apply in_map_iff in Hb. destruct Hb as (ab & <- & Hab).
  destruct (Forall2_in_left _ _ _ _ _ ab F Hab) as (i & Hi & Ei). pose proof (run_in_block ab d (In_kept _ _ _ Hab) Hd) as Er.
  destruct (analyze_one table i d Hi ltac:(congruence)) as (e & E & E1 & E2 & E3 & E4 & E5 & E6 & E7).
  - intros i' Hi' Ei'. apply (NoDup_map_inj _ _ i_run table); [| exact Hi' | exact Hi | congruence]. rewrite EM. apply NoDup_kept, run_nodup.
  - exists e. split; [exact E |]. split; [exact E1 |]. split; [exact E2 |]. split; [exact E3 |]. exists i. split; [exact Hi |]. unfold row_of_interval. rewrite E4 in *. repeat split; congruence.
Qed.
End Blocks.

Theorem intervals_spec : forall pm insolation precip day_scale thr recenter c pthr factor r rows,
  calc_daily_df pm insolation precip day_scale thr recenter c pthr factor = Ok (r, rows) ->
  exists l, tiles (fun i => exists d, nth_error rows i = Some d /\ d_event d = true) (List.length rows) 0 l /\ List.concat (map (block rows) l) = rows /\
  forall fit trim limit step minimum out, calc_result_df fit rows trim limit step minimum = Ok out ->
    Forall2 (fun ab i => exists x y, spans rows ab x y /\ i_start (fst i) = d_date x /\ i_end (fst i) = d_date y /\
               i_length (fst i) = (Z.of_nat (snd ab) - Z.of_nat (fst ab))%Z /\ i_run (fst i) = d_run x)
      (kept_blocks trim l) (s_table out) /\
    Forall2 (fun d e => a_date e = d_date d /\ a_insol e = d_insol d /\ a_run e = d_run d /\
               exists i, In i (map fst (s_table out)) /\ i_run i = d_run d /\ a_days e = ((d_date d - i_start i) / ns_day)%Z /\ a_valid e = i_valid i /\
                 a_loss_perfect e = fill1 (fadd (fz 1) (fmul (fz (a_days e)) (i_slope i))) /\
                 a_loss_inferred e = fill1 (fadd (i_start_loss i) (fmul (fz (a_days e)) (i_slope i))))
      (List.concat (map (block rows) (kept_blocks trim l))) (s_daily out).
Proof.
  intros pm insolation precip day_scale thr recenter c pthr factor r rows H. destruct (daily_numbered _ _ _ _ _ _ _ _ _ _ _ H) as [NE NUM]. clear H.
  destruct (tiles_exists (event_row rows) (List.length rows) (event_dec rows) 0) as [l Hl]; [destruct rows; [contradiction | cbn; lia] |].
  exists l. split; [exact Hl |]. split; [rewrite (tiles_partition _ _ _ rows 0 l eq_refl Hl); reflexivity |]. intros fit trim limit step minimum out HO.
  destruct (result_blocks rows NUM fit trim limit step minimum l Hl) as (fits & F & E). cbv zeta in E. rewrite HO in E. set (table := map (flatten (rejected limit step)) fits) in *.
  destruct (existsb i_valid table); [| discriminate]. injection E as ->. cbn [s_table s_daily].
  assert (Forall2 (fun ab i => exists x y, spans rows ab x y /\ i_start i = d_date x /\ i_end i = d_date y /\ i_length i = (Z.of_nat (snd ab) - Z.of_nat (fst ab))%Z /\ i_run i = d_run x /\ i_run i = run_at rows ab)
            (kept_blocks trim l) table) as FT.
  { unfold table. assert (forall ab, In ab (kept_blocks trim l) -> In ab l) as IK by (intros ab; apply In_kept). revert IK F. generalize (kept_blocks trim l) as k. intros k IK F. clear table HO. revert IK. induction F as [| ab i k m Ei F IH]; intros IK; [constructor |]. cbn [map]. constructor.
    - destruct (fit_block_shape rows NUM fit minimum l ab Hl (IK ab (or_introl eq_refl))) as (i' & x & y & E & S & E1 & E2 & E3 & E4 & E5). rewrite Ei in E. injection E as <-.
      destruct (flatten_keeps (rejected limit step) i) as (K1 & K2 & K3 & K4). exists x, y. rewrite K1, K2, K3, K4. auto 10.
    - apply IH. intros ab' H'. apply IK. right. exact H'. }
  split.
  - eapply F2_impl; [| apply Forall2_combine; [apply recoveries_length | exact FT]]. cbn. intros ab [i rec] (x & y & S & E1 & E2 & E3 & E4 & _). exists x, y. auto 10.
  - assert (map fst (combine table (recoveries table)) = table) as ->.
    { pose proof (recoveries_length table) as L. revert L. generalize (recoveries table) as rc. generalize table as t. clear. induction t as [| i t IH]; intros rc L; [reflexivity |]. destruct rc; [discriminate |]. cbn. rewrite IH; [reflexivity | cbn in L; lia]. }
    apply (analyzed_rows rows NUM l Hl trim table). eapply F2_impl; [| exact FT]. cbn. intros ab i (x & y & S & E1 & E2 & E3 & E4 & E5). exact E5.
Qed.
