(** The order of the subsystems of an availability analysis. *)

From Coq Require Import QArith Qcanon List ZArith Bool Arith Permutation Lia.
From Verif.Base Require Import QcExtra ISort Quantile Fl TimeSeries.
From Verif.Model Require Import Utilities Interpolation Energy Clipping Availability AvailabilityPlots.
From Verif.Spec Require Import Reorder.
Import ListNotations.
Open Scope Qc_scope.

Lemma order_in : forall n p j, an_order n p -> In j p -> (j < n)%nat.
Proof. intros n p j H I. apply (Permutation_in _ H) in I. apply in_seq in I. lia. Qed.
Lemma order_length : forall n p, an_order n p -> length p = n.
Proof. intros n p H. rewrite (Permutation_length H). apply seq_length. Qed.
Lemma reorder_length : forall A (d : A) n p l, an_order n p -> length (reorder d p l) = n.
Proof. intros. unfold reorder. rewrite map_length. now apply order_length. Qed.
Lemma nth_seq_all : forall A (d : A) l, map (fun j => nth j l d) (seq 0 (length l)) = l.
Proof.
  intros A d l. induction l as [|a l IH]; [reflexivity|]. cbn [length seq map nth]. f_equal. rewrite <- seq_shift, map_map. exact IH.
Qed.
Lemma reorder_perm : forall A (d : A) n p l, an_order n p -> length l = n -> Permutation (reorder d p l) l.
Proof.
  intros A d n p l H L. unfold reorder. transitivity (map (fun j => nth j l d) (seq 0 (length l))); [rewrite L; now apply Permutation_map|now rewrite nth_seq_all].
Qed.
Lemma reorder_default : forall A (d d' : A) n p l, an_order n p -> length l = n -> reorder d p l = reorder d' p l.
Proof. intros A d d' n p l H L. apply map_ext_in. intros j I. apply nth_indep. rewrite L. exact (order_in n p j H I). Qed.
Lemma reorder_map : forall A B (f : A -> B) d d' n p l, an_order n p -> length l = n -> map f (reorder d p l) = reorder d' p (map f l).
Proof.
  intros A B f d d' n p l H L. rewrite (reorder_default B d' (f d) n p (map f l) H) by now rewrite map_length.
  unfold reorder. rewrite map_map. apply map_ext. intros j. symmetry. apply map_nth.
Qed.
Lemma zip_same_list : forall A B C D (f : B -> C -> D) (g : A -> B) (h : A -> C) l, zip f (map g l) (map h l) = map (fun j => f (g j) (h j)) l.
Proof. intros A B C D f g h l. unfold zip. induction l as [|a l IH]; [reflexivity|]. cbn. now rewrite IH. Qed.
Lemma zip_length : forall A B C (f : A -> B -> C) a b n, length a = n -> length b = n -> length (zip f a b) = n.
Proof. intros. unfold zip. rewrite map_length, combine_length. lia. Qed.
Lemma zip_nth : forall A B C (f : A -> B -> C) da db dc a b j, length a = length b -> (j < length a)%nat -> nth j (zip f a b) dc = f (nth j a da) (nth j b db).
Proof.
  intros A B C f da db dc a. induction a as [|x a IH]; intros b j L Hj; [cbn in Hj; lia|].
  destruct b as [|y b]; [discriminate L|]. destruct j as [|j]; [reflexivity|]. cbn in *. apply IH; lia.
Qed.
Lemma reorder_zip : forall A B C (f : A -> B -> C) da db dc n p a b, an_order n p -> length a = n -> length b = n ->
  zip f (reorder da p a) (reorder db p b) = reorder dc p (zip f a b).
Proof.
  intros A B C f da db dc n p a b H La Lb. unfold reorder. rewrite zip_same_list. apply map_ext_in. intros j I.
  pose proof (order_in n p j H I). symmetry. apply zip_nth; lia.
Qed.
Lemma columns_reorder : forall n p rows, an_order n p -> columns n (map (reorder NaN p) rows) = reorder [] p (columns n rows).
Proof.
  intros n p rows H. unfold reorder at 2. transitivity (map (fun j => column j rows) p).
  - transitivity (map (fun j => column j rows) (map (fun i => nth i p 0%nat) (seq 0 (length p)))); [|now rewrite nth_seq_all]. rewrite map_map, (order_length n p H). unfold columns. apply map_ext_in. intros i I. apply in_seq in I.
    unfold column. rewrite map_map. apply map_ext. intros r. unfold reorder.
    rewrite (nth_indep _ NaN (nth 0 r NaN)) by (rewrite map_length, (order_length n p H); lia).
    exact (map_nth (fun j => nth j r NaN) p 0%nat i).
  - apply map_ext_in. intros j I. pose proof (order_in n p j H I) as Lj. unfold columns.
    rewrite (nth_indep _ [] (column 0 rows)) by (rewrite map_length, seq_length; lia).
    rewrite (map_nth (fun j => column j rows) (seq 0 n) 0%nat j), seq_nth by lia. reflexivity.
Qed.
Lemma columns_length : forall n rows, length (columns n rows) = n.
Proof. intros. unfold columns. now rewrite map_length, seq_length. Qed.

(** ** Sums, means and smallest values do not depend on the order *)
Lemma fadd_swap : forall x y z, fadd x (fadd y z) = fadd y (fadd x z).
Proof. intros [| |?|] [| |?|] [| |?|]; try reflexivity. cbn. f_equal. ring. Qed.
Lemma dropna_perm : forall l l', Permutation l l' -> Permutation (dropna l) (dropna l').
Proof.
  intros l l' H. induction H; cbn; try (destruct (notnan x)); try (destruct (notnan y)); eauto using Permutation.
Qed.
Lemma fsum_perm : forall l l', Permutation l l' -> fsum l = fsum l'.
Proof.
  intros l l' H. apply dropna_perm in H. unfold fsum. induction H; cbn [fold_right]; [reflexivity|now rewrite IHPermutation|apply fadd_swap|congruence].
Qed.
Lemma fmean_perm : forall l l', Permutation l l' -> fmean l = fmean l'.
Proof. intros l l' H. unfold fmean, fcount. rewrite (fsum_perm l l' H), (Permutation_length (dropna_perm l l' H)). reflexivity. Qed.
Lemma forallb_perm : forall A (f : A -> bool) l l', Permutation l l' -> forallb f l = forallb f l'.
Proof. intros A f l l' H. induction H; cbn; [reflexivity|now rewrite IHPermutation|destruct (f x), (f y); reflexivity|congruence]. Qed.
Lemma existsb_perm : forall A (f : A -> bool) l l', Permutation l l' -> existsb f l = existsb f l'.
Proof. intros A f l l' H. induction H; cbn; [reflexivity|now rewrite IHPermutation|destruct (f x), (f y); reflexivity|congruence]. Qed.
Lemma fmin2_swap : forall x y z, fmin2 x (fmin2 y z) = fmin2 y (fmin2 x z).
Proof.
  intros [| |x|] [| |y|] [| |z|]; cbn; try reflexivity.
  all: repeat match goal with |- context [qle ?a ?b] => destruct (qle a b) eqn:?; cbn end; try reflexivity; qb; try (exfalso; qlra); f_equal; qlra.
Qed.
Lemma fminimum_perm : forall l l', Permutation l l' -> fminimum l = fminimum l'.
Proof.
  intros l l' H. unfold fminimum. induction H; cbn [fold_right]; [reflexivity|now rewrite IHPermutation|apply fmin2_swap|congruence].
Qed.

(** ** The subsystem loss *)
Section Order.
Variables (n : nat) (p : list nat).
Hypothesis Hp : an_order n p.
Local Notation ro := (reorder NaN p).

Lemma online_reorder : forall thr row, length thr = n -> length row = n -> looks_online (ro thr) (ro row) = reorder false p (looks_online thr row).
Proof. intros. unfold looks_online. now apply (reorder_zip _ _ _ _ NaN NaN false n). Qed.
Lemma online_length : forall thr row, length thr = n -> length row = n -> length (looks_online thr row) = n.
Proof. intros. now apply zip_length. Qed.
Lemma reporting_reorder : forall thr row, length thr = n -> length row = n -> reporting (ro thr) (ro row) = ro (reporting thr row).
Proof.
  intros thr row Lt Lr. unfold reporting. rewrite online_reorder by assumption. apply (reorder_zip _ _ _ _ false NaN NaN n); auto. now apply online_length.
Qed.
Lemma reporting_length : forall thr row, length thr = n -> length row = n -> length (reporting thr row) = n.
Proof. intros. unfold reporting. apply zip_length; [now apply online_length|assumption]. Qed.
Lemma fractions_reorder : forall s, length s = n -> fractions (ro s) = ro (fractions s).
Proof.
  intros s L. unfold fractions. rewrite (fsum_perm _ _ (reorder_perm _ NaN n p s Hp L)). now apply (reorder_map _ _ _ NaN NaN n).
Qed.
Lemma fractions_length : forall s, length s = n -> length (fractions s) = n.
Proof. intros. unfold fractions. now rewrite map_length. Qed.
Lemma row_loss_reorder : forall thr sizes limit power row, length thr = n -> length sizes = n -> length row = n ->
  row_loss n (ro thr) (ro sizes) limit power (ro row) = row_loss n thr sizes limit power row.
Proof.
  intros thr sizes limit power row Lt Ls Lr. unfold row_loss.
  rewrite reporting_reorder, online_reorder, fractions_reorder by assumption.
  pose proof (reporting_length thr row Lt Lr) as L1. pose proof (online_length thr row Lt Lr) as L2. pose proof (fractions_length sizes Ls) as L3.
  rewrite (reorder_zip _ _ _ fdiv NaN NaN NaN n p _ _ Hp L1 Ls).
  rewrite (reorder_zip _ _ _ fle NaN NaN false n p _ _ Hp Lr Lt).
  rewrite (reorder_zip _ _ _ (fun (b : bool) f => if b then f else NaN) false NaN NaN n p _ _ Hp (zip_length _ _ _ _ _ _ n Lr Lt) L3).
  rewrite (reorder_zip _ _ _ (fun (b : bool) f => fmul (fz (if b then 1 else 0)) f) false NaN NaN n p _ _ Hp L2 L3).
  rewrite (fmean_perm _ _ (reorder_perm _ NaN n p _ Hp (zip_length _ _ _ fdiv _ _ n L1 Ls))).
  rewrite (fminimum_perm _ _ (reorder_perm _ NaN n p _ Hp (zip_length _ _ _ _ _ _ n (zip_length _ _ _ fle _ _ n Lr Lt) L3))).
  rewrite (fsum_perm _ _ (reorder_perm _ NaN n p _ Hp (zip_length _ _ _ _ _ _ n L2 L3))).
  rewrite (forallb_perm _ (fun b : bool => b) _ _ (reorder_perm _ false n p _ Hp L2)). reflexivity.
Qed.

Lemma thresholds_reorder : forall given rows, one_each n given -> thresholds n (option_map ro given) (map ro rows) = ro (thresholds n given rows).
Proof.
  intros [l|] rows F; [reflexivity|]. cbn [option_map thresholds]. rewrite columns_reorder by exact Hp.
  apply (reorder_map _ _ _ [] NaN n); [exact Hp|apply columns_length].
Qed.
Lemma thresholds_length : forall given rows, one_each n given -> length (thresholds n given rows) = n.
Proof. intros [l|] rows F; [exact F|]. cbn. rewrite map_length. apply columns_length. Qed.
Lemma sizes_reorder : forall given thr rows, one_each n given -> length thr = n -> Forall (fun r => length r = n) rows ->
  sizes_of n (option_map ro given) (ro thr) (map ro rows) = ro (sizes_of n given thr rows).
Proof.
  intros [l|] thr rows F Lt Lr; [reflexivity|]. cbn [option_map sizes_of]. rewrite map_map.
  rewrite (map_ext_in _ (fun r => ro (let x := reporting thr r in map (fun v => fdiv v (fmean x)) x))).
  - rewrite <- (map_map (fun r => let x := reporting thr r in map (fun v => fdiv v (fmean x)) x) ro).
    rewrite columns_reorder by exact Hp. apply (reorder_map _ _ _ [] NaN n); [exact Hp|apply columns_length].
  - intros r I. rewrite Forall_forall in Lr. specialize (Lr r I). cbv zeta. rewrite reporting_reorder by assumption.
    pose proof (reporting_length thr r Lt Lr) as L1. rewrite (fmean_perm _ _ (reorder_perm _ NaN n p _ Hp L1)). now apply (reorder_map _ _ _ NaN NaN n).
Qed.
Lemma sizes_length : forall given thr rows, one_each n given -> length (sizes_of n given thr rows) = n.
Proof. intros [l|] thr rows F; [exact F|]. cbn. rewrite map_length. apply columns_length. Qed.
Lemma zip_map_r : forall A B B' C (f : A -> B' -> C) (g : B -> B') a b, zip f a (map g b) = zip (fun x y => f x (g y)) a b.
Proof.
  intros A B B' C f g a. unfold zip. induction a as [|x a IH]; intros [|y b]; try reflexivity. cbn. now rewrite IH.
Qed.
Lemma zip_ext_r : forall A B C (f g : A -> B -> C) a b, (forall x y, In y b -> f x y = g x y) -> zip f a b = zip g a b.
Proof.
  intros A B C f g a b H. unfold zip. apply map_ext_in. intros [x y] I. apply H. now apply in_combine_r in I.
Qed.
Theorem calc_reorder : forall low sizes limits power rows, one_each n low -> one_each n sizes -> Forall (fun r => length r = n) rows ->
  calc_loss_subsystem n (option_map ro low) (option_map ro sizes) limits power (map ro rows) =
  (map (reorder false p) (fst (calc_loss_subsystem n low sizes limits power rows)), snd (calc_loss_subsystem n low sizes limits power rows)).
Proof.
  intros low sizes limits power rows F1 F2 Lr. unfold calc_loss_subsystem. cbv zeta. cbn [fst snd].
  set (filled := map (map (fillna (fz 0))) rows).
  assert (Ef : map (map (fillna (fz 0))) (map ro rows) = map ro filled).
  { unfold filled. rewrite !map_map. apply map_ext_in. intros r I. rewrite Forall_forall in Lr. apply (reorder_map _ _ _ NaN NaN n); auto. }
  assert (Lf : Forall (fun r => length r = n) filled).
  { unfold filled. apply Forall_forall. intros r I. apply in_map_iff in I. destruct I as (r0 & <- & I). rewrite map_length. rewrite Forall_forall in Lr. auto. }
  rewrite Ef. clearbody filled. clear Ef.
  rewrite thresholds_reorder by exact F1. pose proof (thresholds_length low filled F1) as Lt. set (thr := thresholds n low filled) in *. clearbody thr.
  rewrite sizes_reorder by assumption. pose proof (sizes_length sizes thr filled F2) as Ls. set (sz := sizes_of n sizes thr filled) in *. clearbody sz.
  rewrite Forall_forall in Lf. f_equal.
  - rewrite !map_map. apply map_ext_in. intros r I. apply online_reorder; auto.
  - rewrite zip_map_r. apply zip_ext_r. intros x r I. apply row_loss_reorder; auto.
Qed.
Lemma masks_length : forall low sizes limits power rows, one_each n low -> Forall (fun r => length r = n) rows ->
  Forall (fun m => length m = n) (fst (calc_loss_subsystem n low sizes limits power rows)).
Proof.
  intros low sizes limits power rows F1 Lr. unfold calc_loss_subsystem. cbv zeta. cbn [fst]. apply Forall_forall. intros m I.
  apply in_map_iff in I. destruct I as (r & <- & I). apply in_map_iff in I. destruct I as (r0 & <- & I). rewrite Forall_forall in Lr.
  apply online_length; [now apply thresholds_length|rewrite map_length; auto].
Qed.
Lemma zip_map_l : forall A A' B C (f : A' -> B -> C) (g : A -> A') a b, zip f (map g a) b = zip (fun x y => f (g x) y) a b.
Proof.
  intros A A' B C f g a. unfold zip. induction a as [|x a IH]; intros [|y b]; try reflexivity. cbn. now rewrite IH.
Qed.
Lemma daylight_reorder : forall masks expected, Forall (fun m => length m = n) masks ->
  daylight_offline (map (reorder false p) masks) expected = daylight_offline masks expected.
Proof.
  intros masks expected L. unfold daylight_offline. rewrite zip_map_l. unfold zip. apply map_ext_in. intros [m e] I. apply in_combine_l in I.
  rewrite Forall_forall in L. cbn [fst snd]. rewrite (existsb_perm _ (fun b : bool => b) _ _ (reorder_perm _ false n p m Hp (L m I))). reflexivity.
Qed.
Theorem run_reorder : forall freq index system rows meter expected low sizes limits quantiles period,
  one_each n low -> one_each n sizes -> Forall (fun r => length r = n) rows ->
  run freq index n system (map ro rows) meter expected (option_map ro low) (option_map ro sizes) limits quantiles period =
  bind (run freq index n system rows meter expected low sizes limits quantiles period) (fun r => Ok (relabelled p r)).
Proof.
  intros freq index system rows meter expected low sizes limits quantiles period F1 F2 Lr. unfold run. rewrite calc_reorder by assumption.
  pose proof (masks_length low sizes limits system rows F1 Lr) as L.
  destruct (calc_loss_subsystem n low sizes limits system rows) as [masks loss]. cbn [fst snd] in *.
  destruct (calc_error_distributions freq index loss system expected quantiles) as [e|]; cbn [bind]; [|reflexivity].
  unfold calc_loss_system. rewrite daylight_reorder by exact L.
  match goal with |- bind ?x _ = _ => destruct x as [r|]; cbn [bind]; [|reflexivity] end.
  destruct (combine_losses freq period index (fst (snd r)) loss (snd (snd r))); reflexivity.
Qed.
Theorem object_reorder : forall (q : plant) (g : run_options) (s : attributes), p_count q = n -> one_each n (g_low g) -> one_each n (g_sizes g) -> Forall (fun r => length r = n) (p_subsystem q) ->
  run_object (Plant (p_freq q) (p_index q) n (p_system q) (map ro (p_subsystem q)) (p_meter q) (p_expected q))
    (RunOptions (option_map ro (g_low g)) (option_map ro (g_sizes g)) (g_limits g) (g_quantiles g) (g_period g)) s = run_object q g s.
Proof.
  intros q g s Hn F1 F2 Lr. unfold run_object. rewrite Hn. cbn [p_freq p_index p_count p_system p_subsystem p_meter p_expected g_low g_sizes g_limits g_quantiles g_period].
  rewrite calc_reorder by assumption. pose proof (masks_length (g_low g) (g_sizes g) (g_limits g) (p_system q) (p_subsystem q) F1 Lr) as L.
  destruct (calc_loss_subsystem n (g_low g) (g_sizes g) (g_limits g) (p_system q) (p_subsystem q)) as [masks loss]. cbn [fst snd] in *.
  unfold calc_loss_system. rewrite daylight_reorder by exact L. reflexivity.
Qed.
Theorem plot_reorder : forall (q : plant) (s : attributes),
  plot_object (Plant (p_freq q) (p_index q) (p_count q) (p_system q) (map ro (p_subsystem q)) (p_meter q) (p_expected q)) s =
  bind (plot_object q s) (fun f => Ok (AvailabilityFigure (v_system f) (map (fun r => (fst r, ro (snd r))) (v_subsystems f)) (v_lost f) (v_meter f) (v_outages f))).
Proof.
  intros q s. unfold plot_object. cbn [p_freq p_index p_count p_system p_subsystem p_meter p_expected].
  destruct (a_total s) as [total|]; [|reflexivity]. destruct (a_energy s) as [energy|]; [|reflexivity]. destruct (a_outages s) as [os|]; [|reflexivity].
  unfold availability_summary_plots. destruct (mark_outages (p_index q) energy os); [|reflexivity]. cbn [bind v_system v_subsystems v_lost v_meter v_outages]. do 2 f_equal.
  generalize (p_subsystem q). induction (p_index q) as [|t ts IH]; intros [|r rows]; try reflexivity. cbn. now rewrite IH.
Qed.
End Order.

(** ** One time at a time *)
Lemma zip_app : forall A B C (f : A -> B -> C) a a' b b', length a = length b -> zip f (a ++ a') (b ++ b') = zip f a b ++ zip f a' b'.
Proof.
  intros A B C f a. unfold zip. induction a as [|x a IH]; intros a' [|y b] b' L; try discriminate L; [reflexivity|]. cbn. f_equal. apply IH. now injection L.
Qed.
Lemma combine_app : forall A B (a a' : list A) (b b' : list B), length a = length b -> combine (a ++ a') (b ++ b') = combine a b ++ combine a' b'.
Proof. intros A B a. induction a as [|x a IH]; intros a' [|y b] b' L; try discriminate L; [reflexivity|]. cbn. f_equal. apply IH. now injection L. Qed.
Theorem calc_local : forall n thr sizes power power' rows rows' limits limits',
  length rows = length power -> length limits = length power ->
  calc_loss_subsystem n (Some thr) (Some sizes) (Some (limits ++ limits')) (power ++ power') (rows ++ rows') =
    (fst (calc_loss_subsystem n (Some thr) (Some sizes) (Some limits) power rows) ++ fst (calc_loss_subsystem n (Some thr) (Some sizes) (Some limits') power' rows'),
     snd (calc_loss_subsystem n (Some thr) (Some sizes) (Some limits) power rows) ++ snd (calc_loss_subsystem n (Some thr) (Some sizes) (Some limits') power' rows')) /\
  calc_loss_subsystem n (Some thr) (Some sizes) None (power ++ power') (rows ++ rows') =
    (fst (calc_loss_subsystem n (Some thr) (Some sizes) None power rows) ++ fst (calc_loss_subsystem n (Some thr) (Some sizes) None power' rows'),
     snd (calc_loss_subsystem n (Some thr) (Some sizes) None power rows) ++ snd (calc_loss_subsystem n (Some thr) (Some sizes) None power' rows')).
Proof.
  intros n thr sizes power power' rows rows' limits limits' L1 L2. unfold calc_loss_subsystem, thresholds, sizes_of. cbv zeta. cbn [fst snd].
  rewrite !map_app. split; f_equal.
  - rewrite combine_app by (rewrite !map_length; lia). apply zip_app. rewrite combine_length, !map_length. lia.
  - rewrite combine_app by (rewrite !map_length; lia). apply zip_app. rewrite combine_length, !map_length. lia.
Qed.
