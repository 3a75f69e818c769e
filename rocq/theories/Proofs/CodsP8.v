(** Proofs about the frame of the Kalman filter. *)

From Coq Require Import QArith Qcanon List ZArith Bool Arith Lia String Sorted Permutation.
From Verif.Base Require Import QcExtra ISort Quantile Fl TimeSeries Calendar Rolling.
From Verif.Spec Require Import Stats Soiling Cods Kalman.
From Verif.Model Require Import Soiling CodsTools CodsKalman.
From Verif.Proofs Require Import FlP StatsP FiltersP FiltersP2 SoilP2 CodsP CodsP3 CodsP5 CodsP6 CodsP7.
Import ListNotations.
Open Scope list_scope.
Open Scope Qc_scope.

(** ** Event rows *)

Definition flags (n : nat) (ce : list nat) : list bool := map (fun i => member i ce) (seq 0 n).
Lemma event_flags : forall n ce i, good n ce -> (event (flags n ce) i <-> In i ce).
Proof.
  intros n ce i [_ F]. unfold event, flags. rewrite nth_error_map_some, nth_error_seq. split.
  - destruct (i <? n)%nat; [|discriminate]. intros E. injection E as E. apply member_In in E. exact E.
  - intros I. rewrite Forall_forall in F. assert (i <? n = true)%nat as -> by (apply Nat.ltb_lt; apply F, I). f_equal. apply member_In, I.
Qed.

Lemma at_map_seq : forall (g : nat -> fl) n i, (i < n)%nat -> at_row (map g (seq 0 n)) i = g i.
Proof. intros g n i H. apply at_row_error. rewrite nth_error_map_some, nth_error_seq. apply Nat.ltb_lt in H. rewrite H. reflexivity. Qed.
Lemma at_combine : forall (g : fl * fl -> fl) a b i, (i < List.length a)%nat -> (i < List.length b)%nat -> at_row (map g (combine a b)) i = g (at_row a i, at_row b i).
Proof.
  intros g a b i Ha Hb. apply at_row_error. rewrite nth_error_map_some, nth_error_combine, (error_at_row a i Ha), (error_at_row b i Hb). reflexivity.
Qed.
Lemma fill_forward_length : forall l, List.length (fill_forward l) = List.length l.
Proof. exact (fill_length true). Qed.

Lemma days_spec : forall n ce i, good n ce -> (i < n)%nat ->
  exists d, days_since_event (flags n ce) i d /\ nth_error (days_since n ce) i = Some (Fin (qz (Z.of_nat d))).
Proof.
  intros n ce i G Hi. unfold days_since. cbv zeta. rewrite nth_error_map_some, nth_error_combine, nth_error_seq.
  assert (i <? n = true)%nat as -> by (apply Nat.ltb_lt; exact Hi).
  set (starts := map _ (seq 0 n)). assert (Ls : List.length starts = n) by (unfold starts; rewrite map_length, seq_length; reflexivity).
  rewrite (error_at_row (fill_forward starts) i) by (rewrite fill_forward_length, Ls; exact Hi). cbn [fst snd plus].
  assert (A : forall j, (j < n)%nat -> at_row starts j = if (j =? 0)%nat then fz 0 else if member j ce then fz (Z.of_nat j) else NaN) by (intros j Hj; unfold starts; rewrite at_map_seq by exact Hj; reflexivity).
  destruct (fill_forward_at starts i) as [(j & Hj & V & M & E)|[M E]]; [lia| |].
  - rewrite E. assert (VJ : at_row starts j = fz (Z.of_nat j)).
    { rewrite A in V |- * by lia. destruct (Nat.eqb_spec j 0) as [->|N]; [reflexivity|]. destruct (member j ce); [reflexivity|congruence]. }
    rewrite VJ. exists (i - j)%nat. split.
    + assert (Q : forall m, (j < m <= i)%nat -> ~ In m ce).
      { intros m Hm I. apply member_In in I. specialize (M m Hm). rewrite A in M by lia. rewrite I in M. destruct (m =? 0)%nat; discriminate M. }
      destruct (member j ce) eqn:EJ.
      * left. exists j. split; [|reflexivity]. split; [apply event_flags; [exact G|apply member_In, EJ]|]. split; [exact Hj|].
        intros m Hm I. apply event_flags in I; [|exact G]. exact (Q m Hm I).
      * assert (J0 : j = 0%nat). { rewrite A in V by lia. destruct (Nat.eqb_spec j 0) as [H|H]; [exact H|]. rewrite EJ in V. congruence. }
        subst j. right. split; [|lia]. intros e (I & He & _). apply event_flags in I; [|exact G].
        destruct e as [|e]; [apply member_In in I; congruence|]. apply (Q (S e)); [lia|exact I].
    + unfold fz. cbn [fsub fadd fneg]. do 2 apply f_equal. rewrite Nat2Z.inj_sub by exact Hj.
      unfold Z.sub. rewrite qz_add, qz_opp. ring.
  - specialize (M 0%nat ltac:(lia)). rewrite A in M by lia. discriminate M.
Qed.

(** ** Soiling ratio with perfect cleaning *)

Lemma at_fin : forall levels i, (i < List.length levels)%nat -> at_row (map Fin levels) i = Fin (nth i levels 0).
Proof. intros levels i H. apply at_row_error. rewrite nth_error_map_some, (nth_error_nth' levels 0 H). reflexivity. Qed.

Lemma latest_exists : forall n ce i f, good n ce -> In f ce -> (f <= i)%nat -> (i < n)%nat -> exists e, latest_event (flags n ce) i e.
Proof.
  intros n ce i f G. remember (i - f)%nat as m eqn:Em. revert f Em. induction m as [m IH] using lt_wf_ind. intros f Em I H L.
  destruct (find (fun j => member j ce) (seq (S f) (i - f))) as [j|] eqn:EF.
  - apply find_seq_some in EF. destruct EF as (Hj & Mj & _). apply member_In in Mj. apply (IH (i - j)%nat ltac:(lia) j eq_refl Mj); lia.
  - exists f. split; [apply event_flags; assumption|]. split; [exact H|]. intros j Hj C. apply event_flags in C; [|exact G]. apply member_In in C.
    rewrite (find_seq_none _ _ _ EF j ltac:(lia)) in C. discriminate C.
Qed.
Lemma latest_unique : forall ev i a b, latest_event ev i a -> latest_event ev i b -> a = b.
Proof.
  intros ev i a b (Ea & La & Na) (Eb & Lb & Nb). destruct (Nat.lt_trichotomy a b) as [H|[H|H]]; [|exact H|]; exfalso.
  - exact (Na b ltac:(lia) Eb).
  - exact (Nb a ltac:(lia) Ea).
Qed.

Section Perfect.
Variables (levels : list Qc) (ce : list nat) (first : nat) (rest : list nat).
Let n := List.length levels.
Hypothesis nonzero : forall x, In x levels -> x <> 0.
Hypothesis G : good n ce.
Hypothesis C : ce = first :: rest.
Let ev := flags n ce.

Lemma first_lowest : forall e, In e ce -> (first <= e)%nat.
Proof.
  intros e I. destruct G as [S _]. rewrite C in *. apply StronglySorted_inv in S. destruct S as [_ S]. rewrite Forall_forall in S.
  destruct I as [<-|I]; [lia|apply S, I].
Qed.
Lemma first_is : first_event ev first.
Proof.
  split; [apply event_flags; [exact G|rewrite C; left; reflexivity]|]. intros j Hj I. apply event_flags in I; [|exact G]. apply first_lowest in I. lia.
Qed.
Lemma level_nonzero : forall e, (e < n)%nat -> nth e levels 0 <> 0.
Proof. intros e H. apply nonzero, nth_In. exact H. Qed.

Lemma after_row : forall i, (i < n)%nat ->
  (exists e, latest_event ev i e /\ at_row (after_cleaning ce (map Fin levels)) i = Fin (nth e levels 0)) \/
  ((i < first)%nat /\ at_row (after_cleaning ce (map Fin levels)) i = NaN).
Proof.
  intros i Hi. unfold after_cleaning. rewrite map_length. fold n. set (d := map _ (seq 0 _)).
  assert (Ld : List.length d = n) by (unfold d; rewrite map_length, seq_length; reflexivity).
  assert (A : forall j, (j < n)%nat -> at_row d j = if member j ce then Fin (nth j levels 0) else NaN).
  { intros j Hj. unfold d. rewrite at_map_seq by exact Hj. rewrite at_fin by exact Hj. reflexivity. }
  destruct (fill_forward_at d i) as [(j & Hj & V & M & E)|[M E]]; [lia| |]; rewrite E.
  - left. exists j. rewrite A in V |- * by lia. destruct (member j ce) eqn:EJ; [|congruence]. split; [|reflexivity].
    split; [apply event_flags; [exact G|apply member_In, EJ]|]. split; [exact Hj|]. intros m Hm I. apply event_flags in I; [|exact G]. apply member_In in I.
    specialize (M m Hm). rewrite A, I in M by lia. discriminate M.
  - right. split; [|reflexivity]. destruct (Nat.le_gt_cases first i) as [L|L]; [|exact L]. specialize (M first L). rewrite A in M by lia.
    assert (member first ce = true) as K by (apply member_In; rewrite C; left; reflexivity). rewrite K in M. discriminate M.
Qed.

Lemma after_length : List.length (after_cleaning ce (map Fin levels)) = n.
Proof. unfold after_cleaning. rewrite fill_forward_length, map_length, seq_length, map_length. reflexivity. Qed.

Definition raw_ratio : list fl := map (fun p => fmul (fdiv (fz 1) (fst p)) (snd p)) (combine (after_cleaning ce (map Fin levels)) (map Fin levels)).
Lemma raw_length : List.length raw_ratio = n.
Proof. unfold raw_ratio. rewrite map_length, combine_length, after_length, map_length. fold n. lia. Qed.

Lemma raw_row : forall i, (i < n)%nat ->
  (exists e, latest_event ev i e /\ (e < n)%nat /\ at_row raw_ratio i = Fin (nth i levels 0 / nth e levels 0)) \/
  ((i < first)%nat /\ at_row raw_ratio i = NaN).
Proof.
  intros i Hi. unfold raw_ratio. rewrite at_combine by (rewrite ?after_length, ?map_length; exact Hi). cbn [fst snd]. rewrite at_fin by exact Hi.
  destruct (after_row i Hi) as [(e & He & E)|[L E]]; rewrite E; [|right; split; [exact L|reflexivity]].
  left. exists e. assert (e < n)%nat as Hn by (destruct He as (_ & He & _); lia). split; [exact He|]. split; [exact Hn|].
  unfold fz. rewrite fdiv_fin by (apply level_nonzero, Hn). cbn [fmul]. f_equal. unfold Qcdiv. change (qz 1) with 1. ring.
Qed.

Lemma inverse_rows : exists inv, List.length inv = (n - first)%nat /\
  finvals (map (fun p => fdiv (fst p) (snd p)) (combine raw_ratio (map Fin levels))) = inv /\
  noinf (map (fun p => fdiv (fst p) (snd p)) (combine raw_ratio (map Fin levels))) /\
  forall j, (j < List.length inv)%nat -> exists e, latest_event ev (first + j) e /\ nth j inv 0 = / nth e levels 0.
Proof.
  set (l := map _ (combine _ _)). assert (Ll : List.length l = n) by (unfold l; rewrite map_length, combine_length, raw_length, map_length; fold n; lia).
  assert (A : forall i, (i < n)%nat -> (exists e, latest_event ev i e /\ (first <= i)%nat /\ at_row l i = Fin (/ nth e levels 0)) \/ ((i < first)%nat /\ at_row l i = NaN)).
  { intros i Hi. unfold l. rewrite at_combine by (rewrite ?raw_length, ?map_length; exact Hi). cbn [fst snd]. rewrite at_fin by exact Hi.
    destruct (raw_row i Hi) as [(e & He & Hn & E)|[L E]]; rewrite E; [|right; split; [exact L|reflexivity]].
    left. exists e. split; [exact He|]. split.
    - destruct He as (I & He & _). apply event_flags in I; [|exact G]. apply first_lowest in I. lia.
    - rewrite fdiv_fin by (apply level_nonzero, Hi). f_equal. pose proof (level_nonzero i Hi) as N1. pose proof (level_nonzero e Hn) as N2. field. split; assumption. }
  assert (NI : noinf l).
  { intros x Hx. apply (In_nth _ _ NaN) in Hx. destruct Hx as (i & Hi & <-). fold (at_row l i). rewrite Ll in Hi. destruct (A i Hi) as [(e & _ & _ & E)|[_ E]]; rewrite E; split; discriminate. }
  assert (Fn : (first < n)%nat). { destruct G as [_ F]. rewrite C in F. apply Forall_inv in F. exact F. }
  assert (K : forall m i, (i + m = n)%nat ->
    List.length (finvals (skipn i l)) = (n - Nat.max first i)%nat /\
    forall j, (j < List.length (finvals (skipn i l)))%nat -> exists e, latest_event ev (Nat.max first i + j) e /\ nth j (finvals (skipn i l)) 0 = / nth e levels 0).
  { induction m as [|m IH]; intros i Hi.
    - rewrite skipn_all2 by lia. cbn. split; [lia|]. intros j Hj. lia.
    - assert (skipn i l = at_row l i :: skipn (S i) l) as ->.
      { assert (i < List.length l)%nat as H by lia. clear - H. revert i H. induction l as [|x l IH]; intros [|i] H; cbn in *; try lia; [reflexivity|]. apply IH. lia. }
      destruct (IH (S i) ltac:(lia)) as [L1 L2].
      destruct (A i ltac:(lia)) as [(e & He & Hf & E)|[Hf E]]; rewrite E; cbn [finvals].
      + cbn [List.length]. rewrite L1. split; [lia|]. intros [|j] Hj; cbn [nth].
        * exists e. replace (Nat.max first i + 0)%nat with i by lia. auto.
        * replace (Nat.max first i + S j)%nat with (Nat.max first (S i) + j)%nat by lia. apply L2. lia.
      + replace (Nat.max first i) with (Nat.max first (S i)) by lia. split; [exact L1|exact L2]. }
  destruct (K n 0%nat ltac:(lia)) as [K1 K2]. cbn [skipn] in K1, K2. rewrite Nat.max_0_r in K1, K2. exists (finvals l). auto.
Qed.

Lemma clean_rows : forall i, (i < n)%nat -> exists r, perfect_ratio ev levels i r /\ at_row (clean_ratio ce (map Fin levels)) i = Fin r.
Proof.
  intros i Hi. pose proof first_is as FI. assert (Fn : (first < n)%nat). { destruct G as [_ F]. rewrite C in F. apply Forall_inv in F. exact F. }
  assert (clean_ratio ce (map Fin levels) = map (fun i => if (i <=? first)%nat then fmul (at_row (map Fin levels) i) (fmean (map (fun p => fdiv (fst p) (snd p)) (combine raw_ratio (map Fin levels)))) else at_row raw_ratio i) (seq 0 (List.length (map Fin levels)))) as ->
    by (unfold clean_ratio, raw_ratio; rewrite C; reflexivity).
  rewrite map_length. fold n. rewrite at_map_seq by exact Hi.
  destruct (Nat.leb_spec i first) as [L|L].
  - destruct inverse_rows as (inv & Li & Ef & NI & R). rewrite fmean_noinf; [|exact NI|rewrite Ef; intro X; rewrite X in Li; cbn in Li; lia].
    rewrite Ef, at_fin by exact Hi. cbn [fmul]. eexists. split; [|reflexivity]. right. exists first. split; [exact FI|]. right. split; [exact L|].
    exists inv. split; [exact Li|]. split; [exact R|]. reflexivity.
  - destruct (raw_row i Hi) as [(e & He & Hn & E)|[L' _]]; [|lia]. eexists. split; [|exact E]. right. exists first. split; [exact FI|]. left. split; [exact L|]. exists e. auto.
Qed.
End Perfect.

Lemma clean_all : forall levels ce, (forall x, In x levels -> x <> 0) -> good (List.length levels) ce ->
  exists before, List.length before = List.length levels /\ clean_ratio ce (map Fin levels) = map Fin before /\
  forall i, (i < List.length levels)%nat -> perfect_ratio (flags (List.length levels) ce) levels i (nth i before 0).
Proof.
  intros levels ce NZ G. set (n := List.length levels).
  assert (L : List.length (clean_ratio ce (map Fin levels)) = n) by (unfold clean_ratio; destruct ce; rewrite !map_length, ?seq_length, ?map_length; reflexivity).
  assert (R : forall i, (i < n)%nat -> exists r, perfect_ratio (flags n ce) levels i r /\ at_row (clean_ratio ce (map Fin levels)) i = Fin r).
  { intros i Hi. destruct ce as [|first rest] eqn:EC.
    - exists 1. split.
      + left. split; [|reflexivity]. intros j I. apply event_flags in I; [destruct I|exact G].
      + unfold clean_ratio. apply at_row_error. rewrite !nth_error_map_some. rewrite (nth_error_nth' levels 0 Hi). reflexivity.
    - rewrite <- EC in *. exact (clean_rows levels ce first rest NZ G EC i Hi). }
  exists (map (fun x => match x with Fin q => q | _ => 0 end) (clean_ratio ce (map Fin levels))). split; [rewrite map_length; exact L|].
  assert (Q : forall i, (i < n)%nat -> exists r, perfect_ratio (flags n ce) levels i r /\ nth_error (clean_ratio ce (map Fin levels)) i = Some (Fin r)).
  { intros i Hi. destruct (R i Hi) as (r & P & E). exists r. split; [exact P|]. rewrite error_at_row by lia. rewrite E. reflexivity. }
  split.
  - apply ext_nth. intros i. rewrite !nth_error_map_some. destruct (nth_error (clean_ratio ce (map Fin levels)) i) as [x|] eqn:E; [|reflexivity].
    assert (i < n)%nat as Hi by (rewrite <- L; apply nth_error_Some; congruence). destruct (Q i Hi) as (r & _ & E'). rewrite E in E'. injection E' as ->. reflexivity.
  - intros i Hi. destruct (Q i Hi) as (r & P & E). erewrite nth_error_nth; [exact P|]. rewrite nth_error_map_some, E. reflexivity.
Qed.

(** ** Renormalising and clipping *)

Lemma fin_noinf : forall l, noinf (map Fin l).
Proof. intros l x Hx. apply in_map_iff in Hx. destruct Hx as (q & <- & _). split; discriminate. Qed.
Lemma fin_vals : forall l, finvals (map Fin l) = l.
Proof. induction l as [|x l IH]; cbn; [reflexivity|f_equal; exact IH]. Qed.

Lemma clip_fin : forall (b : bool) x, exists y, clipped b x y /\ (if b then clip_upper (Fin x) else Fin x) = Fin y.
Proof.
  intros [] x; [|exists x; split; reflexivity]. unfold clip_upper, fgt. change (flt (fz 1) (Fin x)) with (qlt 1 x). destruct (qlt 1 x) eqn:E; qb.
  - exists 1. split; [right; auto|reflexivity].
  - exists x. split; [left; auto|reflexivity].
Qed.

(** The ratios found on the event rows. *)
Lemma renorm_spec : forall q ce before, good (List.length before) ce -> 0 <= q -> q <= 1 ->
  (no_event (flags (List.length before) ce) /\ renormalized (Some q) ce (map Fin before) = map (fun _ => NaN) before) \/
  exists d, renormalised q (flags (List.length before) ce) before d /\ (d <> 0 -> renormalized (Some q) ce (map Fin before) = map (fun x => Fin (x / d)) before).
Proof.
  intros q ce before G Q0 Q1. unfold renormalized.
  assert (M : map (at_row (map Fin before)) ce = map Fin (map (fun e => nth e before 0) ce)).
  { rewrite map_map. apply map_ext_in. intros e He. apply at_fin. destruct G as [_ F]. rewrite Forall_forall in F. apply F, He. }
  rewrite M. destruct ce as [|c ce'] eqn:EC.
  - left. split; [intros i I; apply event_flags in I; [destruct I|exact G]|]. cbn. rewrite map_map. apply map_ext. intros x. reflexivity.
  - rewrite <- EC in *. right. exists (qquantile q (map (fun e => nth e before 0) ce)). split.
    + exists ce. split; [intros e He; apply event_flags in He; [exact He|exact G]|]. split; [intros e He; apply event_flags; assumption|].
      apply quantile_is; [rewrite EC; discriminate|exact Q0|exact Q1].
    + intros D. rewrite fquantile_noinf; [|apply fin_noinf|rewrite fin_vals, EC; discriminate|exact Q0|exact Q1]. rewrite fin_vals, map_map.
      apply map_ext. intros x. apply fdiv_fin, D.
Qed.

(** ** The frame *)

Lemma kalman_inv : forall fuel zs pn zstd rstd mr iterations prune renorm perfect p clip ffill fr,
  kalman_filter_for_SR fuel zs pn zstd rstd mr iterations prune renorm perfect p clip ffill = Some (Ok fr) ->
  exists k r ratio rates, ks_zs k = zs /\ ks_renorm k = renorm /\ ks_perfect k = perfect /\ ks_clip k = clip /\ run_good k r /\
    k_level fr = level r /\ k_rate fr = rate r /\ k_ratio fr = ratio /\
    k_rates fr = (match rates with Some x => x | None => map (fun _ => NaN) zs end) /\
    k_events fr = flags (List.length zs) (kr_events r) /\ k_days fr = days_since (List.length zs) (kr_events r) /\
    ((iterations = 0%nat /\ ratio = map (fun _ => NaN) zs /\ rates = None) \/
     ((0 < iterations)%nat /\ exists before, ratio_and_rates k r before = (ratio, rates) /\ (clip = false -> before = None))).
Proof.
  intros fuel zs pn zstd rstd mr iterations prune renorm perfect p clip ffill fr E. unfold kalman_filter_for_SR in E.
  destruct (first_events zs p) as [ce|e] eqn:EF; [|discriminate E].
  set (k := kalman_setup_of zs ffill pn prune mr renorm perfect clip) in *.
  assert (K : ks_zs k = zs /\ ks_renorm k = renorm /\ ks_perfect k = perfect /\ ks_clip k = clip).
  { unfold k, kalman_setup_of. cbv zeta. destruct (theil_fit _ _) as [[[? ?] ?] ?]. auto. }
  destruct K as (K1 & K2 & K3 & K4). cbv zeta in E.
  destruct (run_filter k rstd zstd ce) as [r|e] eqn:ER; [|discriminate E].
  destruct (prune_loop _ _ _ _ _ _ _) as [[[[r' ratio] rates]|e]|] eqn:EP; try discriminate E. injection E as <-. cbn [k_level k_rate k_ratio k_rates k_events k_days].
  assert (G : run_good k r) by (apply (run_filter_good _ _ _ _ _ ER); rewrite K1; apply (first_good _ _ _ EF)).
  destruct (prune_ok _ _ _ _ _ _ _ _ _ _ EP G) as [G' H].
  exists k, r', ratio, rates. repeat (split; [first [assumption | reflexivity]|]).
  destruct H as [(H & -> & -> & ->)|(H & b & Eb & Hb)]; [left; split; [lia|auto]|right]. split; [exact H|]. exists b. split; [exact Eb|]. rewrite <- K4. exact Hb.
Qed.

Lemma ratio_length : forall k r b ratio rates, run_good k r -> ratio_and_rates k r b = (ratio, rates) ->
  List.length ratio = List.length (ks_zs k) /\ (ks_clip k = true -> exists x, rates = Some x /\ List.length x = List.length (ks_zs k)).
Proof.
  intros k r b ratio rates [L G] E. unfold ratio_and_rates in E. cbv zeta in E.
  assert (A : List.length (renormalized (ks_renorm k) (kr_events r) (if ks_perfect k then clean_ratio (kr_events r) (level r) else level r)) = List.length (ks_zs k)).
  { assert (LV : List.length (level r) = List.length (ks_zs k)) by (unfold level; rewrite map_length; exact L).
    assert (LC : List.length (clean_ratio (kr_events r) (level r)) = List.length (ks_zs k)) by (unfold clean_ratio; destruct (kr_events r); rewrite ?map_length, ?seq_length; exact LV).
    unfold renormalized. destruct (ks_renorm k); rewrite ?map_length; destruct (ks_perfect k); assumption. }
  destruct (ks_clip k); injection E as <- <-; [|split; [exact A|discriminate]]. rewrite map_length. split; [exact A|]. intros _. eexists. split; [reflexivity|].
  rewrite map_length, combine_length, diffs_length, map_length, A. unfold rate. rewrite map_length, L. lia.
Qed.

Section FrameOf.
Variables (fuel : nat) (zs : list fl) (pn zstd rstd mr : fl) (iterations : nat) (prune : fl) (renorm : option Qc) (perfect : bool)
  (p : option (list bool)) (clip ffill : bool) (fr : kalman_frame).
Hypothesis E : kalman_filter_for_SR fuel zs pn zstd rstd mr iterations prune renorm perfect p clip ffill = Some (Ok fr).

Lemma frame_rows : List.length (k_level fr) = List.length zs /\ List.length (k_rate fr) = List.length zs /\ List.length (k_ratio fr) = List.length zs /\
  List.length (k_rates fr) = List.length zs /\ List.length (k_events fr) = List.length zs /\ List.length (k_days fr) = List.length zs.
Proof.
  destruct (kalman_inv _ _ _ _ _ _ _ _ _ _ _ _ _ _ E) as (k & r & ratio & rates & K1 & K2 & K3 & K4 & G & -> & -> & -> & -> & -> & -> & H).
  pose proof G as [L _]. rewrite K1 in L. unfold level, rate, flags, days_since. rewrite !map_length, seq_length, combine_length, fill_forward_length, map_length, seq_length.
  split; [exact L|]. split; [exact L|]. destruct H as [(H & -> & ->)|(H & b & Eb & Hb)].
  - rewrite !map_length. repeat split; lia.
  - destruct (ratio_length _ _ _ _ _ G Eb) as [A B]. rewrite K1 in A, B. split; [exact A|]. split; [|split; lia].
    destruct clip eqn:EC; [destruct (B K4) as (x & -> & X); exact X|]. unfold ratio_and_rates in Eb. rewrite K4 in Eb. injection Eb as _ <-. rewrite (Hb eq_refl). apply map_length.
Qed.

Lemma frame_days : forall i, (i < List.length zs)%nat ->
  exists d, days_since_event (k_events fr) i d /\ nth_error (k_days fr) i = Some (Fin (qz (Z.of_nat d))).
Proof.
  intros i Hi. destruct (kalman_inv _ _ _ _ _ _ _ _ _ _ _ _ _ _ E) as (k & r & ratio & rates & K1 & K2 & K3 & K4 & [L G] & X1 & X2 & X3 & X4 & X5 & X6 & H); rewrite ?X1, ?X2, ?X3, ?X4, ?X5, ?X6.
  rewrite K1 in G. apply days_spec; assumption.
Qed.

Lemma frame_no_rounds : iterations = 0%nat -> k_ratio fr = map (fun _ => NaN) zs /\ k_rates fr = map (fun _ => NaN) zs.
Proof.
  intros I. destruct (kalman_inv _ _ _ _ _ _ _ _ _ _ _ _ _ _ E) as (k & r & ratio & rates & K1 & K2 & K3 & K4 & G & X1 & X2 & X3 & X4 & X5 & X6 & H); rewrite ?X1, ?X2, ?X3, ?X4, ?X5, ?X6.
  destruct H as [(H & -> & ->)|(H & _)]; [auto|lia].
Qed.
Lemma frame_no_rates : clip = false -> k_rates fr = map (fun _ => NaN) zs.
Proof.
  intros I. destruct (kalman_inv _ _ _ _ _ _ _ _ _ _ _ _ _ _ E) as (k & r & ratio & rates & K1 & K2 & K3 & K4 & G & X1 & X2 & X3 & X4 & X5 & X6 & H); rewrite ?X1, ?X2, ?X3, ?X4, ?X5, ?X6.
  destruct H as [(H & -> & ->)|(H & b & Eb & Hb)]; [auto|]. unfold ratio_and_rates in Eb. rewrite K4, I in Eb. injection Eb as _ <-. rewrite (Hb I). reflexivity.
Qed.
Lemma frame_clip : clip = true -> forall x, In x (k_ratio fr) -> fle x (fz 1) = true \/ x = NaN.
Proof.
  intros I x. destruct (kalman_inv _ _ _ _ _ _ _ _ _ _ _ _ _ _ E) as (k & r & ratio & rates & K1 & K2 & K3 & K4 & G & X1 & X2 & X3 & X4 & X5 & X6 & H); rewrite ?X1, ?X2, ?X3, ?X4, ?X5, ?X6.
  destruct H as [(H & -> & ->)|(H & b & Eb & Hb)]; intros Hx.
  - apply in_map_iff in Hx. destruct Hx as (y & <- & _). right. reflexivity.
  - unfold ratio_and_rates in Eb. rewrite K4, I in Eb. injection Eb as <- _. apply in_map_iff in Hx. destruct Hx as (y & <- & _).
    unfold clip_upper, fgt. destruct (flt (fz 1) y) eqn:Ey; [left; reflexivity|].
    destruct y as [| |q|]; [right; reflexivity|left; reflexivity| |discriminate Ey]. left. cbn in Ey |- *. unfold qlt in Ey. destruct (qle q (qz 1)); [reflexivity|discriminate Ey].
Qed.
Lemma frame_rates : clip = true -> (0 < iterations)%nat -> forall i, (i < List.length zs)%nat ->
  (unchanged (k_ratio fr) i /\ nth_error (k_rates fr) i = Some (Fin 0)) \/ (~ unchanged (k_ratio fr) i /\ nth_error (k_rates fr) i = nth_error (k_rate fr) i).
Proof.
  intros I IT i Hi. destruct (kalman_inv _ _ _ _ _ _ _ _ _ _ _ _ _ _ E) as (k & r & ratio & rates & K1 & K2 & K3 & K4 & G & X1 & X2 & X3 & X4 & X5 & X6 & H); rewrite ?X1, ?X2, ?X3, ?X4, ?X5, ?X6.
  destruct H as [(H & -> & ->)|(H & b & Eb & Hb)]; [lia|].
  pose proof (ratio_length _ _ _ _ _ G Eb) as [LR _]. rewrite K1 in LR.
  assert (LQ : List.length (rate r) = List.length zs) by (destruct G as [L _]; unfold rate; rewrite map_length, L, K1; reflexivity).
  unfold ratio_and_rates in Eb. rewrite K4, I in Eb. cbv zeta in Eb. injection Eb as ER <-. rewrite ER.
  rewrite nth_error_map_some, nth_error_combine. rewrite (error_at_row (diffs ratio) i) by (rewrite diffs_length; lia). rewrite (error_at_row (rate r) i) by lia. cbn [fst snd].
  unfold diffs. rewrite at_map_seq by lia. destruct i as [|j].
  - right. split; [intros (j & q & C & _); discriminate C|reflexivity].
  - pose proof (error_at_row ratio j ltac:(lia)) as E1. pose proof (error_at_row ratio (S j) ltac:(lia)) as E2.
    destruct (feq (fsub (at_row ratio (S j)) (at_row ratio j)) (fz 0)) eqn:EQ.
    + left. split; [|reflexivity]. exists j. destruct (at_row ratio (S j)) as [| |a|], (at_row ratio j) as [| |c|]; try discriminate EQ.
      cbn in EQ. qb. change (qz 0) with 0 in EQ. exists c. split; [reflexivity|]. split; [exact E1|]. rewrite E2. do 2 f_equal. apply (f_equal (fun z => z + c)) in EQ. ring_simplify in EQ. exact EQ.
    + right. split; [|reflexivity]. intros (j' & q & C & X & Y). injection C as <-. rewrite E1 in X. rewrite E2 in Y. injection X as X. injection Y as Y. rewrite X, Y in EQ.
      unfold fsub, fneg, fadd, fz, feq in EQ. assert (q + - q = 0) as Z by ring. rewrite Z in EQ. discriminate EQ.
Qed.

(** The ratios from finite, nonzero levels. *)
Lemma frame_ratio : forall levels, k_level fr = map Fin levels -> (perfect = true -> forall x, In x levels -> x <> 0) -> (0 < iterations)%nat ->
  exists before, List.length before = List.length zs /\
    (if perfect then forall i, (i < List.length zs)%nat -> perfect_ratio (k_events fr) levels i (nth i before 0) else before = levels) /\
    match renorm with
    | None => forall i, (i < List.length zs)%nat -> exists y, clipped clip (nth i before 0) y /\ nth_error (k_ratio fr) i = Some (Fin y)
    | Some q => 0 <= q -> q <= 1 ->
       (no_event (k_events fr) /\ k_ratio fr = map (fun _ => NaN) zs) \/
       exists d, renormalised q (k_events fr) before d /\
         (d <> 0 -> forall i, (i < List.length zs)%nat -> exists y, clipped clip (nth i before 0 / d) y /\ nth_error (k_ratio fr) i = Some (Fin y))
    end.
Proof.
  intros levels EL NZ IT. destruct (kalman_inv _ _ _ _ _ _ _ _ _ _ _ _ _ _ E) as (k & r & ratio & rates & K1 & K2 & K3 & K4 & G & KL & X2 & X3 & X4 & X5 & X6 & H); rewrite ?X2, ?X3, ?X4, ?X5, ?X6.
  destruct H as [(H & -> & ->)|(H & b & Eb & Hb)]; [lia|]. rewrite EL in KL.
  destruct G as [L G]. rewrite K1 in L, G.
  assert (LL : List.length levels = List.length zs) by (rewrite <- (map_length Fin levels), KL; unfold level; rewrite map_length; exact L).
  unfold ratio_and_rates in Eb. cbv zeta in Eb. rewrite K2, K3, K4 in Eb. rewrite <- KL in Eb.
  assert (R0 : ratio = if clip then map clip_upper (renormalized renorm (kr_events r) (if perfect then clean_ratio (kr_events r) (map Fin levels) else map Fin levels))
               else renormalized renorm (kr_events r) (if perfect then clean_ratio (kr_events r) (map Fin levels) else map Fin levels)) by (destruct clip; injection Eb as <- _; reflexivity).
  clear Eb.
  assert (B : exists before, List.length before = List.length zs /\ (if perfect then clean_ratio (kr_events r) (map Fin levels) else map Fin levels) = map Fin before /\
     (if perfect then forall i, (i < List.length zs)%nat -> perfect_ratio (flags (List.length zs) (kr_events r)) levels i (nth i before 0) else before = levels)).
  { destruct perfect; [|exists levels; auto]. rewrite <- LL in G |- *. destruct (clean_all levels (kr_events r) (NZ eq_refl) G) as (before & B1 & B2 & B3). exists before. auto. }
  destruct B as (before & B1 & B2 & B3). rewrite B2 in R0. exists before. split; [exact B1|]. split; [exact B3|].
  assert (CL : forall (h : Qc -> Qc) l, l = (if clip then map clip_upper (map (fun x => Fin (h x)) before) else map (fun x => Fin (h x)) before) ->
     forall i, (i < List.length zs)%nat -> exists y, clipped clip (h (nth i before 0)) y /\ nth_error l i = Some (Fin y)).
  { intros h l -> i Hi. destruct (clip_fin clip (h (nth i before 0))) as (y & Y1 & Y2). exists y. split; [exact Y1|].
    rewrite <- Y2. destruct clip; rewrite ?nth_error_map_some, (nth_error_nth' before 0) by lia; reflexivity. }
  destruct renorm as [q|].
  - intros Q0 Q1. rewrite <- B1 in G. destruct (renorm_spec q (kr_events r) before G Q0 Q1) as [[N X]|(d & D & X)]; rewrite B1 in *.
    + left. split; [exact N|]. rewrite R0, X. apply ext_nth. intros i. destruct clip; rewrite ?nth_error_map_some.
      * destruct (nth_error before i) eqn:E1, (nth_error zs i) eqn:E2; try reflexivity; exfalso;
          [apply nth_error_None in E2; assert (i < List.length before)%nat by (apply nth_error_Some; congruence)|apply nth_error_None in E1; assert (i < List.length zs)%nat by (apply nth_error_Some; congruence)]; lia.
      * destruct (nth_error before i) eqn:E1, (nth_error zs i) eqn:E2; try reflexivity; exfalso;
          [apply nth_error_None in E2; assert (i < List.length before)%nat by (apply nth_error_Some; congruence)|apply nth_error_None in E1; assert (i < List.length zs)%nat by (apply nth_error_Some; congruence)]; lia.
    + right. exists d. split; [exact D|]. intros DN. rewrite (X DN) in R0. apply (CL (fun x => x / d)). exact R0.
  - apply (CL (fun x => x)). exact R0.
Qed.
End FrameOf.
