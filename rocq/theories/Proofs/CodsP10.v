(** The results of soiling_cods, and the rounds of the Kalman filter. *)

From Coq Require Import QArith Qcanon List ZArith Bool Arith String Lia.
From Verif.Base Require Import QcExtra ISort Quantile Fl TimeSeries Calendar Rolling.
From Verif.Spec Require Import Stats Soiling Seasonal CodsRun Kalman CodsBoot.
From Verif.Model Require Import Filters Soiling CodsTools CodsKalman Cods.
From Verif.Proofs Require Import FlP StatsP FiltersP2 CodsP CodsP4 CodsP5 CodsP6 CodsP7 CodsP8 CodsP9.
Import ListNotations.
Open Scope list_scope.
Open Scope Qc_scope.

Lemma kalman_stops : forall fuel zs pn zstd rstd mr iterations prune renorm perfect p clip ffill, (iterations <= 100)%nat -> (iterations <= fuel)%nat ->
  exists x, kalman_filter_for_SR fuel zs pn zstd rstd mr iterations prune renorm perfect p clip ffill = Some x /\
  forall fuel', (fuel <= fuel')%nat -> kalman_filter_for_SR fuel' zs pn zstd rstd mr iterations prune renorm perfect p clip ffill = Some x.
Proof.
  intros fuel zs pn zstd rstd mr iterations prune renorm perfect p clip ffill H F. unfold kalman_filter_for_SR.
  destruct (first_events zs p) as [ce|e]; [|eauto]. cbv zeta. destruct (run_filter _ _ _ _) as [r|e]; [|eauto].
  set (k := kalman_setup_of _ _ _ _ _ _ _ _). set (m := map _ zs).
  assert (PS : prune_loop fuel k iterations 0 r m None <> None) by (apply prune_stops; lia).
  destruct (prune_loop fuel k iterations 0 r m None) as [x|] eqn:E; [|congruence]. destruct x as [[[r' ratio] rates]|e];
  (eexists; split; [reflexivity|]; intros fuel' F'; rewrite (prune_more _ _ _ _ _ _ _ _ E fuel' F'); reflexivity).
Qed.

(** ** Trimming *)

Lemma drop_missing_split : forall s : series, exists front, s = front ++ drop_missing s /\ (forall r, In r front -> snd r = NaN) /\
  (drop_missing s = [] \/ exists r rest, drop_missing s = r :: rest /\ snd r <> NaN).
Proof.
  induction s as [|[t v] s (front & E & A & B)]; [exists []; repeat split; [intros r []|left; reflexivity]|]. cbn [drop_missing snd].
  destruct (isnan v) eqn:Ev.
  - exists ((t, v) :: front). split; [cbn; f_equal; exact E|]. split; [|exact B]. intros r [<-|I]; [destruct v; try discriminate Ev; reflexivity|apply A, I].
  - exists []. split; [reflexivity|]. split; [intros r []|]. right. exists (t, v), s. split; [reflexivity|]. intros C. cbn in C. subst v. discriminate Ev.
Qed.
Lemma cods_init_spec : forall daily s,
  match cods_init daily s with
  | Ok kept => daily = true /\ without_leading s kept
  | Raise e => (s = [] /\ e = IndexError) \/ (s <> [] /\ daily = false /\ e = ValueError)
  end.
Proof.
  intros daily [|[t v] s]; [left; auto|]. unfold cods_init. set (kept := if isnan _ then _ else _).
  destruct daily; [|right; repeat split; discriminate]. split; [reflexivity|]. unfold kept. cbn [snd].
  destruct (isnan v) eqn:Ev.
  - destruct (drop_missing_split ((t, v) :: s)) as (front & E & A & B). destruct (drop_missing ((t, v) :: s)) as [|r rest].
    + right. split; [discriminate|]. split; [reflexivity|]. rewrite app_nil_r in E. rewrite E. exact A.
    + left. destruct B as [B|B]; [discriminate B|]. exists front. auto.
  - left. exists []. split; [reflexivity|]. split; [intros r []|]. exists (t, v), s. split; [reflexivity|]. intros C. cbn in C. subst v. discriminate Ev.
Qed.

(** ** The summary *)

Definition complement (l : Qc) : Qc := 1 - l / qz 100.
Lemma complement_order : forall a b, a <= b <-> complement b <= complement a.
Proof.
  intros a b. unfold complement. assert (EA : a = qz 100 * (a / qz 100)) by (field; discriminate). assert (EB : b = qz 100 * (b / qz 100)) by (field; discriminate).
  rewrite EA at 1. rewrite EB at 1. generalize (a / qz 100) (b / qz 100). intros x y. split; intros H; qlra.
Qed.

Lemma summary_spec : forall r l l1 l2, cr_loss r = (Fin l, Fin l1, Fin l2) -> forall ratio first second d d1 d2,
  cods_summary r = (ratio, (first, second), d, (d1, d2)) ->
  ratio = Fin (1 - l / qz 100) /\ first = Fin (1 - l1 / qz 100) /\ second = Fin (1 - l2 / qz 100) /\ cr_degradation r = (d, d1, d2).
Proof.
  intros r l l1 l2 E ratio first second d d1 d2 S. unfold cods_summary in S. rewrite E in S. destruct (cr_degradation r) as [[a b] c]. unfold fz in S.
  rewrite !fdiv_fin in S by discriminate. injection S as <- <- <- <- <- <-. auto.
Qed.

(** ** The whole of soiling_cods *)

Section Whole.
Variables (daily : bool) (orders : list (list string)) (sens prune : list fl) (fill : list bool) (reps : nat) (cl : Qc)
  (fit : series -> choice -> result decomposition) (sampled : series -> nat -> nat -> list fl) (draw : nat -> nat -> fl * Z)
  (refit : series -> nat -> list fl -> result decomposition) (yoy : list fl -> result (fl * (fl * fl))) (s : series).

Lemma cods_ok : forall ratio first second d d1 d2,
  soiling_cods daily orders sens prune fill reps cl fit sampled draw refit yoy s = Ok (ratio, (first, second), d, (d1, d2)) ->
  daily = true /\ exists kept, without_leading s kept /\
  ((exists y best m, yoy (vals kept) = Ok y /\ (d, d1, d2) = (fst y, fst (snd y), snd (snd y)) /\ (exists c, fit kept c = Ok best) /\ ratio = Fin 1 /\ first = Fin 1 /\
      (noinf (o_ratio best) -> finvals (o_ratio best) <> [] -> mean_of (o_ratio best) m /\ second = Fin (1 - (1 - m) / qz 100))) \/
   (exists saved, saved <> [] /\ (forall x, In x saved -> passes x /\ exists i input, refit kept i input = Ok x) /\
      forall errors rates losses, errors_of saved errors -> map o_rate saved = map Fin rates -> map o_loss saved = map Fin losses ->
      exists shares w l l1 l2, shares_of saved shares /\ inverse_weights errors shares w /\
        estimate cl w rates (d, d1, d2) /\ estimate cl w losses (Fin l, Fin l1, Fin l2) /\
        ratio = Fin (1 - l / qz 100) /\ first = Fin (1 - l1 / qz 100) /\ second = Fin (1 - l2 / qz 100) /\
        (0 <= cl -> 1 - l2 / qz 100 <= 1 - l1 / qz 100))).
Proof.
  intros ratio first second d d1 d2 E. unfold soiling_cods in E. pose proof (cods_init_spec daily s) as I. destruct (cods_init daily s) as [kept|e]; [|discriminate E].
  destruct I as [-> I]. split; [reflexivity|]. exists kept. split; [exact I|]. cbn [bind] in E.
  destruct (run_bootstrap orders sens prune fill reps cl (fit kept) (sampled kept) draw (refit kept) yoy kept) as [r|e] eqn:ER; [|discriminate E]. cbn [bind] in E.
  assert (CS : cods_summary r = (ratio, (first, second), d, (d1, d2))) by (injection E as E; exact E). clear E.
  destruct (cr_small r) eqn:SM.
  - left. destruct (bootstrap_small _ _ _ _ _ _ _ _ _ _ _ _ _ ER SM) as (used & fitted & best & y & b & U & _ & _ & _ & Y & D & B & _ & _ & _ & _ & _ & _ & _ & _ & _ & _ & _ & top & L & T).
    unfold cods_summary in CS. rewrite L, D in CS. injection CS as C1 C2 C3 C4 C5 C6.
    exists y, best. assert (FIT : exists c, fit kept c = Ok best).
    { apply nth_error_In in B. clear - U B. induction U as [|c x lc lx H U IH]; [destruct B|]. destruct B as [->|B]; [exists c; exact H|apply IH, B]. }
    assert (H1 : fsub (Fin 1) (fdiv (Fin 0) (fz 100)) = Fin 1) by fcompute.
    exists (qsum (finvals (o_ratio best)) / qz (Z.of_nat (List.length (finvals (o_ratio best))))).
    split; [exact Y|]. split; [congruence|]. split; [exact FIT|]. split; [rewrite <- C1; exact H1|]. split; [rewrite <- C2; exact H1|].
    intros N1 N2. destruct (T N1 N2) as (m & M & ->). split; [reflexivity|]. rewrite <- C3. unfold mean_of in M. rewrite <- M. unfold fz. rewrite fdiv_fin by discriminate. reflexivity.
  - right. destruct (bootstrap_estimates _ _ _ _ _ _ _ _ _ _ _ _ _ ER SM) as (fitted & last & saved & _ & _ & _ & _ & _ & _ & SU & SV).
    destruct SU as (NE & CL1 & CL2 & _ & _ & _ & _ & W). exists (map fst saved). split; [destruct saved; [congruence|discriminate]|]. split.
    { intros x Hx. apply in_map_iff in Hx. destruct Hx as (p & <- & Hp). destruct (SV p Hp) as (P & i & d' & _ & _ & _ & R). split; [exact P|]. eexists; eexists; exact R. }
    intros errors rates losses EO ERt EL. destruct (W errors EO) as (shares & w & S & IW & WR & WL & _). specialize (WR rates ERt). specialize (WL losses EL).
    exists shares, w. pose proof WL as (l & l1 & l2 & EL' & M & P1 & P2). exists l, l1, l2.
    destruct (summary_spec r l l1 l2 EL' _ _ _ _ _ _ CS) as (X1 & X2 & X3 & X4). rewrite X4 in WR. rewrite EL' in WL.
    repeat (split; [assumption|]). intros C0. change (complement l2 <= complement l1). apply (proj1 (complement_order l1 l2)). revert P1 P2. apply percentile_mono; clear - C0 CL1 CL2.
    + assert (cl = qz 2 * (cl / qz 2)) as EC by (field; discriminate). rewrite EC in CL2. revert CL2. generalize (cl / qz 2). intros; qlra.
    + assert (cl = qz 2 * (cl / qz 2)) as EC by (field; discriminate). rewrite EC in C0. revert C0. generalize (cl / qz 2). intros; qlra.
    + assert (cl = qz 2 * (cl / qz 2)) as EC by (field; discriminate). rewrite EC in CL2. revert CL2. generalize (cl / qz 2). intros; qlra.
Qed.
End Whole.

Lemma mean_upper : forall l, l <> [] -> (forall q, In q l -> q <= 1) -> qsum l / qz (Z.of_nat (List.length l)) <= 1.
Proof.
  intros l NE H. assert (S : qsum l <= qz (Z.of_nat (List.length l))).
  { clear NE. induction l as [|x l IH]; [discriminate|]. specialize (IH (fun q I => H q (or_intror I))). specialize (H x (or_introl eq_refl)).
    change (qsum (x :: l)) with (x + qsum l). cbn [List.length]. rewrite Nat2Z.inj_succ, <- Z.add_1_r, qz_add. change (qz 1) with 1. revert IH H. generalize (qsum l) (qz (Z.of_nat (List.length l))). intros; qlra. }
  assert (P : 0 < qz (Z.of_nat (List.length l))) by (apply qz_pos; destruct l; [congruence|cbn; lia]).
  revert S P. generalize (qsum l) (qz (Z.of_nat (List.length l))). intros a n S P. assert (n <> 0) as NZ by (intros ->; discriminate P).
  assert (a = a / n * n) as E by (field; exact NZ). rewrite E in S. revert S. generalize (a / n). intros y S. apply Qcnot_lt_le. intros C. qnra.
Qed.

(** The decomposition with the Kalman filter. *)
Lemma decompose_kalman : forall F rounds iterations pn renorm clip adf order stl max sens crit prune sig ffill s d,
  fit_soiling F = kalman_fit rounds iterations pn renorm clip ->
  snd (decompose F adf order stl max sens crit prune (Fin sig) ffill s) = Ok d ->
  (exists input pce perfect pruning k, kalman_filter_for_SR rounds input pn (ff 1 20) (ff 1 200) (ff 1 2000) iterations pruning renorm perfect (Some pce) clip true = Some (Ok k) /\
     o_ratio d = k_ratio k /\ o_rates d = k_rates k /\ o_events d = k_events k) /\
  (clip = true -> forall x, In x (o_ratio d) -> fle x (fz 1) = true \/ x = NaN) /\
  (clip = true -> noinf (o_ratio d) -> finvals (o_ratio d) <> [] -> exists loss, o_loss d = Fin loss /\ 0 <= loss).
Proof.
  intros F rounds iterations pn renorm clip adf order stl max sens crit prune sig ffill s d EF E.
  destruct (decompose_output _ _ _ _ _ _ _ _ _ _ _ _ E) as ((input & pce & perfect & pruning & k & EK & A & B & C) & _ & _ & _ & _ & L & _).
  rewrite EF in EK. unfold kalman_fit in EK. destruct (kalman_filter_for_SR rounds input pn _ _ _ iterations pruning renorm perfect (Some pce) clip true) as [x|] eqn:EX; [|discriminate EK]. subst x.
  split; [exists input, pce, perfect, pruning, k; auto|].
  assert (CL : clip = true -> forall x, In x (o_ratio d) -> fle x (fz 1) = true \/ x = NaN).
  { intros H x Hx. rewrite A in Hx. exact (frame_clip _ _ _ _ _ _ _ _ _ _ _ _ _ _ EX H x Hx). }
  split; [exact CL|]. intros H N NE. destruct (L N NE) as (m & M & ->). eexists. split; [reflexivity|].
  assert (m <= 1).
  { unfold mean_of in M. subst m. apply mean_upper; [exact NE|]. intros q Hq. apply finvals_In in Hq. destruct (CL H _ Hq) as [F1|F1]; [|discriminate F1]. apply qle_spec. exact F1. }
  assert (0 <= 1 - m) as D by qlra. revert D. generalize (1 - m). intros y D. assert (0 < qz 100) as P by reflexivity. qnra.
Qed.
