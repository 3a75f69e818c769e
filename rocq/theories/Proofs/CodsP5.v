(** Proofs about the schedule of the CODS decomposition. *)

From Coq Require Import QArith Qcanon List ZArith Bool Arith Lia String.
From Verif.Base Require Import QcExtra ISort Quantile Fl TimeSeries Calendar Rolling.
From Verif.Spec Require Import Stats CodsRun.
From Verif.Model Require Import Soiling CodsTools CodsKalman Cods.
Import ListNotations.
Open Scope list_scope.
Open Scope nat_scope.

Lemma nth_seq_map : forall (A : Type) (g : nat -> A) k n d, k < n -> nth k (map g (seq 0 n)) d = g k.
Proof. intros A g k n d H. rewrite nth_indep with (d' := g 0) by (rewrite map_length, seq_length; exact H). rewrite map_nth, seq_nth by exact H. reflexivity. Qed.

Section Schedule.
  Context {St : Type} (step : string -> bool -> nat -> St -> result (St * fl)) (order0 : list string) (max : nat) (criterion : fl).
  Let n := List.length order0.
  Hypothesis n_pos : 1 <= n.

  Lemma iterate_prefix : forall left ic order perfect change metrics st fits ms r,
    iterate step n max criterion left ic order perfect change metrics st = (fits, ms, r) ->
    exists rest, ms = metrics ++ rest /\ carried_out step ic st fits rest r.
  Proof.
    induction left as [|left IH]; intros ic order perfect change metrics st fits ms r E; cbn [iterate] in E.
    - injection E as <- <- <-. exists []. split; [symmetry; apply app_nil_r|constructor].
    - set (c := nth ((S ic - 1) mod n) order ""%string) in *. destruct (step c perfect (S ic) st) as [[st' x]|e] eqn:ES.
      + assert (G : forall o p ch f1 m1 r1, iterate step n max criterion left (S ic) o p ch (metrics ++ [x]) st' = (f1, m1, r1) ->
            exists rest, m1 = metrics ++ rest /\ carried_out step ic st ((c, perfect) :: f1) rest r1).
        { intros o p ch f1 m1 r1 E1. destruct (IH _ _ _ _ _ _ _ _ _ E1) as (rest & -> & CO). exists (x :: rest). split; [rewrite <- app_assoc; reflexivity|].
          econstructor; eassumption. }
        assert (G0 : exists rest, metrics ++ [x] = metrics ++ rest /\ carried_out step ic st [(c, perfect)] rest (Ok st')).
        { exists [x]. split; [reflexivity|]. econstructor; [eassumption|constructor]. }
        destruct (n <=? S ic).
        * destruct (perfect && _).
          -- destruct (iterate step n max criterion left (S ic) (reorder n (S ic) order) false (S ic) (metrics ++ [x]) st') as [[f1 m1] r1] eqn:E1. injection E as <- <- <-. eapply G; eassumption.
          -- destruct (negb perfect && _).
             ++ injection E as <- <- <-. exact G0.
             ++ destruct (iterate step n max criterion left (S ic) order perfect change (metrics ++ [x]) st') as [[f1 m1] r1] eqn:E1. injection E as <- <- <-. eapply G; eassumption.
        * destruct (iterate step n max criterion left (S ic) order perfect change (metrics ++ [x]) st') as [[f1 m1] r1] eqn:E1. injection E as <- <- <-. eapply G; eassumption.
      + injection E as <- <- <-. exists []. split; [symmetry; apply app_nil_r|]. constructor. exact ES.
  Qed.

  (** The rotation of the order: the next component is the first one. *)
  Lemma reorder_nth : forall ic k, 1 <= ic -> ic <= k ->
    nth (k mod n) (reorder n ic order0) ""%string = nth ((k - ic) mod n) order0 ""%string.
  Proof.
    intros ic k Hic Hk. unfold reorder. assert (n <> 0) by lia. assert (k mod n < n) by (apply Nat.mod_upper_bound; lia).
    rewrite nth_seq_map by assumption. f_equal.
    pose proof (Nat.mod_upper_bound (ic - 1) n ltac:(lia)) as B. pose proof (Nat.div_mod (ic - 1) n ltac:(lia)) as D1. pose proof (Nat.div_mod k n ltac:(lia)) as D2.
    set (a := (ic - 1) mod n) in *. set (b := k mod n) in *. set (p := (ic - 1) / n) in *. set (q := k / n) in *.
    assert (p <= q) by (unfold p, q; apply Nat.div_le_mono; lia).
    (* k - ic = n q + b - (n p + a + 1) *)
    assert (E : b + n - 1 - a + q * n = k - ic + (p + 1) * n) by nia.
    rewrite <- (Nat.mod_add (b + n - 1 - a) q n) by lia. rewrite E. rewrite Nat.mod_add by lia. reflexivity.
  Qed.

  Definition last_errors (metrics ms : list fl) : Prop := exists rest, ms = metrics ++ rest.

  Lemma errors_at : forall metrics ms i, last_errors metrics ms -> i < List.length metrics -> nth i ms NaN = nth i metrics NaN.
  Proof. intros metrics ms i (rest & ->) H. apply app_nth1. exact H. Qed.

  Lemma improvement_at : forall ic metrics x ms, List.length metrics = S ic -> last_errors (metrics ++ [x]) ms -> n <= S ic ->
    (flt (improvement n (metrics ++ [x])) criterion = true <-> hardly_improved n criterion (fun i => nth i ms NaN) (S ic)).
  Proof.
    intros ic metrics x ms L P Hn. unfold improvement, hardly_improved. rewrite app_length, L. cbn [List.length].
    rewrite (errors_at _ _ (S ic) P), (errors_at _ _ (S ic - n) P) by (rewrite app_length, L; cbn [List.length]; lia).
    replace (S ic + 1 - 1) with (S ic) by lia. reflexivity.
  Qed.

  Lemma step_shape : forall left ic order perfect change metrics st fits ms r st' x,
    let c := nth ((S ic - 1) mod n) order ""%string in
    step c perfect (S ic) st = Ok (st', x) ->
    iterate step n max criterion (S left) ic order perfect change metrics st = (fits, ms, r) ->
    let small := flt (improvement n (metrics ++ [x])) criterion in
    exists f1, fits = (c, perfect) :: f1 /\
    ((n <= S ic /\ perfect = true /\ (max <= 2 * S ic \/ small = true) /\
        iterate step n max criterion left (S ic) (reorder n (S ic) order) false (S ic) (metrics ++ [x]) st' = (f1, ms, r)) \/
     (n <= S ic /\ perfect = false /\ (max <= S ic \/ (change + n <= S ic /\ small = true)) /\ f1 = [] /\ ms = metrics ++ [x] /\ r = Ok st') \/
     (iterate step n max criterion left (S ic) order perfect change (metrics ++ [x]) st' = (f1, ms, r) /\
        (perfect = true -> ~ (n <= S ic /\ (max <= 2 * S ic \/ small = true))) /\
        (perfect = false -> ~ (n <= S ic /\ (max <= S ic \/ (change + n <= S ic /\ small = true)))))).
  Proof.
    intros left ic order perfect change metrics st fits ms r st' x c ES E small. cbn [iterate] in E. fold c in E. rewrite ES in E. fold small in E.
    destruct (n <=? S ic) eqn:En.
    - apply Nat.leb_le in En. destruct (perfect && _) eqn:Ep.
      + apply andb_true_iff in Ep. destruct Ep as [-> Ep]. apply orb_true_iff in Ep. rewrite Nat.leb_le in Ep.
        destruct (iterate step n max criterion left (S ic) (reorder n (S ic) order) false (S ic) (metrics ++ [x]) st') as [[f1 m1] r1] eqn:E1. injection E as <- <- <-.
        exists f1. split; [reflexivity|]. left. auto.
      + destruct (negb perfect && _) eqn:Eq.
        * apply andb_true_iff in Eq. destruct Eq as [Np Eq]. apply negb_true_iff in Np. apply orb_true_iff in Eq. rewrite andb_true_iff, !Nat.leb_le in Eq.
          injection E as <- <- <-. exists []. split; [reflexivity|]. right. left. auto 10.
        * destruct (iterate step n max criterion left (S ic) order perfect change (metrics ++ [x]) st') as [[f1 m1] r1] eqn:E1. injection E as <- <- <-.
          exists f1. split; [reflexivity|]. right. right. split; [reflexivity|]. split.
          -- intros -> (_ & C). cbn [andb] in Ep. apply orb_false_iff in Ep. rewrite Nat.leb_gt in Ep. destruct C as [C|C]; [lia|]. destruct Ep. congruence.
          -- intros -> (_ & C). cbn [negb andb] in Eq. apply orb_false_iff in Eq. rewrite Nat.leb_gt, andb_false_iff, Nat.leb_gt in Eq.
             destruct Eq as [Q1 Q2]. destruct C as [C|[C1 C2]]; [lia|]. destruct Q2 as [Q2|Q2]; [lia|congruence].
    - apply Nat.leb_gt in En.
      destruct (iterate step n max criterion left (S ic) order perfect change (metrics ++ [x]) st') as [[f1 m1] r1] eqn:E1. injection E as <- <- <-.
      exists f1. split; [reflexivity|]. right. right. split; [reflexivity|]. split; intros _ (C & _); lia.
  Qed.

  Lemma change_unique : forall m c d, change_point n max criterion m c -> change_point n max criterion m d -> c = d.
  Proof.
    intros m c d (C1 & C2 & C3) (D1 & D2 & D3). destruct (Nat.lt_trichotomy c d) as [L|[L|L]]; [|exact L|].
    - elim (D3 c ltac:(lia) C2).
    - elim (C3 d ltac:(lia) D2).
  Qed.

  (** What holds between the fits. *)
  Definition invariant (m : nat -> fl) (ic : nat) (order : list string) (perfect : bool) (change : nat) : Prop :=
    if perfect then order = order0 /\ forall i, 1 <= i <= ic -> ~ gives_up n max criterion m i
    else change <= ic /\ change_point n max criterion m change /\ (forall k, change <= k -> nth (k mod n) order ""%string = nth ((k - change) mod n) order0 ""%string) /\
         forall i, change + n <= i <= ic -> ~ hardly_improved n criterion m i.

  Lemma invariant_quiet : forall m ic order perfect change i, invariant m ic order perfect change -> i <= ic -> ~ converged n max criterion m i.
  Proof.
    intros m ic order perfect change i I Hi (c & Hc & Hn & Hs). unfold invariant in I. destruct perfect.
    - destruct I as [_ I]. destruct Hc as (C1 & C2 & _). apply (I c); [lia|exact C2].
    - destruct I as (_ & I & _ & Q). pose proof (change_unique _ _ _ I Hc) as ->. apply (Q i); [lia|exact Hs].
  Qed.

  Lemma scheduled_now : forall m ic order perfect change, invariant m ic order perfect change ->
    scheduled order0 max criterion m (S ic) (nth ((S ic - 1) mod n) order ""%string, perfect).
  Proof.
    intros m ic order perfect change I. unfold scheduled. cbn [fst snd]. fold n. replace (S ic - 1) with ic by lia. unfold invariant in I. destruct perfect.
    - left. split; [reflexivity|]. destruct I as [-> I]. split.
      + apply nth_error_nth'. apply Nat.mod_upper_bound. lia.
      + intros c Hc (C1 & C2 & _). apply (I c); [lia|exact C2].
    - right. destruct I as (L & C & R & _). exists change. split; [lia|]. split; [exact C|]. split; [reflexivity|].
      rewrite (R ic L). apply nth_error_nth'. apply Nat.mod_upper_bound. lia.
  Qed.

  Lemma iterate_schedule : forall left ic order perfect change metrics st fits ms r,
    iterate step n max criterion left ic order perfect change metrics st = (fits, ms, r) ->
    List.length metrics = S ic -> ic + left = max -> let m := (fun i => nth i ms NaN) in
    invariant m ic order perfect change ->
    (forall i f, nth_error fits i = Some f -> scheduled order0 max criterion m (S (ic + i)) f) /\
    List.length fits <= left /\
    (forall i, i < ic + List.length fits -> ~ converged n max criterion m i) /\
    (forall s, r = Ok s -> ic + List.length fits = max \/ converged n max criterion m (ic + List.length fits)).
  Proof.
    induction left as [|left IH]; intros ic order perfect change metrics st fits ms r E L HM m I.
    - cbn [iterate] in E. injection E as <- <- <-. cbn [List.length]. split; [intros [|i] f C; discriminate C|]. split; [lia|]. split.
      + intros i Hi. apply (invariant_quiet m ic order perfect change); [exact I|lia].
      + intros s _. left. lia.
    - pose proof (iterate_prefix _ _ _ _ _ _ _ _ _ _ E) as (rest & EM & CO).
      destruct (step (nth ((S ic - 1) mod n) order ""%string) perfect (S ic) st) as [[st' x]|e] eqn:ES.
      2: { cbn [iterate] in E. rewrite ES in E. injection E as <- <- <-. cbn [List.length]. split.
           - intros [|[|i]] f Hf; try discriminate Hf. injection Hf as <-. rewrite Nat.add_0_r. apply (scheduled_now m ic order perfect change I).
           - split; [lia|]. split; [|intros s C; discriminate C].
             intros i Hi. apply (invariant_quiet m ic order perfect change); [exact I|lia]. }
      destruct (step_shape left ic order perfect change metrics st fits ms r st' x ES E) as (f1 & -> & SH).
      assert (L' : List.length (metrics ++ [x]) = S (S ic)) by (rewrite app_length, L; cbn; lia).
      assert (P : last_errors (metrics ++ [x]) ms).
      { destruct SH as [(_ & _ & _ & E1)|[(_ & _ & _ & _ & -> & _)|(E1 & _)]].
        - destruct (iterate_prefix _ _ _ _ _ _ _ _ _ _ E1) as (r2 & -> & _). exists r2. reflexivity.
        - exists []. symmetry. apply app_nil_r.
        - destruct (iterate_prefix _ _ _ _ _ _ _ _ _ _ E1) as (r2 & -> & _). exists r2. reflexivity. }
      assert (NOW : scheduled order0 max criterion m (S (ic + 0)) (nth ((S ic - 1) mod n) order ""%string, perfect))
        by (rewrite Nat.add_0_r; apply (scheduled_now m ic order perfect change I)).
      assert (REC : forall o p ch, iterate step n max criterion left (S ic) o p ch (metrics ++ [x]) st' = (f1, ms, r) -> invariant m (S ic) o p ch ->
        (forall i f, nth_error ((nth ((S ic - 1) mod n) order ""%string, perfect) :: f1) i = Some f -> scheduled order0 max criterion m (S (ic + i)) f) /\
        List.length ((nth ((S ic - 1) mod n) order ""%string, perfect) :: f1) <= S left /\
        (forall i, i < ic + List.length ((nth ((S ic - 1) mod n) order ""%string, perfect) :: f1) -> ~ converged n max criterion m i) /\
        (forall s, r = Ok s -> ic + List.length ((nth ((S ic - 1) mod n) order ""%string, perfect) :: f1) = max \/ converged n max criterion m (ic + List.length ((nth ((S ic - 1) mod n) order ""%string, perfect) :: f1)))).
      { intros o p ch E1 I1. destruct (IH _ _ _ _ _ _ _ _ _ E1 L' ltac:(lia) I1) as (A1 & A2 & A3 & A4). fold m in A1, A3, A4. cbn [List.length].
        replace (ic + S (List.length f1)) with (S ic + List.length f1) by lia. split; [|split; [lia|split; assumption]].
        intros [|i] f Hf; [injection Hf as <-; exact NOW|]. replace (S (ic + S i)) with (S (S ic + i)) by lia. apply A1. exact Hf. }
      destruct SH as [(Hn & -> & Hg & E1)|[(Hn & -> & Hg & -> & -> & ->)|(E1 & Q1 & Q2)]].
      + apply (REC _ _ _ E1). unfold invariant in I |- *. destruct I as [-> I]. rewrite (improvement_at ic metrics x ms L P Hn) in Hg. fold m in Hg.
        assert (G : gives_up n max criterion m (S ic)) by (split; assumption).
        split; [lia|]. split; [split; [lia|split; [exact G|]]|split].
        * intros i Hi. apply I. lia.
        * intros k Hk. apply reorder_nth; lia.
        * intros i Hi. lia.
      + cbn [List.length]. split; [intros [|[|i]] f Hf; try discriminate Hf; injection Hf as <-; exact NOW|]. split; [lia|]. split.
        * intros i Hi. apply (invariant_quiet m ic order false change); [exact I|lia].
        * intros s _. destruct Hg as [Hg|[H1 H2]]; [left; lia|]. right. replace (ic + 1) with (S ic) by lia. apply (improvement_at ic metrics x _ L P Hn) in H2.
          exists change. destruct I as (_ & I & _). split; [exact I|]. split; [exact H1|exact H2].
      + apply (REC _ _ _ E1). unfold invariant in I |- *. destruct perfect.
        * destruct I as [-> I]. split; [reflexivity|]. intros i Hi. destruct (Nat.eq_dec i (S ic)) as [->|C]; [|apply I; lia].
          intros (G1 & G2). apply (Q1 eq_refl). split; [exact G1|]. rewrite (improvement_at ic metrics x ms L P G1). exact G2.
        * destruct I as (I1 & I2 & I3 & I4). split; [lia|]. split; [exact I2|]. split; [exact I3|].
          intros i Hi. destruct (Nat.eq_dec i (S ic)) as [->|C]; [|apply I4; lia].
          intro G. assert (Hn : n <= S ic) by lia. apply (Q2 eq_refl). split; [exact Hn|]. right. split; [lia|].
          rewrite (improvement_at ic metrics x ms L P Hn). exact G.
  Qed.

  Lemma run_schedule : forall first st fits ms r,
    iterate step n max criterion max 0 order0 true 0 [first] st = (fits, ms, r) -> run_of step order0 max criterion first st fits ms r.
  Proof.
    intros first st fits ms r E. unfold run_of. fold n.
    pose proof (iterate_prefix _ _ _ _ _ _ _ _ _ _ E) as (rest & EM & CO).
    assert (I : invariant (fun i => nth i ms NaN) 0 order0 true 0) by (split; [reflexivity|]; intros i Hi; lia).
    destruct (iterate_schedule _ _ _ _ _ _ _ _ _ _ E eq_refl eq_refl I) as (A1 & A2 & A3 & A4).
    split; [exists rest; split; [exact EM|exact CO]|]. split; [exact A1|]. split; [exact A2|]. split; [exact A3|exact A4].
  Qed.
End Schedule.

(** ** The analysis *)

Lemma used_order_spec : forall stl order,
  used_order stl order = (let o := if stl then filter (fun c => negb (String.eqb c "Rd")) order else order in
                          if in_dec string_dec "SR"%string o then Ok o else Raise ValueError).
Proof.
  intros stl order. unfold used_order. cbv zeta. set (o := if stl then _ else _). clearbody o.
  destruct (in_dec string_dec "SR"%string o) as [I|I].
  - assert (existsb (String.eqb "SR") o = true) as -> by (apply existsb_exists; exists "SR"%string; split; [exact I|apply String.eqb_refl]). reflexivity.
  - destruct (existsb (String.eqb "SR") o) eqn:E; [|reflexivity]. exfalso. apply I. apply existsb_exists in E. destruct E as (x & Hx & E). apply String.eqb_eq in E. congruence.
Qed.

Lemma carried_length : forall (St : Type) (step : string -> bool -> nat -> St -> result (St * fl)) ic st fs ms r,
  carried_out step ic st fs ms r -> List.length fs = (List.length ms + match r with Ok _ => 0 | Raise _ => 1 end)%nat.
Proof. intros St step ic st fs ms r H. induction H; cbn [List.length]; rewrite ?IHcarried_out; lia. Qed.

(** The run is determined by the specification. *)
Lemma run_unique_fits : forall (St : Type) (step : string -> bool -> nat -> St -> result (St * fl)) order max criterion first st fits errors r fits' errors' r',
  (1 <= List.length order)%nat ->
  run_of step order max criterion first st fits errors r -> run_of step order max criterion first st fits' errors' r' ->
  fits = fits' /\ errors = errors' /\ r = r'.
Proof.
  intros St step order max criterion first st fits errors r fits' errors' r' Hn R R'.
  set (n := List.length order) in *.
  assert (LOC : forall m m' i, (forall j, j <= i -> m j = m' j) -> (hardly_improved n criterion m i <-> hardly_improved n criterion m' i)).
  { intros m m' i H. unfold hardly_improved. rewrite (H i), (H (i - n)) by lia. reflexivity. }
  assert (GL : forall m m' i, (forall j, j <= i -> m j = m' j) -> (gives_up n max criterion m i <-> gives_up n max criterion m' i)).
  { intros m m' i H. unfold gives_up. rewrite (LOC m m' i H). reflexivity. }
  assert (CL : forall m m' i, (forall j, j <= i -> m j = m' j) -> (change_point n max criterion m i -> change_point n max criterion m' i)).
  { intros m m' i H (C1 & C2 & C3). split; [exact C1|]. split; [apply (GL m m' i H); exact C2|]. intros j Hj G. apply (C3 j Hj). apply (GL m m' j); [intros k Hk; apply H; lia|exact G]. }
  assert (VL : forall m m' i, (forall j, j <= i -> m j = m' j) -> (converged n max criterion m i -> converged n max criterion m' i)).
  { intros m m' i H (c & C1 & C2 & C3). exists c. split; [apply (CL m m' c); [intros j Hj; apply H; lia|exact C1]|]. split; [exact C2|]. apply (LOC m m' i H). exact C3. }
  assert (SL : forall m m' i f f', (forall j, j <= i -> m j = m' j) -> scheduled order max criterion m (S i) f -> scheduled order max criterion m' (S i) f' -> f = f').
  { intros m m' i [c p] [c' p'] H HS HS'. unfold scheduled in HS, HS'. fold n in HS, HS'. cbn [fst snd] in HS, HS'.
    destruct HS as [(-> & HS & N)|(d & D1 & D2 & -> & HS)]; destruct HS' as [(-> & HS' & N')|(d' & D1' & D2' & -> & HS')].
    - congruence.
    - elim (N d' D1'). apply (CL m' m d'); [intros j Hj; symmetry; apply H; lia|exact D2'].
    - elim (N' d D1). apply (CL m m' d); [intros j Hj; apply H; lia|exact D2].
    - assert (change_point n max criterion m d') as D3 by (apply (CL m' m d'); [intros j Hj; symmetry; apply H; lia|exact D2']).
      destruct D2 as (X1 & X2 & X3). destruct D3 as (Y1 & Y2 & Y3).
      assert (d = d') as ->; [|congruence]. destruct (Nat.lt_trichotomy d d') as [Q|[Q|Q]]; [elim (Y3 d ltac:(lia) X2)|exact Q|elim (X3 d' ltac:(lia) Y2)]. }
  destruct R as ((rest & EE & CO) & SC & LE & QU & FI). destruct R' as ((rest' & EE' & CO') & SC' & LE' & QU' & FI'). subst errors errors'. fold n in QU, FI, QU', FI'.
  (* generalise over the part already compared *)
  assert (G : forall ic st0 fs ms r0, carried_out step ic st0 fs ms r0 -> forall fs' ms' r0', carried_out step ic st0 fs' ms' r0' ->
    forall pre, List.length pre = S ic ->
    (forall i f, nth_error fs i = Some f -> scheduled order max criterion (fun j => nth j (pre ++ ms) NaN) (S (ic + i)) f) ->
    (forall i f, nth_error fs' i = Some f -> scheduled order max criterion (fun j => nth j (pre ++ ms') NaN) (S (ic + i)) f) ->
    (ic + List.length fs <= max) -> (ic + List.length fs' <= max) ->
    (forall i, i < ic + List.length fs -> ~ converged n max criterion (fun j => nth j (pre ++ ms) NaN) i) ->
    (forall i, i < ic + List.length fs' -> ~ converged n max criterion (fun j => nth j (pre ++ ms') NaN) i) ->
    (forall s, r0 = Ok s -> ic + List.length fs = max \/ converged n max criterion (fun j => nth j (pre ++ ms) NaN) (ic + List.length fs)) ->
    (forall s, r0' = Ok s -> ic + List.length fs' = max \/ converged n max criterion (fun j => nth j (pre ++ ms') NaN) (ic + List.length fs')) ->
    fs = fs' /\ ms = ms' /\ r0 = r0').
  { clear - SL VL. intros ic st0 fs ms r0 H. induction H as [ic st|ic st c p st' x fs ms r E H IH|ic st c p e E]; intros fs' ms' r0' H' pre LP S1 S2 L1 L2 Q1 Q2 F1 F2.
    - destruct H' as [ic st|ic st c p st' x fs' ms' r' E' H'|ic st c p e E'].
      + repeat split; reflexivity.
      + exfalso. cbn [List.length] in *. destruct (F1 st eq_refl) as [K|K]; [lia|]. rewrite Nat.add_0_r in K.
        apply (Q2 ic); [lia|]. apply (VL (fun j => nth j (pre ++ []) NaN)); [|exact K]. intros j Hj. rewrite app_nil_r. rewrite app_nth1 by lia. reflexivity.
      + exfalso. cbn [List.length] in *. destruct (F1 st eq_refl) as [K|K]; [lia|]. rewrite Nat.add_0_r in K. apply (Q2 ic); [lia|exact K].
    - assert (A : forall c' p' m', (forall j, j <= ic -> nth j (pre ++ x :: ms) NaN = m' j) -> scheduled order max criterion m' (S (ic + 0)) (c', p') -> c = c' /\ p = p').
      { intros c' p' m' Hm HS. rewrite Nat.add_0_r in HS. pose proof (S1 0 (c, p) eq_refl) as HS1. rewrite Nat.add_0_r in HS1.
        pose proof (SL _ _ ic _ _ Hm HS1 HS) as K. injection K as -> ->. split; reflexivity. }
      destruct H' as [ic st|ic st c1 p1 st1 x1 fs' ms' r' E' H'|ic st c1 p1 e E'].
      + exfalso. cbn [List.length] in *. destruct (F2 st eq_refl) as [K|K]; [lia|]. rewrite Nat.add_0_r in K.
        apply (Q1 ic); [lia|]. apply (VL (fun j => nth j (pre ++ []) NaN)); [|exact K]. intros j Hj. rewrite app_nil_r. rewrite app_nth1 by lia. reflexivity.
      + destruct (A c1 p1 _ ltac:(intros j Hj; rewrite !app_nth1 by lia; instantiate (1 := fun j => nth j (pre ++ x1 :: ms') NaN); cbn beta; rewrite app_nth1 by lia; reflexivity) (S2 0 _ eq_refl)) as [<- <-].
        rewrite E in E'. injection E' as <- <-.
        destruct (IH fs' ms' r' H' (pre ++ [x])) as (<- & <- & <-).
        * rewrite app_length, LP. cbn. lia.
        * intros i f Hf. rewrite <- app_assoc. replace (S ic + i) with (ic + S i) by lia. apply (S1 (S i) f Hf).
        * intros i f Hf. rewrite <- app_assoc. replace (S ic + i) with (ic + S i) by lia. apply (S2 (S i) f Hf).
        * cbn [List.length] in L1. lia.
        * cbn [List.length] in L2. lia.
        * intros i Hi. rewrite <- app_assoc. apply Q1. cbn [List.length]. lia.
        * intros i Hi. rewrite <- app_assoc. apply Q2. cbn [List.length]. lia.
        * intros s Es. rewrite <- app_assoc. replace (S ic + List.length fs) with (ic + List.length ((c, p) :: fs)) by (cbn [List.length]; lia). exact (F1 s Es).
        * intros s Es. rewrite <- app_assoc. replace (S ic + List.length fs') with (ic + List.length ((c, p) :: fs')) by (cbn [List.length]; lia). exact (F2 s Es).
        * repeat split; reflexivity.
      + exfalso. destruct (A c1 p1 _ ltac:(intros j Hj; rewrite !app_nth1 by lia; instantiate (1 := fun j => nth j (pre ++ []) NaN); cbn beta; rewrite app_nth1 by lia; reflexivity) (S2 0 _ eq_refl)) as [<- <-]. congruence.
    - assert (A : forall c' p' m', (forall j, j <= ic -> nth j (pre ++ []) NaN = m' j) -> scheduled order max criterion m' (S (ic + 0)) (c', p') -> c = c' /\ p = p').
      { intros c' p' m' Hm HS. rewrite Nat.add_0_r in HS. pose proof (S1 0 (c, p) eq_refl) as HS1. rewrite Nat.add_0_r in HS1.
        pose proof (SL _ _ ic _ _ Hm HS1 HS) as K. injection K as -> ->. split; reflexivity. }
      destruct H' as [ic st|ic st c1 p1 st1 x1 fs' ms' r' E' H'|ic st c1 p1 e1 E'].
      + exfalso. cbn [List.length] in *. destruct (F2 st eq_refl) as [K|K]; [lia|]. rewrite Nat.add_0_r in K. apply (Q1 ic); [lia|exact K].
      + exfalso. destruct (A c1 p1 _ ltac:(intros j Hj; rewrite !app_nth1 by lia; instantiate (1 := fun j => nth j (pre ++ x1 :: ms') NaN); cbn beta; rewrite app_nth1 by lia; reflexivity) (S2 0 _ eq_refl)) as [<- <-]. congruence.
      + destruct (A c1 p1 _ ltac:(intros j Hj; reflexivity) (S2 0 _ eq_refl)) as [<- <-]. assert (e = e1) as <- by congruence. repeat split; reflexivity. }
  destruct (G 0 st fits rest r CO fits' rest' r' CO' [first] eq_refl SC SC' LE LE' QU QU' FI FI') as (A & B & C). subst. repeat split; reflexivity.
Qed.
