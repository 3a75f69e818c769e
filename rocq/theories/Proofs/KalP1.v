(** Algebra of the Kalman filter. *)

From Coq Require Import QArith Qcanon List ZArith Bool Arith Lia.
From Verif.Base Require Import QcExtra ISort Quantile Fl TimeSeries Calendar Rolling.
From Verif.Spec Require Import Stats Tracking.
From Verif.Model Require Import Soiling CodsTools CodsKalman.
Import ListNotations.
Open Scope list_scope.
Open Scope Qc_scope.

Definition vec_of (x : motion) : vec := Vec (Fin (fst x)) (Fin (snd x)).
Definition mat_of (P : cov) : mat := let '(p, c, r) := P in Mat (Fin p) (Fin c) (Fin c) (Fin r).
Definition state_of (s : motion * cov) : filter_state := FS (vec_of (fst s)) (mat_of (snd s)).

(** ** Prediction *)
Lemma q2 : qz 2 = 1 + 1. Proof. apply Qc_is_canon. reflexivity. Qed.
Lemma q4 : qz 4 = (1 + 1) * (1 + 1). Proof. apply Qc_is_canon. reflexivity. Qed.
Lemma two_nz : (1 + 1 : Qc) <> 0. Proof. discriminate. Qed.
Ltac qfield := rewrite ?q4, ?q2; field; repeat split; try exact two_nz; try discriminate; auto.
Definition moved_cov (v : Qc) (P : cov) : cov := let '(p, c, r) := P in
  (p + qz 2 * c + r + v / qz 4, c + r + v / qz 2, r + v).
Lemma moved_det : forall v P, det (moved_cov v P) = det P + v * (let '(p, c, r) := P in p + c + r / qz 4).
Proof. intros v [[p c] r]. unfold moved_cov, det. qfield. Qed.
Lemma form_pos : forall P x y, definite P -> (x <> 0 \/ y <> 0) -> 0 < (let '(p, c, r) := P in p * x * x + qz 2 * c * x * y + r * y * y).
Proof.
  intros [[p c] r] x y [Hp Hd] N. unfold det in Hd.
  assert (E : p * (p * x * x + qz 2 * c * x * y + r * y * y) = (p * x + c * y) * (p * x + c * y) + (p * r - c * c) * (y * y)) by (rewrite q2; ring).
  assert (0 < (p * x + c * y) * (p * x + c * y) + (p * r - c * c) * (y * y)) as H.
  { destruct (Qc_eq_dec y 0) as [->|Hy].
    - assert (x <> 0) as Hx by (destruct N as [N|N]; [exact N|congruence]). assert (0 < (p * x) * (p * x)) as K.
      { assert (p * x <> 0) as Nz by (intros C; apply Qcmult_integral in C; destruct C as [C|C]; [subst p; discriminate Hp|contradiction]). revert Nz. generalize (p * x). intros w W. destruct (Qclt_le_dec 0 w); [qnra|]. assert (w < 0) by (destruct (Qcle_lt_or_eq _ _ q) as [?|?]; [assumption|congruence]). qnra. }
      replace (p * x + c * 0) with (p * x) by ring. replace ((p * r - c * c) * (0 * 0)) with 0 by ring. replace ((p * x) * (p * x) + 0) with ((p * x) * (p * x)) by ring. exact K.
    - assert (0 < y * y) as K by (destruct (Qclt_le_dec 0 y); [qnra|]; assert (y < 0) by (destruct (Qcle_lt_or_eq _ _ q) as [?|?]; [assumption|congruence]); qnra).
      revert Hd K. generalize (p * r - c * c) (y * y) (p * x + c * y). intros; qnra. }
  rewrite <- E in H. revert H. generalize (p * x * x + qz 2 * c * x * y + r * y * y). intros w H. apply Qcnot_le_lt. intros C. qnra.
Qed.
Lemma moved_definite : forall v P, 0 < v -> definite P -> definite (moved_cov v P).
Proof.
  intros v [[p c] r] Hv D. assert (D' := D). destruct D as [Hp Hd]. split.
  - pose proof (form_pos (p, c, r) 1 1 D' ltac:(left; discriminate)) as F. cbn in F. unfold moved_cov.
    assert (0 < v / qz 4) as V by (assert (v = qz 4 * (v / qz 4)) as E by (field; discriminate); rewrite E in Hv; revert Hv; generalize (v / qz 4); intros; qlra).
    revert F V. generalize (v / qz 4). intros. qlra.
  - change (0 < det (moved_cov v (p, c, r))). rewrite moved_det. cbv beta iota.
    pose proof (form_pos (p, c, r) 1 (/ qz 2) D' ltac:(left; discriminate)) as F. cbv beta iota in F.
    replace (p * 1 * 1 + qz 2 * c * 1 * / qz 2 + r * / qz 2 * / qz 2) with (p + c + r / qz 4) in F by qfield.
    change (0 < det (p, c, r)) in Hd. revert F Hd Hv. generalize (det (p, c, r)) (p + c + r / qz 4). intros; qnra.
Qed.

Definition best_acc (v : Qc) (P : cov) (m y : motion) : Qc :=
  let '(p, c, r) := moved_cov v P in
  let d := fst y - fst (advance 0 0 m) in
  let e := snd y - snd (advance 0 0 m) in
  v * ((r * d - c * e) / qz 2 + p * e - c * d) / det (p, c, r).
Lemma predict_square : forall v P m u a x, 0 < v -> definite P ->
  distance P x m + a * a / v =
  distance (moved_cov v P) (advance u a x) (advance u 0 m) + det (moved_cov v P) / (v * det P) * ((a - best_acc v P m (advance 0 a x)) * (a - best_acc v P m (advance 0 a x))).
Proof.
  intros v [[p c] r] [l s] u a [y t] Hv D. pose proof (moved_definite v _ Hv D) as [_ D2]. destruct D as [_ D1].
  unfold best_acc, distance, advance. rewrite moved_det in D2 |- *. unfold moved_cov, det in *. cbn [fst snd].
  assert (v <> 0) by (intros ->; discriminate Hv). assert (p * r - c * c <> 0) by (intros C; rewrite C in D1; discriminate D1).
  assert (p * r - c * c + v * (p + c + r / qz 4) <> 0) by (intros C; rewrite C in D2; discriminate D2).
  qfield. repeat match goal with |- context [Qcmake 2 ?h] => change (Qcmake 2 h) with (1 + 1) | |- context [Qcmake 4 ?h] => change (Qcmake 4 h) with ((1 + 1) * (1 + 1)) end.
  match goal with |- ?e <> _ => assert (E : qz 4 * (p * r - c * c + v * (p + c + r / qz 4)) = e) by qfield; rewrite <- E end.
  intros C. apply Qcmult_integral in C. destruct C as [C|C]; [discriminate C|contradiction].
Qed.

(** ** Update *)
Definition seen_cov (R : Qc) (P : cov) : cov := let '(p, c, r) := P in (p * R / (p + R), c * R / (p + R), r - c * c / (p + R)).
Definition seen (R z : Qc) (P : cov) (m : motion) : motion := let '(p, c, r) := P in
  (fst m + p / (p + R) * (z - fst m), snd m + c / (p + R) * (z - fst m)).
Lemma seen_det : forall R P, 0 < R -> definite P -> det (seen_cov R P) = det P * R / (fst (fst P) + R).
Proof.
  intros R [[p c] r] HR [Hp Hd]. unfold seen_cov, det. cbn [fst]. assert (p + R <> 0) by (intros C; assert (0 < p + R) as K by qlra; rewrite C in K; discriminate K). field. auto.
Qed.
Lemma div_pos : forall a b, 0 < a -> 0 < b -> 0 < a / b.
Proof. intros a b Ha Hb. assert (b <> 0) by (intros ->; discriminate Hb). assert (a = a / b * b) as E by (field; assumption). rewrite E in Ha. revert Ha. generalize (a / b). intros q Ha. apply Qcnot_le_lt. intros C. qnra. Qed.
Lemma mul_pos : forall a b, 0 < a -> 0 < b -> 0 < a * b.
Proof. intros. qnra. Qed.
Lemma seen_definite : forall R P, 0 < R -> definite P -> definite (seen_cov R P).
Proof.
  intros R [[p c] r] HR D. pose proof (seen_det R (p, c, r) HR D) as E. destruct D as [Hp Hd]. assert (0 < p + R) by qlra. split.
  - apply div_pos; [apply mul_pos|]; assumption.
  - change (0 < det (seen_cov R (p, c, r))). rewrite E. apply div_pos; [apply mul_pos|]; assumption.
Qed.
Lemma update_square : forall R z P m x, 0 < R -> definite P ->
  distance P x m + (z - fst x) * (z - fst x) / R =
  distance (seen_cov R P) x (seen R z P m) + (z - fst m) * (z - fst m) / (fst (fst P) + R).
Proof.
  intros R z [[p c] r] [l s] [y t] HR D. pose proof (seen_det R (p, c, r) HR D) as E. assert (D' := D). destruct D as [Hp Hd]. unfold distance. rewrite E. unfold seen_cov, seen, det in *. cbn [fst snd] in *.
  assert (R <> 0) by (intros ->; discriminate HR). assert (p * r - c * c <> 0) by (intros C; rewrite C in Hd; discriminate Hd).
  assert (p + R <> 0) by (intros C; assert (0 < p + R) as K by qlra; rewrite C in K; discriminate K).
  qfield.
Qed.

Lemma distance_nonneg : forall P x y, definite P -> 0 <= distance P x y /\ (distance P x y = 0 -> x = y).
Proof.
  intros [[p c] r] [a b] [d e] D. assert (D' := D). destruct D as [Hp Hd]. change (0 < det (p, c, r)) in Hd. unfold distance. cbn [fst snd].
  assert (DI : definite (r, - c, p)). { unfold definite, det. split; [|unfold det in Hd; replace (r * p - - c * - c) with (p * r - c * c) by ring; exact Hd].
    pose proof (form_pos (p, c, r) 0 1 D' ltac:(right; discriminate)) as F. cbv beta iota in F. replace (p * 0 * 0 + qz 2 * c * 0 * 1 + r * 1 * 1) with r in F by ring. exact F. }
  assert (N : a - d <> 0 \/ b - e <> 0 -> 0 < (r * (a - d) * (a - d) - qz 2 * c * (a - d) * (b - e) + p * (b - e) * (b - e)) / det (p, c, r)).
  { intros N. apply div_pos; [|exact Hd]. pose proof (form_pos (r, - c, p) (a - d) (b - e) DI N) as F. cbv beta iota in F.
    replace (r * (a - d) * (a - d) + qz 2 * - c * (a - d) * (b - e) + p * (b - e) * (b - e)) with (r * (a - d) * (a - d) - qz 2 * c * (a - d) * (b - e) + p * (b - e) * (b - e)) in F by ring. exact F. }
  destruct (Qc_eq_dec (a - d) 0) as [E1|E1]; [destruct (Qc_eq_dec (b - e) 0) as [E2|E2]|].
  - rewrite E1, E2. assert (det (p, c, r) <> 0) as Z by (intros C; rewrite C in Hd; discriminate Hd).
    replace ((r * 0 * 0 - qz 2 * c * 0 * 0 + p * 0 * 0) / det (p, c, r)) with 0 by (field; exact Z). split; [apply Qcle_refl|]. intros _.
    f_equal; [replace a with (a - d + d) by ring; rewrite E1|replace b with (b - e + e) by ring; rewrite E2]; ring.
  - specialize (N (or_intror E2)). split; [apply Qclt_le_weak; exact N|]. intros C. rewrite C in N. discriminate N.
  - specialize (N (or_introl E1)). split; [apply Qclt_le_weak; exact N|]. intros C. rewrite C in N. discriminate N.
Qed.

(** ** One row *)
Definition track (v R : Qc) (u : Qc) (z : option Qc) (s : motion * cov) : motion * cov :=
  let m := advance u 0 (fst s) in
  let P := moved_cov v (snd s) in
  match z with None => (m, P) | Some z => (seen R z P m, seen_cov R P) end.
Definition row_misfit (R : Qc) (z : option Qc) (x : motion) : Qc := match z with Some z => (z - fst x) * (z - fst x) / R | None => 0 end.
Lemma track_definite : forall v R u z s, 0 < v -> 0 < R -> definite (snd s) -> definite (snd (track v R u z s)).
Proof. intros v R u [z|] s Hv HR D; cbn [track snd]; [apply seen_definite; [exact HR|]|]; apply moved_definite; assumption. Qed.
Lemma track_cost : forall v R u z s, 0 < v -> 0 < R -> definite (snd s) -> exists k w, 0 < w /\ forall x a,
  distance (snd s) x (fst s) + a * a / v + row_misfit R z (advance u a x) =
  w * ((a - best_acc v (snd s) (fst s) (advance 0 a x)) * (a - best_acc v (snd s) (fst s) (advance 0 a x))) + k +
  distance (snd (track v R u z s)) (advance u a x) (fst (track v R u z s)).
Proof.
  intros v R u z [m P] Hv HR D. cbn [fst snd] in *. pose proof (moved_definite v P Hv D) as MD.
  exists (match z with Some z => (z - fst (advance u 0 m)) * (z - fst (advance u 0 m)) / (fst (fst (moved_cov v P)) + R) | None => 0 end), (det (moved_cov v P) / (v * det P)).
  assert (DP : forall Q, definite Q -> 0 < det Q) by (intros [[? ?] ?] [_ ?]; assumption).
  split; [apply div_pos; [apply DP, MD|apply mul_pos; [exact Hv|apply DP, D]]|]. intros x a.
  rewrite (predict_square v P m u a x Hv D). destruct z as [z|]; cbn [track row_misfit fst snd].
  - pose proof (update_square R z (moved_cov v P) (advance u 0 m) (advance u a x) HR MD) as U.
    rewrite (Qcplus_comm (distance (moved_cov v P) _ _)), <- Qcplus_assoc, U. ring.
  - ring.
Qed.

(** The row before, when the rate changes in the best way. *)
Definition retreat (u a : Qc) (y : motion) : motion := (fst y - u - a / qz 2 - (snd y - a), snd y - a).
Lemma advance_retreat : forall u a y, advance u a (retreat u a y) = y.
Proof. intros u a [l s]. unfold advance, retreat. cbn [fst snd]. f_equal; ring. Qed.
Lemma retreat_advance : forall u a x, retreat u a (advance u a x) = x.
Proof. intros u a [l s]. unfold advance, retreat. cbn [fst snd]. f_equal; ring. Qed.
Lemma advance_split : forall u a x, advance 0 a x = (fst (advance u a x) - u, snd (advance u a x)).
Proof. intros u a [l s]. unfold advance. cbn [fst snd]. f_equal; ring. Qed.

(** ** The whole pass *)
Fixpoint tracks (v R : Qc) (us : list Qc) (zs : list (option Qc)) (s : motion * cov) : list (motion * cov) :=
  match us, zs with
  | u :: us', z :: zs' => track v R u z s :: tracks v R us' zs' (track v R u z s)
  | _, _ => []
  end.
Lemma cost_cons : forall v R s u us z zs x a accs,
  cost v R s (u :: us) (z :: zs) x (a :: accs) =
  distance (snd s) x (fst s) + a * a / v + row_misfit R z (advance u a x) + effort v accs + misfit R zs (path (advance u a x) us accs).
Proof.
  intros. unfold cost, effort, misfit. cbn [path map combine]. unfold qsum. cbn [fold_right fst snd]. fold (qsum (map (fun a0 => a0 * a0 / v) accs)).
  destruct z; cbn [row_misfit]; ring.
Qed.
Lemma cost_nil : forall v R s x, cost v R s [] [] x [] = distance (snd s) x (fst s).
Proof. intros. unfold cost, effort, misfit. cbn. ring. Qed.
Lemma last_path : forall x us accs d, List.last (x :: path x us accs) d = List.last (path x us accs) x.
Proof. intros x us accs d. destruct (path x us accs) as [|y l]; [reflexivity|]. cbn [List.last]. clear. revert y. induction l as [|z l IH]; intros y; [reflexivity|]. apply IH. Qed.

Lemma tracks_estimated : forall v R us zs s, 0 < v -> 0 < R -> definite (snd s) -> List.length us = List.length zs ->
  estimated v R s us zs (List.last (tracks v R us zs s) s).
Proof.
  intros v R us. induction us as [|u us IH]; intros [|z zs] s Hv HR D L; try discriminate L.
  - split; [exact D|]. split; [reflexivity|]. exists 0. split.
    + intros x accs HL. destruct accs; [|discriminate HL]. rewrite cost_nil. cbn. rewrite Qcplus_0_l. apply Qcle_refl.
    + intros y. exists y, []. rewrite cost_nil. cbn. repeat split. ring.
  - cbn in L. set (s1 := track v R u z s). pose proof (track_definite v R u z s Hv HR D) as D1. fold s1 in D1.
    specialize (IH zs s1 Hv HR D1 ltac:(lia)). destruct IH as (DN & _ & c & C1 & C2). destruct (track_cost v R u z s Hv HR D) as (k & w & W & TC). fold s1 in TC.
    assert (EL : List.last (tracks v R (u :: us) (z :: zs) s) s = List.last (tracks v R us zs s1) s1).
    { cbn [tracks]. fold s1. generalize (tracks v R us zs s1). intros l. destruct l as [|t l]; [reflexivity|]. cbn [List.last]. clear. revert t. induction l as [|q l IH]; intros t; [reflexivity|]. apply IH. }
    rewrite EL. set (now := List.last _ s1) in *. clearbody now. split; [exact DN|]. split; [cbn; lia|]. exists (k + c). split.
    + intros x [|a accs] HL; [discriminate HL|]. cbn [path]. rewrite last_path, cost_cons, TC.
      specialize (C1 (advance u a x) accs ltac:(cbn in HL; lia)). unfold cost in C1.
      assert (0 <= w * ((a - best_acc v (snd s) (fst s) (advance 0 a x)) * (a - best_acc v (snd s) (fst s) (advance 0 a x)))) as SQ by (generalize (a - best_acc v (snd s) (fst s) (advance 0 a x)); intros q; assert (0 <= q * q) by qnra; qnra).
      revert SQ C1. generalize (w * ((a - best_acc v (snd s) (fst s) (advance 0 a x)) * (a - best_acc v (snd s) (fst s) (advance 0 a x)))) (distance (snd now) (List.last (path (advance u a x) us accs) (advance u a x)) (fst now))
        (effort v accs) (misfit R zs (path (advance u a x) us accs)) (distance (snd s1) (advance u a x) (fst s1)). intros; qlra.
    + intros y. destruct (C2 y) as (x1 & accs & HL & E & EC). set (a := best_acc v (snd s) (fst s) (fst x1 - u, snd x1)).
      exists (retreat u a x1), (a :: accs). split; [cbn; lia|]. cbn [path]. rewrite last_path, cost_cons, TC, (advance_split u), !advance_retreat. split; [exact E|]. fold a. unfold cost in EC.
      transitivity (k + (distance (snd s1) x1 (fst s1) + effort v accs + misfit R zs (path x1 us accs))); [ring|]. rewrite EC. ring.
Qed.

(** ** The way back *)
Definition back (v : Qc) (P : cov) (m y : motion) : motion := retreat 0 (best_acc v P m y) y.
Fixpoint back_path (v : Qc) (l : list (motion * cov)) : list motion :=
  match l with
  | [] => []
  | s :: l' => match back_path v l' with [] => [fst s] | y :: rest => back v (snd s) (fst s) y :: y :: rest end
  end.
Lemma back_best : forall v R zs s, 0 < v -> 0 < R -> definite (snd s) ->
  best_path v R s zs (back_path v (s :: tracks v R (map (fun _ => 0) zs) zs s)).
Proof.
  intros v R zs. induction zs as [|z zs IH]; intros s Hv HR D.
  - exists (fst s), []. split; [reflexivity|]. split; [reflexivity|]. intros y other HL. destruct other; [|discriminate HL]. cbn [map]. rewrite !cost_nil.
    destruct (distance_nonneg (snd s) y (fst s) D) as [N Z]. assert (distance (snd s) (fst s) (fst s) = 0) as ->.
    { destruct s as [[a b] [[p c] r]]. destruct D as [_ Dd]. unfold distance. cbn [fst snd]. assert (det (p, c, r) <> 0) by (intros C; change (0 < det (p, c, r)) in Dd; rewrite C in Dd; discriminate Dd). field. assumption. }
    split; [exact N|]. intros E. split; [apply Z, E|reflexivity].
  - set (s1 := track v R 0 z s). pose proof (track_definite v R 0 z s Hv HR D) as D1. fold s1 in D1. destruct (IH s1 Hv HR D1) as (x1 & accs & HL & EB & BEST). cbn [map] in *.
    destruct (track_cost v R 0 z s Hv HR D) as (k & w & W & TC). fold s1 in TC. set (a := best_acc v (snd s) (fst s) x1).
    exists (retreat 0 a x1), (a :: accs). split; [cbn; lia|]. split.
    { cbn [map tracks path]. fold s1. rewrite advance_retreat. change (back_path v (s :: s1 :: tracks v R (map (fun _ => 0) zs) zs s1)) with
        (match back_path v (s1 :: tracks v R (map (fun _ => 0) zs) zs s1) with [] => [fst s] | y :: rest => back v (snd s) (fst s) y :: y :: rest end). rewrite EB. reflexivity. }
    intros y [|b other] HO; [discriminate HO|]. cbn [map]. rewrite !cost_cons, !TC, !advance_retreat. fold a.
    specialize (BEST (advance 0 b y) other ltac:(cbn in HO; lia)). unfold cost in BEST. destruct BEST as [B1 B2].
    set (g := b - best_acc v (snd s) (fst s) (advance 0 b y)) in *. assert (G : 0 <= g * g /\ (g * g = 0 -> g = 0)) by (split; [qnra|intros C; apply Qcmult_integral in C; tauto]).
    assert (K : w * ((a - a) * (a - a)) = 0) by ring. rewrite K.
    assert (SQ : 0 <= w * (g * g)) by (destruct G as [G _]; revert G; generalize (g * g); intros; qnra).
    split.
    + revert SQ B1. generalize (w * (g * g)). intros; qlra.
    + intros E. assert (Z : w * (g * g) = 0 /\ distance (snd s1) (advance 0 b y) (fst s1) + effort v other + misfit R zs (path (advance 0 b y) (map (fun _ => 0) zs) other) =
        distance (snd s1) x1 (fst s1) + effort v accs + misfit R zs (path x1 (map (fun _ => 0) zs) accs)).
      { revert SQ B1 E. generalize (w * (g * g)). intros q SQ B1 E. split; apply Qcle_antisym; qlra. }
      destruct Z as [Z1 Z2]. destruct (B2 Z2) as [X1 X2]. apply Qcmult_integral in Z1. destruct Z1 as [Z1|Z1]; [subst w; discriminate W|]. apply G in Z1.
      assert (b = a) as -> by (unfold g in Z1; rewrite X1 in Z1; fold a in Z1; replace b with (b - a + a) by ring; rewrite Z1; ring).
      split; [|congruence]. rewrite <- (retreat_advance 0 a y), X1. reflexivity.
Qed.

(** ** The model on finite states *)
Lemma qf14 : qf 1 4 = / ((1 + 1) * (1 + 1)). Proof. apply Qc_is_canon. reflexivity. Qed.
Lemma qf12 : qf 1 2 = / (1 + 1). Proof. apply Qc_is_canon. reflexivity. Qed.
Lemma qz0 : qz 0 = 0. Proof. apply Qc_is_canon. reflexivity. Qed.
Lemma qz1 : qz 1 = 1. Proof. apply Qc_is_canon. reflexivity. Qed.
Ltac lfield := rewrite ?q4, ?q2, ?qf14, ?qf12, ?qz0, ?qz1; field; repeat split; try exact two_nz; try discriminate; auto.
Definition known (u : option fl) : Qc := match u with Some (Fin q) => q | _ => 0 end.
Lemma predict_model : forall v R u s, match u with Some x => isfin x = true | None => True end ->
  kf_predict (FN (white_noise (Fin v)) R) u (state_of s) = state_of (advance (known u) 0 (fst s), moved_cov v (snd s)).
Proof.
  intros v R u [[l s] [[p c] r]] Hu. unfold kf_predict, state_of, vec_of, mat_of, white_noise, moved_cov, advance, mvec, madd, mmul, transpose, trans_F, vadd, fz, ff. cbn [f_x f_P f_Q v0 v1 m00 m01 m10 m11 fst snd fadd fmul].
  f_equal; [destruct u as [[| |q|]|]; try discriminate Hu; cbn [known v0 v1 fadd]; f_equal; f_equal; lfield|].
  f_equal; f_equal; lfield.
Qed.
Lemma update_model : forall Q R z s, 0 < R -> definite (snd s) ->
  kf_update (FN Q (Fin R)) (Fin z) (state_of s) = Ok (state_of (seen R z (snd s) (fst s), seen_cov R (snd s))).
Proof.
  intros Q R z [[l s] [[p c] r]] HR [Hp Hd]. cbn [fst snd]. unfold kf_update, state_of, vec_of, mat_of. cbn [f_x f_P f_R v0 v1 m00 m01 m10 m11 fst snd fadd fsub].
  assert (HS : p + R <> 0) by (intros C; assert (0 < p + R) as K by qlra; rewrite C in K; discriminate K).
  change (feq (Fin (p + R)) (fz 0)) with (qeq (p + R) (qz 0)). rewrite qz0. destruct (qeq (p + R) 0) eqn:E; [apply qeq_spec in E; contradiction|].
  cbv zeta. unfold fdiv. rewrite E.
  unfold scale, msub, ident, vadd, madd, mmul, transpose, seen, seen_cov, fz. unfold state_of, vec_of, mat_of. cbn [fadd fsub fneg fmul v0 v1 m00 m01 m10 m11 fst snd]. f_equal. f_equal; f_equal; f_equal; lfield.
Qed.
Lemma pp_model : forall v P, madd (mmul (mmul trans_F (mat_of P)) (transpose trans_F)) (white_noise (Fin v)) = mat_of (moved_cov v P).
Proof.
  intros v [[p c] r]. unfold mat_of, white_noise, moved_cov, madd, mmul, transpose, trans_F, fz, ff. cbn [m00 m01 m10 m11 fadd fmul]. f_equal; f_equal; lfield.
Qed.
Lemma back_model : forall v m P y, 0 < v -> definite P -> exists inv, inverse (mat_of (moved_cov v P)) = Ok inv /\
  vadd (vec_of m) (mvec (mmul (mmul (mat_of P) (transpose trans_F)) inv) (vsub (vec_of y) (mvec trans_F (vec_of m)))) = vec_of (back v P m y).
Proof.
  intros v [l s] [[p c] r] [yl ys] Hv D. pose proof (moved_definite v (p, c, r) Hv D) as MD. unfold back, best_acc.
  destruct (moved_cov v (p, c, r)) as [[p' c'] r'] eqn:E. unfold moved_cov in E.
  assert (E1 := f_equal (fun t : cov => fst (fst t)) E). assert (E2 := f_equal (fun t : cov => snd (fst t)) E). assert (E3 := f_equal (fun t : cov => snd t) E). cbn [fst snd] in E1, E2, E3. clear E.
  assert (Er : r = r' - v) by (rewrite <- E3; ring). assert (Ec : c = c' - (r' - v) - v / qz 2) by (rewrite <- E2, Er; ring).
  assert (Ep : p = p' - qz 2 * (c' - (r' - v) - v / qz 2) - (r' - v) - v / qz 4) by (rewrite <- E1, Ec, Er; ring). clear E1 E2 E3. subst p c r. clear D.
  destruct MD as [_ MD]. unfold det in *. assert (HD : p' * r' - c' * c' <> 0) by (intros C; rewrite C in MD; discriminate MD). clear MD.
  unfold inverse, mat_of. cbn [m00 m01 m10 m11]. change (fsub (fmul (Fin p') (Fin r')) (fmul (Fin c') (Fin c'))) with (Fin (p' * r' - c' * c')). change (feq (Fin (p' * r' - c' * c')) (fz 0)) with (qeq (p' * r' - c' * c') (qz 0)). rewrite qz0.
  destruct (qeq (p' * r' - c' * c') 0) eqn:E; [apply qeq_spec in E; contradiction|]. eexists. split; [reflexivity|].
  unfold fdiv. rewrite E. unfold vec_of, retreat, advance, vadd, vsub, mvec, mmul, transpose, trans_F, fz. cbn [fadd fsub fneg fmul v0 v1 m00 m01 m10 m11 fst snd]. f_equal; f_equal; lfield.
Qed.
Lemma rts_model : forall v R l, 0 < v -> Forall (fun s => definite (snd s)) l -> exists out,
  rts (FN (white_noise (Fin v)) R) (map state_of l) = Ok out /\ map f_x out = map vec_of (back_path v l).
Proof.
  intros v R l Hv. induction l as [|[m P] l IH]; intros D; [exists []; split; reflexivity|]. destruct (IH (Forall_inv_tail D)) as (out & E & X). apply Forall_inv in D. cbn [snd] in D.
  cbn [map rts back_path]. rewrite E. cbn [bind]. destruct out as [|n out].
  - cbn [map] in X. destruct (back_path v l); [|discriminate X]. exists [state_of (m, P)]. split; reflexivity.
  - cbn [map] in X. destruct (back_path v l) as [|y rest]; [discriminate X|]. cbn [map] in X. injection X as X1 X2. cbn [f_P state_of fst snd f_Q f_x]. rewrite pp_model.
    destruct (back_model v m P y Hv D) as (inv & I1 & I2). rewrite I1. cbn [bind]. eexists. split; [reflexivity|]. cbn [map f_x]. rewrite X1, I2, X2. reflexivity.
Qed.
