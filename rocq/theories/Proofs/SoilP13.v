(** The Theil-Sen fit of the soiling intervals. *)

From Coq Require Import QArith Qcanon List ZArith Bool Arith Lia Sorted String.
From Verif.Base Require Import QcExtra ISort Quantile Fl.
From Verif.Spec Require Import Stats Theil Soiling.
From Verif.Model Require Import Soiling.
From Verif.Spec Require Import SoilingTable.
From Verif.Proofs Require Import StatsP.
Import ListNotations.
Open Scope list_scope.
Open Scope Qc_scope.

Lemma nearest_unique : forall x a b, nearest_even x a -> nearest_even x b -> a = b.
Proof.
  intros x a b (A1 & A2 & A3) (B1 & B2 & B3). assert (qz a <= qz (b + 1) /\ qz b <= qz (a + 1)) as [L1 L2] by (rewrite !qz_add, qz_1; split; qlra). apply qz_le_e in L1, L2.
  destruct (Z.eq_dec a b) as [E | NE]; [exact E | exfalso]. assert (a = b + 1 \/ b = a + 1)%Z as [-> | ->] by lia.
  - rewrite qz_add, qz_1 in *. assert (qz b = x - qf 1 2) as E1 by (apply Qcle_antisym; qlra). assert (qz b + 1 = x + qf 1 2) as E2 by (rewrite E1; qlra). destruct (A3 (or_intror E2)) as [u U]. destruct (B3 (or_introl E1)) as [v V]. lia.
  - rewrite qz_add, qz_1 in *. assert (qz a = x - qf 1 2) as E1 by (apply Qcle_antisym; qlra). assert (qz a + 1 = x + qf 1 2) as E2 by (rewrite E1; qlra). destruct (B3 (or_intror E2)) as [u U]. destruct (A3 (or_introl E1)) as [v V]. lia.
Qed.
Lemma round_even_spec : forall x, nearest_even x (round_even x).
Proof.
  intros x. unfold round_even. cbv zeta. pose proof (qfloor_le x) as F1. pose proof (qfloor_lt x) as F2. set (k := qfloor x) in *. assert (qz (k + 1) = qz k + 1) as E1 by (rewrite qz_add, qz_1; reflexivity). unfold nearest_even.
  destruct (qlt (x - qz k) (qf 1 2)) eqn:A; qb; [split; [qlra |]; split; [qlra |]; intros [C | C]; exfalso; rewrite C in *; qlra |].
  destruct (qlt (qf 1 2) (x - qz k)) eqn:B; qb; [rewrite E1; split; [qlra |]; split; [qlra |]; intros [C | C]; exfalso; assert (x < x); [qlra | qlra | qlra | qlra] |].
  destruct (Z.even k) eqn:EV; [split; [qlra |]; split; [qlra |]; intros _; apply Z.even_spec; exact EV |].
  rewrite E1. split; [qlra |]. split; [qlra |]. intros _. apply Z.even_spec. rewrite Z.add_1_r, Z.even_succ, <- Z.negb_even, EV. reflexivity.
Qed.
Lemma chords_eq : forall pts, pair_slopes pts = chords pts.
Proof.
  intros pts. unfold pair_slopes, chords. generalize pts at 1 4 as l. induction pts as [| p ps IH]; intros l; [reflexivity |]. cbn [flat_map list_prod]. rewrite filter_app, map_app, IH. f_equal.
  clear. induction l as [| r l IH]; [reflexivity |]. cbn [flat_map map filter fst snd]. rewrite IH. destruct (fst p <? fst r)%Z; reflexivity.
Qed.
Lemma chord_In : forall pts v, In v (chords pts) <-> exists x y x' y', In (x, y) pts /\ In (x', y') pts /\ (x < x')%Z /\ v = (y' - y) / qz (x' - x).
Proof.
  intros pts v. unfold chords. rewrite in_map_iff. split.
  - intros ([[x y] [x' y']] & <- & H). apply filter_In in H. destruct H as [H L]. apply in_prod_iff in H. apply Z.ltb_lt in L. exists x, y, x', y'. tauto.
  - intros (x & y & x' & y' & H1 & H2 & L & ->). exists ((x, y), (x', y')). split; [reflexivity |]. apply filter_In. split; [apply in_prod; assumption | apply Z.ltb_lt; exact L].
Qed.
Theorem chords_exist : forall pts, chords pts <> [] <-> exists p r, In p pts /\ In r pts /\ fst p <> fst r.
Proof.
  intros pts. split.
  - intros H. destruct (chords pts) as [| v l] eqn:E; [contradiction |]. assert (In v (chords pts)) as I by (rewrite E; left; reflexivity). apply chord_In in I. destruct I as (x & y & x' & y' & H1 & H2 & L & _). exists (x, y), (x', y'). cbn. split; [exact H1 |]. split; [exact H2 | lia].
  - intros ([x y] & [x' y'] & H1 & H2 & N) E. cbn in N. assert (x < x' \/ x' < x)%Z as [L | L] by lia.
    + assert (In ((y' - y) / qz (x' - x)) (chords pts)) as I by (apply chord_In; exists x, y, x', y'; auto). rewrite E in I. exact I.
    + assert (In ((y - y') / qz (x - x')) (chords pts)) as I by (apply chord_In; exists x', y', x, y; auto). rewrite E in I. exact I.
Qed.

Lemma median_between : forall l a b, l <> [] -> (2 * a < List.length l)%nat -> (List.length l <= 2 * b + 1)%nat -> (b < List.length l)%nat ->
  nth a (qsort l) 0 <= qmedian l /\ qmedian l <= nth b (qsort l) 0.
Proof.
  intros l a b NE HA HB HC. destruct (qmedian_spec l NE) as (s & AR & C). apply arranged_unique in AR. subst s.
  pose proof (qsort_sorted l) as QS. rewrite qsort_length in C. destruct C as [(k & L & ->) | (k & L & ->)].
  - split; apply qsorted_nth; rewrite ?qsort_length; try assumption; lia.
  - assert (nth a (qsort l) 0 <= nth k (qsort l) 0) as A1 by (apply qsorted_nth; rewrite ?qsort_length; try assumption; lia). assert (nth k (qsort l) 0 <= nth (k + 1) (qsort l) 0) as A2 by (apply qsorted_nth; rewrite ?qsort_length; try assumption; lia).
    assert (nth (k + 1) (qsort l) 0 <= nth b (qsort l) 0) as A3 by (apply qsorted_nth; rewrite ?qsort_length; try assumption; lia). set (x := nth k (qsort l) 0) in *. set (y := nth (k + 1) (qsort l) 0) in *. clearbody x y. split.
    + apply Qc_le_div; [qlra |]. qlra.
    + apply Qc_div_le; [qlra |]. qlra.
Qed.

Theorem theil_spec : forall margin pts, 0 <= margin pts ->
  (chords pts = [] -> theilslopes margin pts = (NaN, NaN, NaN, NaN)) /\
  (chords pts <> [] -> exists slope intercept low high,
     theilslopes margin pts = (Fin slope, Fin intercept, Fin low, Fin high) /\
     is_median (chords pts) slope /\
     (exists my mx, is_median (map snd pts) my /\ is_median (map (fun p => qz (fst p)) pts) mx /\ intercept = my - slope * mx) /\
     (exists s lower upper, let n := Z.of_nat (List.length s) in arranged (chords pts) s /\
        nearest_even ((qz n - margin pts) / qz 2) lower /\ nearest_even ((qz n + margin pts) / qz 2) upper /\
        low = nth (Z.to_nat (Z.max (lower - 1) 0)) s 0 /\ high = nth (Z.to_nat (Z.min upper (n - 1))) s 0) /\
     In low (chords pts) /\ In high (chords pts) /\ low <= slope /\ slope <= high).
Proof.
  intros margin pts HM. unfold theilslopes. rewrite chords_eq. split; [intros ->; reflexivity |]. intros NE.
  assert (pts <> []) as NP by (intros ->; apply NE; reflexivity).
  set (n := Z.of_nat (List.length (chords pts))). assert (0 < n)%Z as HN by (unfold n; destruct (chords pts); [contradiction | cbn; lia]).
  pose proof (round_even_spec ((qz n - margin pts) / qz 2)) as R1. pose proof (round_even_spec ((qz n + margin pts) / qz 2)) as R2. set (lower := round_even ((qz n - margin pts) / qz 2)) in *. set (upper := round_even ((qz n + margin pts) / qz 2)) in *.
  assert (2 * (lower - 1) < n)%Z as HL.
  { destruct R1 as (_ & R & _). set (x := (qz n - margin pts) / qz 2) in *. assert (x * qz 2 = qz n - margin pts) as EX by (unfold x; apply Qc_div_mul; discriminate). clearbody x. assert (qz (2 * (lower - 1)) < qz n) as L by (rewrite qz_mul, qz_sub, qz_1; qlra). apply qz_lt_e in L. exact L. }
  assert (n - 1 <= 2 * upper)%Z as HU.
  { destruct R2 as (R & _ & _). set (x := (qz n + margin pts) / qz 2) in *. assert (x * qz 2 = qz n + margin pts) as EX by (unfold x; apply Qc_div_mul; discriminate). clearbody x. assert (qz (n - 1) <= qz (2 * upper)) as L by (rewrite qz_mul, qz_sub, qz_1; qlra). apply qz_le_e in L. exact L. }
  set (a := Z.to_nat (Z.max (lower - 1) 0)). set (b := Z.to_nat (Z.min upper (n - 1))).
  destruct (median_between (chords pts) a b NE) as [M1 M2]; [unfold a; lia | unfold b; lia | unfold b; lia |].
  exists (qmedian (chords pts)), (qmedian (map snd pts) - qmedian (chords pts) * qmedian (map (fun p => qz (fst p)) pts)), (nth a (qsort (chords pts)) 0), (nth b (qsort (chords pts)) 0).
  split; [unfold b, a, upper, lower, n; clear -NE; destruct (chords pts); [contradiction | reflexivity] |]. split; [apply qmedian_spec; exact NE |]. split.
  { exists (qmedian (map snd pts)), (qmedian (map (fun p => qz (fst p)) pts)). split; [apply qmedian_spec; destruct pts; [contradiction | discriminate] |]. split; [apply qmedian_spec; destruct pts; [contradiction | discriminate] | reflexivity]. }
  split.
  { exists (qsort (chords pts)), lower, upper. cbv zeta. rewrite qsort_length. fold n. split; [apply arranged_qsort |]. split; [exact R1 |]. split; [exact R2 |]. split; reflexivity. }
  split; [apply qsort_nth_In; unfold a; lia |]. split; [apply qsort_nth_In; unfold b; lia |]. split; assumption.
Qed.

(** Points on a line are fitted by that line, without uncertainty. *)
Theorem theil_line : forall margin pts a b, 0 <= margin pts -> (forall x y, In (x, y) pts -> y = a + b * qz x) -> (exists p r, In p pts /\ In r pts /\ fst p <> fst r) ->
  theilslopes margin pts = (Fin b, Fin a, Fin b, Fin b).
Proof.
  intros margin pts a b HM HL HE. pose proof HE as NE. apply chords_exist in NE.
  assert (forall v, In v (chords pts) -> v = b) as HC.
  { intros v Hv. apply chord_In in Hv. destruct Hv as (x & y & x' & y' & H1 & H2 & L & ->). rewrite (HL _ _ H1), (HL _ _ H2), qz_sub. assert (0 < qz x' - qz x) as P by (rewrite <- qz_sub; apply qz_pos; lia). replace (a + b * qz x' - (a + b * qz x)) with (b * (qz x' - qz x)) by ring.
    unfold Qcdiv. rewrite <- Qcmult_assoc, Qcmult_inv_r; [ring |]. intros C. rewrite C in P. qlra. }
  destruct (theil_spec margin pts HM) as [_ T]. destruct (T NE) as (slope & intercept & low & high & E & M & (my & mx & MY & MX & EI) & _ & I1 & I2 & _). rewrite E. rewrite (HC low I1), (HC high I2).
  assert (slope = b) as -> by (rewrite (is_median_unique _ _ NE M); apply qmedian_const; assumption). assert (pts <> []) as NP by (intros ->; apply NE; reflexivity).
  assert (intercept = a) as ->; [| reflexivity]. rewrite EI. assert (map snd pts <> [] /\ map (fun p => qz (fst p)) pts <> []) as [N1 N2] by (destruct pts; [contradiction | split; discriminate]). rewrite (is_median_unique (map snd pts) my N1 MY), (is_median_unique (map (fun p => qz (fst p)) pts) mx N2 MX).
  assert (map snd pts = map (fun v => b * v + a) (map (fun p => qz (fst p)) pts)) as ES.
  { rewrite map_map. apply map_ext_in. intros [x y] Hp. cbn [fst snd]. rewrite (HL x y Hp). ring. }
  rewrite ES, qmedian_affine_any by exact N2. ring.
Qed.

(** Falling data have falling fits. *)
Theorem theil_sign : forall margin pts, 0 <= margin pts -> (forall x y x' y', In (x, y) pts -> In (x', y') pts -> (x < x')%Z -> y' <= y) ->
  forall slope intercept low high, theilslopes margin pts = (Fin slope, intercept, Fin low, Fin high) -> slope <= 0 /\ low <= 0 /\ high <= 0.
Proof.
  intros margin pts HM HF slope intercept low high E. destruct (theil_spec margin pts HM) as [T0 T1]. destruct (chords pts) as [| v l] eqn:EC; [rewrite T0 in E by reflexivity; discriminate |]. destruct T1 as (s & i & lo & hi & E' & M & _ & _ & I1 & I2 & L1 & L2); [discriminate |]. rewrite E' in E. injection E as -> _ -> ->.
  assert (forall w, In w (v :: l) -> w <= 0) as K.
  { intros w Hw. rewrite <- EC in Hw. apply chord_In in Hw. destruct Hw as (x & y & x' & y' & H1 & H2 & L & ->). apply Qc_div_le; [apply qz_pos; lia |]. pose proof (HF _ _ _ _ H1 H2 L). qlra. }
  pose proof (K _ I1). pose proof (K _ I2). split; [qlra |]. split; assumption.
Qed.

(** The fit of the soiling intervals. *)
Theorem theil_fit_finite : forall margin pts, theil_fit margin (map (fun p => (fst p, Fin (snd p))) pts) = theilslopes margin pts.
Proof.
  intros margin pts. unfold theil_fit. assert (forallb (fun p => isfin (snd p)) (map (fun p : Z * Qc => (fst p, Fin (snd p))) pts) = true) as ->.
  { apply forallb_forall. intros p Hp. apply in_map_iff in Hp. destruct Hp as (q & <- & _). reflexivity. }
  f_equal. induction pts as [| [x y] l IH]; [reflexivity |]. cbn [map flat_map fst snd app]. rewrite IH. reflexivity.
Qed.

(** Hence the fit satisfies the condition under which the soiling profiles stay at or below one. *)
Theorem theil_bound_below : forall margin, (forall pts, 0 <= margin pts) -> bound_below (theil_fit margin).
Proof.
  intros margin HM l slope intercept low high E. unfold theil_fit in E. destruct (forallb _ l); [| discriminate]. set (pts := flat_map _ l) in E. clearbody pts. destruct (theil_spec margin pts (HM pts)) as [T0 T1]. destruct (chords pts) as [| v r] eqn:EC; [rewrite T0 in E by reflexivity; discriminate |]. destruct T1 as (s & i & lo & hi & E' & _ & _ & _ & _ & _ & L1 & _); [discriminate |]. rewrite E' in E. injection E as <- _ <- _. exists s. split; [reflexivity | exact L1].
Qed.
