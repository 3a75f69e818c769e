(** Clear-sky temperature: pixels, smoothing and the daily cycle. *)

From Coq Require Import QArith Qcanon List ZArith Bool Arith Lia Sorted.
From Verif.Base Require Import QcExtra ISort Quantile Fl TimeSeries Calendar.
From Verif.Spec Require Import Stats Theil Interp Seasonal Climate.
From Verif.Model Require Import Soiling ClearskyTemp.
From Verif.Proofs Require Import FlP InterpP SoilP13 CodsP4.
Import ListNotations.
Open Scope list_scope.
Open Scope Qc_scope.

(** ** Indexes of pixels *)
Lemma near_ends : forall n share i, (0 <= n)%Z -> 0 <= share -> share <= 1 -> nearest_even (qz n * share) i ->
  (0 <= i <= n)%Z /\ (qz n - qf 1 2 < qz n * share -> i = n) /\ (i = n -> qz n - qf 1 2 <= qz n * share).
Proof.
  intros n share i N S0 S1 (A & B & C). assert (H0 : 0 <= qz n * share) by (apply Qc_mul_nonneg; [apply qz_nonneg; exact N|exact S0]).
  assert (H1 : qz n * share <= qz n). { assert (0 <= qz n * (1 - share)) by (apply Qc_mul_nonneg; [apply qz_nonneg; exact N|qlra]). replace (qz n * (1 - share)) with (qz n - qz n * share) in * by ring. qlra. }
  set (x := qz n * share) in *.
  assert (I0 : (-1 < i)%Z) by (apply qz_lt_e; replace (qz (-1)) with (Qcopp 1) by (apply Qc_is_canon; reflexivity); assert (qf 1 2 < 1) by reflexivity; qlra).
  assert (I1 : (i < n + 1)%Z) by (apply qz_lt_e; rewrite qz_add, qz_1; assert (qf 1 2 < 1) by reflexivity; qlra).
  split; [lia|]. split.
  - intros L. assert (n - 1 < i)%Z; [|lia]. apply qz_lt_e. unfold Z.sub. rewrite qz_add, qz_opp, qz_1. assert (qf 1 2 + qf 1 2 = 1) by (apply Qc_is_canon; reflexivity). qlra.
  - intros ->. qlra.
Qed.
Theorem pixel_column : forall lons longitude, (0 <= lons)%Z -> qz (-180) <= longitude -> longitude < qz 180 ->
  at_border lons (share_east longitude) (lon_index lons longitude) /\ (0 <= lon_index lons longitude <= lons)%Z /\
  (qz lons - qf 1 2 < qz lons * share_east longitude -> lon_index lons longitude = lons) /\
  (lon_index lons longitude = lons -> qz lons - qf 1 2 <= qz lons * share_east longitude).
Proof.
  intros lons longitude L H1 H2. unfold lon_index, at_border. cbv zeta. assert (Q : qlt (longitude - qz 180) 0 = true) by (qb; qlra). rewrite Q.
  replace (qz lons * (longitude - qz 180 + qz 360) / qz 360) with (qz lons * share_east longitude) by (unfold share_east; replace (qz 360) with (qz 180 + qz 180) by (apply Qc_is_canon; reflexivity); unfold Qcdiv; ring).
  pose proof (round_even_spec (qz lons * share_east longitude)) as R. split; [exact R|].
  assert (P : 0 < qz 360) by reflexivity.
  apply near_ends; [exact L| | |exact R]; unfold share_east.
  - apply Qc_le_div; [exact P|]. change (qz (-180)) with (- qz 180) in H1. rewrite Qcmult_0_l. qlra.
  - apply Qc_div_le; [exact P|]. rewrite Qcmult_1_l. replace (qz 360) with (qz 180 + qz 180) by (apply Qc_is_canon; reflexivity). qlra.
Qed.
Theorem pixel_row : forall lats latitude, (0 <= lats)%Z -> qz (-90) <= latitude -> latitude <= qz 90 ->
  at_border lats (share_south latitude) (lat_index lats latitude) /\ (0 <= lat_index lats latitude <= lats)%Z /\
  (qz lats - qf 1 2 < qz lats * share_south latitude -> lat_index lats latitude = lats) /\
  (lat_index lats latitude = lats -> qz lats - qf 1 2 <= qz lats * share_south latitude).
Proof.
  intros lats latitude L H1 H2. unfold lat_index, at_border.
  replace (qz lats * (qz 90 - latitude) / qz 180) with (qz lats * share_south latitude) by (unfold share_south, Qcdiv; ring).
  pose proof (round_even_spec (qz lats * share_south latitude)) as R. split; [exact R|].
  assert (P : 0 < qz 180) by reflexivity. apply near_ends; [exact L| | |exact R]; unfold share_south.
  - apply Qc_le_div; [exact P|]. rewrite Qcmult_0_l. qlra.
  - apply Qc_div_le; [exact P|]. rewrite Qcmult_1_l. change (qz (-90)) with (- qz 90) in H1. replace (qz 180) with (qz 90 + qz 90) by (apply Qc_is_canon; reflexivity). qlra.
Qed.

(** ** Values of pixels *)
Lemma arange_In : forall a b x, In x (arange a b) <-> (a <= x < b)%Z.
Proof.
  intros a b x. unfold arange. rewrite in_map_iff. split.
  - intros (n & <- & I). apply in_seq in I. lia.
  - intros H. exists (Z.to_nat (x - a)). split; [lia|]. apply in_seq. lia.
Qed.
Lemma map_sorted : forall (f : nat -> Z) a n, (forall i j, (i < j)%nat -> (f i < f j)%Z) -> StronglySorted Z.lt (map f (seq a n)).
Proof.
  intros f a n H. revert a. induction n as [|n IH]; intros a; cbn [seq map]; constructor; [apply IH|]. apply Forall_forall. intros x I. apply in_map_iff in I. destruct I as (j & <- & I). apply in_seq in I. apply H. lia.
Qed.
Lemma arange_sorted : forall a b, StronglySorted Z.lt (arange a b).
Proof. intros. apply map_sorted. intros. lia. Qed.
Lemma Zsorted_filter : forall (p : Z -> bool) l, StronglySorted Z.lt l -> StronglySorted Z.lt (filter p l).
Proof.
  intros p. induction l as [|x l IH]; intros S; [constructor|]. inversion S as [|? ? S' F]; subst. cbn [filter]. destruct (p x); [|apply IH; exact S']. constructor; [apply IH; exact S'|]. apply Forall_forall. intros y I. apply filter_In in I. rewrite Forall_forall in F. apply F, I.
Qed.
Lemma skipped : forall (A : Type) (F : Z -> list A) (n i r : Z), (0 <= n)%Z ->
  flat_map (fun x => if (x <? 0)%Z || (n <=? x)%Z then [] else F x) (arange (i - r) (i + r + 1)) =
  flat_map F (map Z.of_nat (filter (fun m => Z.abs (Z.of_nat m - i) <=? r)%Z (seq 0 (Z.to_nat n)))).
Proof.
  intros A F n i r N.
  assert (E : forall l, flat_map (fun x => if (x <? 0)%Z || (n <=? x)%Z then [] else F x) l = flat_map F (filter (fun x => (0 <=? x)%Z && (x <? n)%Z) l)).
  { induction l as [|x l IH]; [reflexivity|]. cbn [flat_map filter]. rewrite IH. destruct (Z.ltb_spec x 0); destruct (Z.leb_spec n x); destruct (Z.leb_spec 0 x); destruct (Z.ltb_spec x n); cbn; try lia; reflexivity. }
  rewrite E. f_equal. apply sorted_lt_unique.
  - apply Zsorted_filter, arange_sorted.
  - assert (G : forall l, map Z.of_nat (filter (fun m => Z.abs (Z.of_nat m - i) <=? r)%Z l) = filter (fun x => Z.abs (x - i) <=? r)%Z (map Z.of_nat l)).
    { induction l as [|m l IH]; [reflexivity|]. cbn [filter map]. destruct (Z.abs (Z.of_nat m - i) <=? r)%Z; cbn [map]; rewrite IH; reflexivity. }
    rewrite G. apply Zsorted_filter, map_sorted. intros. lia.
  - intros x. rewrite filter_In, arange_In, andb_true_iff, Z.leb_le, Z.ltb_lt, in_map_iff. split.
    + intros H. exists (Z.to_nat x). split; [lia|]. apply filter_In. split; [apply in_seq; lia|]. apply Z.leb_le. lia.
    + intros (m & <- & I). apply filter_In in I. destruct I as [I1 I2]. apply in_seq in I1. apply Z.leb_le in I2. lia.
Qed.
Lemma fm_map : forall (A B C : Type) (f : A -> B) (g : B -> list C) l, flat_map g (map f l) = flat_map (fun a => g (f a)) l.
Proof. intros. induction l as [|a l IH]; [reflexivity|]. cbn. rewrite IH. reflexivity. Qed.
Definition keep (v : fl) : list fl := if isnan v then [] else [v].
Lemma values_square : forall (p q : nat -> bool) (g : nat -> nat -> fl) xs ys,
  flat_map (fun x => flat_map (fun y => keep (g x y)) (filter q ys)) (filter p xs) =
  dropna (map (fun c => g (fst c) (snd c)) (filter (fun c => p (fst c) && q (snd c)) (list_prod xs ys))).
Proof.
  intros p q g xs ys. induction xs as [|x xs IH]; [reflexivity|]. cbn [list_prod]. rewrite filter_app, map_app. unfold dropna. rewrite filter_app. fold (dropna (map (fun c => g (fst c) (snd c)) (filter (fun c => p (fst c) && q (snd c)) (list_prod xs ys)))). rewrite <- IH. cbn [filter].
  assert (E : flat_map (fun y => if p x then keep (g x y) else []) (filter q ys) = filter notnan (map (fun c => g (fst c) (snd c)) (filter (fun c => p (fst c) && q (snd c)) (map (fun y => (x, y)) ys)))).
  { clear IH. induction ys as [|y ys IH]; [reflexivity|]. cbn [map filter fst snd]. destruct (q y); rewrite ?andb_true_r, ?andb_false_r; [|exact IH]. cbn [flat_map]. rewrite IH. destruct (p x); [|reflexivity]. cbn [map filter fst snd]. unfold keep, notnan. destruct (isnan (g x y)); reflexivity. }
  rewrite <- E. destruct (p x); [reflexivity|]. assert (Z : forall l, flat_map (fun _ : nat => @nil fl) l = []) by (induction l; [reflexivity|assumption]). rewrite Z. reflexivity.
Qed.
Theorem pixel_value : forall data i j k r, noinf (map (fun p => nth k (nth (snd p) (nth (fst p) data []) []) NaN) (list_prod (seq 0 (length data)) (seq 0 (length (nth 0 data []))))) ->
  median_or_missing (square data i j k r) (get_pixel_value data i j k r).
Proof.
  intros data i j k r NI. unfold get_pixel_value, square.
  assert (E : flat_map (fun x => if (x <? 0)%Z || (columns data <=? x)%Z then [] else flat_map (fun y => if (y <? 0)%Z || (rows data <=? y)%Z then [] else let value := cell data x y k in if isnan value then [] else [value]) (arange (j - r) (j + r + 1))) (arange (i - r) (i + r + 1)) =
    dropna (map (fun p => nth k (nth (snd p) (nth (fst p) data []) []) NaN) (filter (fun p => (Z.abs (Z.of_nat (fst p) - i) <=? r)%Z && (Z.abs (Z.of_nat (snd p) - j) <=? r)%Z) (list_prod (seq 0 (length data)) (seq 0 (length (nth 0 data []))))))).
  { rewrite (skipped _ (fun x => flat_map (fun y => if (y <? 0)%Z || (rows data <=? y)%Z then [] else let value := cell data x y k in if isnan value then [] else [value]) (arange (j - r) (j + r + 1)))) by (unfold columns; lia).
    rewrite fm_map. unfold columns at 1. rewrite Nat2Z.id.
    rewrite <- (values_square (fun m => Z.abs (Z.of_nat m - i) <=? r)%Z (fun m => Z.abs (Z.of_nat m - j) <=? r)%Z (fun x y => nth k (nth y (nth x data []) []) NaN)).
    apply flat_map_ext. intros x. rewrite (skipped _ (fun y => let value := cell data (Z.of_nat x) y k in if isnan value then [] else [value])) by (unfold rows; lia). rewrite fm_map. unfold rows at 1. rewrite Nat2Z.id.
    apply flat_map_ext. intros y. unfold keep, cell. rewrite !Nat2Z.id. reflexivity. }
  cbv zeta. cbv zeta in E. rewrite E. set (l := map _ (filter _ _)). assert (NL : noinf l).
  { intros v I. apply NI. unfold l in I. apply in_map_iff in I. destruct I as (c & <- & I). apply filter_In in I. apply in_map_iff. exists c. split; [reflexivity|apply I]. }
  rewrite (dropna_noinf l NL). destruct (finvals l) as [|a qs] eqn:EF; [left; auto|]. rewrite <- EF. cbn [map].
  assert (G : median_or_missing (finvals (map Fin (finvals l))) (fmedian (map Fin (finvals l)))). { apply fmedian_median. intros v I. apply in_map_iff in I. destruct I as (q & <- & _). split; discriminate. }
  rewrite finvals_map_Fin, EF in G. rewrite EF. exact G.
Qed.
Theorem pixel_outside : forall data i j k, ~ ((0 <= i < Z.of_nat (length data))%Z /\ (0 <= j < Z.of_nat (length (nth 0 data [])))%Z) -> get_pixel_value data i j k 0 = NaN.
Proof.
  intros data i j k H. unfold get_pixel_value. assert (A : forall a, arange (a - 0) (a + 0 + 1) = [a]) by (intros a; unfold arange; replace (Z.to_nat (a + 0 + 1 - (a - 0))) with 1%nat by lia; cbn; f_equal; lia).
  rewrite !A. cbn [flat_map]. unfold columns, rows. destruct (Z.ltb_spec i 0); [reflexivity|]. destruct (Z.leb_spec (Z.of_nat (length data)) i); [reflexivity|]. cbn [orb]. destruct (Z.ltb_spec j 0); [reflexivity|]. destruct (Z.leb_spec (Z.of_nat (length (nth 0 data []))) j); [reflexivity|]. exfalso. apply H. lia.
Qed.
Theorem pixel_inside : forall data i j k v, (0 <= i < Z.of_nat (length data))%Z -> (0 <= j < Z.of_nat (length (nth 0 data [])))%Z ->
  nth k (nth (Z.to_nat j) (nth (Z.to_nat i) data []) []) NaN = v -> get_pixel_value data i j k 0 = v.
Proof.
  intros data i j k v H1 H2 E. unfold get_pixel_value. assert (A : forall a, arange (a - 0) (a + 0 + 1) = [a]) by (intros a; unfold arange; replace (Z.to_nat (a + 0 + 1 - (a - 0))) with 1%nat by lia; cbn; f_equal; lia).
  rewrite !A. cbn [flat_map]. unfold columns, rows. destruct (Z.ltb_spec i 0); [lia|]. destruct (Z.leb_spec (Z.of_nat (length data)) i); [lia|]. cbn [orb]. destruct (Z.ltb_spec j 0); [lia|]. destruct (Z.leb_spec (Z.of_nat (length (nth 0 data []))) j); [lia|]. cbn [orb].
  unfold cell. rewrite E. destruct v; reflexivity.
Qed.

(** ** The daily cycle *)
Theorem temperature_spec : forall turn hour n d offset,
  get_temperature turn hour (Fin n) (Fin d) offset = Fin ((d + n) / qz 2 + (d - n) * qf 35 100 * turn ((hour + offset + qz 8) / qz 24)).
Proof.
  intros turn hour n d offset. unfold get_temperature. cbn [fsub fneg fadd fdiv fmul ff fz]. assert (Q : qeq (qz 2) 0 = false) by reflexivity. unfold fdiv, fz. rewrite Q. unfold ff. cbn [fmul fadd]. f_equal.
  replace (hour + (qz 8 + offset)) with (hour + offset + qz 8) by ring. set (v := turn _). replace (qf 35 100) with (qf 1 2 * qf 7 10) by (apply Qc_is_canon; reflexivity). unfold Qcminus. ring.
Qed.
Theorem temperature_missing : forall turn hour n d offset, n = NaN \/ d = NaN -> get_temperature turn hour n d offset = NaN.
Proof.
  intros turn hour n d offset [->| ->]; unfold get_temperature; [destruct d|destruct n]; cbn; try reflexivity; repeat match goal with |- context [if ?b then _ else _] => destruct b end; cbn; try reflexivity; destruct (turn _); cbn; try reflexivity.
Qed.
Theorem temperature_band : forall lo hi d n v, -(1) <= v -> v <= 1 -> lo <= d -> d <= hi -> lo <= n -> n <= hi ->
  let t := (d + n) / qz 2 + (d - n) * qf 35 100 * v in
  qabs (t - (d + n) / qz 2) <= qf 35 100 * qabs (d - n) /\ lo <= t /\ t <= hi.
Proof.
  intros lo hi d n v V1 V2 D1 D2 N1 N2 t.
  assert (E : t - (d + n) / qz 2 = qf 35 100 * ((d - n) * v)) by (unfold t; ring).
  assert (H35 : 0 < qf 35 100) by reflexivity.
  assert (AB : qabs ((d - n) * v) <= qabs (d - n)).
  { destruct (Qclt_le_dec' d n) as [L|L].
    - assert (0 <= (n - d) * (1 - v)) by (apply Qc_mul_nonneg; qlra). assert (0 <= (n - d) * (1 + v)) by (apply Qc_mul_nonneg; qlra).
      replace ((n - d) * (1 - v)) with ((n - d) + (d - n) * v) in * by ring. replace ((n - d) * (1 + v)) with ((n - d) - (d - n) * v) in * by ring. set (x := (d - n) * v) in *. unfold qabs. destruct (qle 0 x) eqn:E1; destruct (qle 0 (d - n)) eqn:E2; qb; qlra.
    - assert (0 <= (d - n) * (1 - v)) by (apply Qc_mul_nonneg; qlra). assert (0 <= (d - n) * (1 + v)) by (apply Qc_mul_nonneg; qlra).
      replace ((d - n) * (1 - v)) with ((d - n) - (d - n) * v) in * by ring. replace ((d - n) * (1 + v)) with ((d - n) + (d - n) * v) in * by ring. set (x := (d - n) * v) in *. unfold qabs. destruct (qle 0 x) eqn:E1; destruct (qle 0 (d - n)) eqn:E2; qb; qlra. }
  assert (E2 : (d + n) / qz 2 = qf 1 2 * d + qf 1 2 * n) by (replace (qf 1 2) with (/ qz 2) by (apply Qc_is_canon; reflexivity); unfold Qcdiv; ring).
  split.
  - rewrite E. set (x := (d - n) * v) in *. assert (P : forall y, 0 <= y -> qabs (qf 35 100 * y) = qf 35 100 * y) by (intros y Y; unfold qabs; assert (0 <= qf 35 100 * y) by (apply Qc_mul_nonneg; qlra); destruct (qle 0 (qf 35 100 * y)) eqn:Q; qb; qlra).
    assert (M : qabs (qf 35 100 * x) = qf 35 100 * qabs x).
    { destruct (Qclt_le_dec' x 0) as [L|L].
      - assert (qabs x = - x) as -> by (unfold qabs; destruct (qle 0 x) eqn:Q; qb; qlra). assert (Y : 0 <= qf 35 100 * - x) by (apply Qc_mul_nonneg; qlra). replace (qf 35 100 * - x) with (- (qf 35 100 * x)) in * by ring. set (y := qf 35 100 * x) in *. unfold qabs. destruct (qle 0 y) eqn:Q1; qb; [|reflexivity]. apply Qcle_antisym; qlra.
      - assert (qabs x = x) as -> by (unfold qabs; destruct (qle 0 x) eqn:Q; qb; qlra). apply P. exact L. }
    rewrite M. assert (0 <= qf 35 100 * (qabs (d - n) - qabs x)) by (apply Qc_mul_nonneg; qlra). replace (qf 35 100 * (qabs (d - n) - qabs x)) with (qf 35 100 * qabs (d - n) - qf 35 100 * qabs x) in * by ring. qlra.
  - assert (ET : t = qf 1 2 * d + qf 1 2 * n + qf 35 100 * ((d - n) * v)) by (unfold t; rewrite E2; ring). set (x := (d - n) * v) in *. clearbody x t. subst t. clear E E2.
    assert (B : - (qabs (d - n)) <= x /\ x <= qabs (d - n)) by (unfold qabs in *; destruct (qle 0 x) eqn:Q1; destruct (qle 0 (d - n)) eqn:Q2; qb; split; qlra).
    destruct B as [B1 B2]. assert (F1 : qf 1 2 = qf 35 100 + qf 15 100) by (apply Qc_is_canon; reflexivity).
    assert (U : qabs (d - n) = d - n \/ qabs (d - n) = n - d) by (unfold qabs; destruct (qle 0 (d - n)); [left; reflexivity|right; ring]).
    assert (HF : qf 1 2 = Q2Qc (1 # 2)) by reflexivity. assert (HG : qf 35 100 = Q2Qc (35 # 100)) by reflexivity. rewrite HF, HG in *. clear F1 HF HG AB.
    destruct U as [U|U]; rewrite U in B1, B2; split; qlra.
Qed.
