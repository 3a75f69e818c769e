(** Reconstruction of lost power and of the meter during outages. *)

From Coq Require Import QArith Qcanon List ZArith Bool Arith Lia Permutation Sorted.
From Verif.Base Require Import QcExtra ISort Quantile Fl TimeSeries Rolling Segments.
From Verif.Spec Require Import Stats Energy Availability.
From Verif.Model Require Import Energy Availability.
From Verif.Proofs Require Import EnergyP6 EnergyP7 ClipP4 AvailP AvailP2 AvailP3 AvailP4.
Import ListNotations.
Open Scope list_scope.
Open Scope Qc_scope.

(** ** Lists *)

Lemma nth_error_skipn : forall A a (l : list A) i, nth_error (skipn a l) i = nth_error l (a + i).
Proof. induction a as [| a IH]; intros l i; [reflexivity |]. destruct l as [| x l]; [destruct i; reflexivity | apply IH]. Qed.
Lemma nth_error_firstn : forall A n (l : list A) i, nth_error (firstn n l) i = if (i <? n)%nat then nth_error l i else None.
Proof.
  induction n as [| n IH]; intros l i; [destruct i; reflexivity |]. destruct l as [| x l]; [destruct (Nat.ltb i (S n)); destruct i; reflexivity |].
  destruct i as [| i]; [reflexivity |]. cbn [firstn nth_error]. rewrite IH. reflexivity.
Qed.
Lemma slice_nth : forall A a b (l : list A) i, nth_error (slice a b l) i = if (a + i <=? b)%nat then nth_error l (a + i) else None.
Proof.
  intros. unfold slice. rewrite nth_error_firstn, nth_error_skipn. destruct (Nat.ltb_spec i (S b - a)), (Nat.leb_spec (a + i) b); try reflexivity; lia.
Qed.
Lemma put_nth : forall a seg l i, (a + length seg <= length l)%nat -> nth_error (put a seg l) i =
  if (i <? a)%nat then nth_error l i else if (i <? a + length seg)%nat then nth_error seg (i - a) else nth_error l i.
Proof.
  intros a seg l i H. unfold put. destruct (Nat.ltb_spec i a) as [L | L].
  - rewrite nth_error_app1 by (rewrite firstn_length; lia). rewrite nth_error_firstn. destruct (Nat.ltb_spec i a); [reflexivity | lia].
  - rewrite nth_error_app2 by (rewrite firstn_length; lia). rewrite firstn_length_le by lia. destruct (Nat.ltb_spec i (a + length seg)) as [M | M].
    + rewrite nth_error_app1 by lia. reflexivity.
    + rewrite nth_error_app2 by lia. rewrite nth_error_skipn. f_equal. lia.
Qed.
Lemma put_length : forall a seg l, (a + length seg <= length l)%nat -> length (put a seg l) = length l.
Proof. intros. unfold put. rewrite !app_length, firstn_length, skipn_length. lia. Qed.

Lemma cumsum_nth : forall l acc k, nth_error (cumsum_from (Fin acc) (map Fin l)) k =
  if (k <? length l)%nat then Some (Fin (acc + qsum (firstn (S k) l))) else None.
Proof.
  induction l as [| x l IH]; intros acc k; [destruct k; reflexivity |]. cbn [map cumsum_from isnan fadd]. destruct k as [| k].
  - cbn. f_equal. f_equal. ring.
  - cbn [nth_error length]. rewrite IH. change (S k <? S (length l))%nat with (k <? length l)%nat. destruct (k <? length l)%nat; [| reflexivity].
    f_equal. f_equal. change (firstn (S (S k)) (x :: l)) with (x :: firstn (S k) l). rewrite qsum_cons. ring.
Qed.

Lemma rows_length : forall a b, length (rows_from a b) = (S b - a)%nat.
Proof. intros. apply seq_length. Qed.
Lemma rows_nth : forall a b i, nth_error (rows_from a b) i = if (i <? S b - a)%nat then Some (a + i)%nat else None.
Proof. intros. unfold rows_from. rewrite nth_error_seq. destruct (_ <? _)%nat; reflexivity. Qed.
Lemma rows_In : forall a b i, In i (rows_from a b) <-> (a <= i <= b)%nat.
Proof. intros. unfold rows_from. rewrite in_seq. lia. Qed.
Lemma rows_cons : forall a b, (a <= b)%nat -> rows_from a b = a :: rows_from (S a) b.
Proof. intros. unfold rows_from. replace (S b - a)%nat with (S (S b - S a)) by lia. reflexivity. Qed.
Lemma firstn_rows : forall k a b, (a + k <= b)%nat -> firstn (S k) (rows_from a b) = rows_from a (a + k).
Proof.
  intros k a b H. apply nth_error_ext. intros i. rewrite nth_error_firstn, !rows_nth.
  destruct (Nat.ltb_spec i (S k)), (Nat.ltb_spec i (S b - a)), (Nat.ltb_spec i (S (a + k) - a)); try reflexivity; lia.
Qed.

(** ** One outage *)

Section Outage.
Variables (freq : option Z) (t0 w : Z) (n : nat) (power : list fl) (q : nat -> Qc) (o : outage) (lost corrected : list fl).
Let a := o_start o.
Let b := o_end o.
Let h := hours w.
Hypothesis w_pos : (0 < w)%Z.
Hypothesis power_length : length power = n.
Hypothesis lost_length : length lost = n.
Hypothesis corrected_length : length corrected = n.
Hypothesis power_known : forall i, (a <= i <= b)%nat -> nth_error power i = Some (Fin (q i)).
Hypothesis order : (a <= b < n)%nat.

Lemma subset_vals : slice a b power = map (fun i => Fin (q i)) (rows_from a b).
Proof.
  apply nth_error_ext. intros i. rewrite slice_nth, nth_error_map_some, rows_nth.
  destruct (Nat.leb_spec (a + i) b), (Nat.ltb_spec i (S b - a)); try lia; [| reflexivity]. cbn [option_map]. apply power_known. lia.
Qed.

Lemma subset_rows : slice a b (combine (evenly t0 w n) power) = combine (grid (t0 + w * Z.of_nat a) w (S b - a)) (map (fun i => Fin (q i)) (rows_from a b)).
Proof.
  rewrite <- subset_vals. apply nth_error_ext. intros i. rewrite slice_nth, !nth_error_combine. change (evenly t0 w n) with (grid t0 w n). rewrite !grid_nth, slice_nth.
  destruct (Nat.leb_spec (a + i) b), (Nat.ltb_spec i (S b - a)), (Nat.ltb_spec (a + i) n); try lia; try reflexivity.
  destruct (nth_error power (a + i)); [| reflexivity]. f_equal. f_equal. lia.
Qed.

(** The energy of the rows after the first. *)
Lemma subset_energy : (a < b)%nat -> energy_from_power freq (slice a b (combine (evenly t0 w n) power)) None None RightLabeled =
  Ok (combine (grid (t0 + w * Z.of_nat (S a)) w (b - a)) (map (fun i => Fin (q i * h)) (rows_from (S a) b))).
Proof.
  intros Hab. rewrite subset_rows. set (v := map (fun i => Fin (q i)) (rows_from a b)).
  assert (length v = S b - a)%nat as Lv by (unfold v; rewrite map_length; apply rows_length). rewrite <- Lv.
  rewrite energy_regular; [| exact w_pos | lia | |].
  - f_equal. apply nth_error_ext. intros i. rewrite !nth_error_combine.
    assert (nth_error (tl (grid (t0 + w * Z.of_nat a) w (length v))) i = nth_error (grid (t0 + w * Z.of_nat (S a)) w (b - a)) i) as ->.
    { rewrite Lv. replace (nth_error (tl (grid (t0 + w * Z.of_nat a) w (S b - a))) i) with (nth_error (grid (t0 + w * Z.of_nat a) w (S b - a)) (S i)).
      - rewrite !grid_nth. destruct (Nat.ltb_spec (S i) (S b - a)), (Nat.ltb_spec i (b - a)); try lia; [| reflexivity]. f_equal. lia.
      - destruct (grid (t0 + w * Z.of_nat a) w (S b - a)); [destruct i; reflexivity | reflexivity]. }
    destruct (nth_error (grid (t0 + w * Z.of_nat (S a)) w (b - a)) i) as [t |] eqn:E; [| reflexivity].
    rewrite grid_nth in E. destruct (Nat.ltb_spec i (b - a)) as [L |]; [| discriminate].
    rewrite zip_nth, nth_error_map_some, rows_nth. unfold v. rewrite (rows_cons a b) by lia. cbn [map tl].
    change (Fin (q a) :: map (fun i => Fin (q i)) (rows_from (S a) b)) with (map (fun i => Fin (q i)) (a :: rows_from (S a) b)).
    rewrite <- rows_cons by lia. rewrite !nth_error_map_some, !rows_nth. destruct (Nat.ltb_spec i (S b - a)); [| lia]. destruct (Nat.ltb_spec i (S b - S a)); [| lia]. reflexivity.
  - unfold v. intros x Hx. apply in_map_iff in Hx. destruct Hx as (i & <- & _). split; discriminate.
  - intros E. assert (In (q a) (finvals v)) as K by (apply finvals_In; unfold v; apply in_map_iff; exists a; split; [reflexivity | apply rows_In; lia]). rewrite E in K. destruct K.
Qed.

Definition produced_to (i : nat) : Qc := sum_rows (fun j => q j * h) (S a) i.

Lemma qsum_vals : forall (f : nat -> Qc) l, fsum (map (fun i => Fin (f i)) l) = Fin (qsum (map f l)).
Proof.
  intros f l. rewrite <- (map_map f Fin). rewrite fsum_noinf by apply noinf_map_Fin. rewrite finvals_map_Fin. reflexivity.
Qed.

Lemma fill_rows : (a < b)%nat -> exists lost' corrected',
  fill_outage freq (evenly t0 w n) power o (lost, corrected) = Ok (lost', corrected') /\ length lost' = n /\ length corrected' = n /\
  forall i, (i < n)%nat ->
    ((i < a \/ b < i)%nat -> nth_error lost' i = nth_error lost i /\ nth_error corrected' i = nth_error corrected i) /\
    ((a <= i <= b)%nat -> nth_error lost' i =
       option_map (fun x => fadd x (fdiv (fmul (Fin (q i)) (o_loss o)) (Fin (produced_to b)))) (nth_error lost i)) /\
    (i = a -> nth_error corrected' i = Some NaN) /\
    ((a < i <= b)%nat -> nth_error corrected' i =
       Some (fadd (o_energy_start o) (fmul (Fin (produced_to i)) (fdiv (o_actual o) (Fin (produced_to b)))))).
Proof.
  intros Hab. unfold fill_outage. fold a b. rewrite (subset_energy Hab). cbn [bind].
  assert (length (grid (t0 + w * Z.of_nat (S a)) w (b - a)) = length (map (fun i => Fin (q i * h)) (rows_from (S a) b))) as L1.
  { rewrite grid_length, map_length, rows_length. lia. }
  rewrite (EnergyP2.combine_vals _ _ (eq_sym L1)). rewrite (InterpP.combine_times _ _ (eq_sym L1)).
  rewrite qsum_vals. fold (produced_to b). rewrite subset_rows.
  assert (length (map (fun i => Fin (q i)) (rows_from a b)) = length (grid (t0 + w * Z.of_nat a) w (S b - a))) as L2.
  { rewrite grid_length, map_length, rows_length. reflexivity. }
  rewrite (EnergyP2.combine_vals _ _ L2). rewrite (InterpP.combine_times _ _ L2). rewrite map_map.
  set (fill := map (fun x => fdiv (fmul (Fin (q x)) (o_loss o)) (Fin (sum_rows (fun j => q j * h) (S a) b))) (rows_from a b)).
  set (prod := map (fun x => fadd (o_energy_start o) (fmul x (fdiv (o_actual o) (Fin (sum_rows (fun j => q j * h) (S a) b)))))
                   (fcumsum (map (fun i => Fin (q i * h)) (rows_from (S a) b)))).
  assert (length (slice a b lost) = S b - a)%nat as L3 by (apply slice_length; lia).
  assert (length fill = S b - a)%nat as L4 by (unfold fill; rewrite map_length; apply rows_length).
  assert (forall k, nth_error prod k = if (k <? b - a)%nat then
            Some (fadd (o_energy_start o) (fmul (Fin (produced_to (S a + k))) (fdiv (o_actual o) (Fin (produced_to b))))) else None) as Hp.
  { intros k. unfold prod. rewrite nth_error_map_some. unfold fcumsum. rewrite <- (map_map (fun i => q i * h) Fin).
    change (fz 0) with (Fin 0). rewrite cumsum_nth. rewrite map_length, rows_length. change (S b - S a)%nat with (b - a)%nat.
    destruct (Nat.ltb_spec k (b - a)) as [L |]; [| reflexivity]. cbn [option_map]. do 4 f_equal. unfold produced_to, sum_rows.
    rewrite firstn_map, firstn_rows by lia. ring. }
  assert (length prod = b - a)%nat as L5.
  { unfold prod. rewrite map_length. assert (forall l acc, length (cumsum_from acc l) = length l) as K.
    { induction l as [| x l IH]; intros acc; [reflexivity |]. cbn [cumsum_from]. destruct (isnan x); cbn [length]; rewrite IH; reflexivity. }
    unfold fcumsum. rewrite K, map_length, rows_length. reflexivity. }
  set (seg := values_on (grid (t0 + w * Z.of_nat a) w (S b - a)) (combine (grid (t0 + w * Z.of_nat (S a)) w (b - a)) prod)).
  assert (length seg = S b - a)%nat as L6 by (unfold seg, values_on; rewrite map_length; apply grid_length).
  assert (times (combine (grid (t0 + w * Z.of_nat (S a)) w (b - a)) prod) = grid (t0 + w * Z.of_nat (S a)) w (b - a)) as Es.
  { apply InterpP.combine_times. rewrite grid_length. exact L5. }
  assert (forall k, (k < S b - a)%nat -> nth_error seg k = match k with O => Some NaN | S k' => nth_error prod k' end) as Hseg.
  { intros k Hk. unfold seg, values_on. rewrite nth_error_map_some, grid_nth. destruct (Nat.ltb_spec k (S b - a)); [| lia]. cbn [option_map]. destruct k as [| k].
    - f_equal. apply lookup_none. rewrite Es, grid_In. intros (k & _ & K). nia.
    - rewrite Hp. destruct (Nat.ltb_spec k (b - a)) as [L |]; [| lia]. f_equal. apply lookup_In.
      + unfold sorted_index. rewrite Es. apply grid_SSorted. exact w_pos.
      + apply nth_error_In with (n := k). rewrite nth_error_combine, grid_nth, Hp. destruct (Nat.ltb_spec k (b - a)); [| lia]. f_equal. f_equal. lia. }
  assert (length (zip fadd (slice a b lost) fill) = S b - a)%nat as L7 by (rewrite zip_length; lia).
  exists (put a (zip fadd (slice a b lost) fill) lost), (put a seg corrected). split; [reflexivity |].
  split; [rewrite put_length; lia |]. split; [rewrite put_length; lia |]. intros i Hi. rewrite !put_nth by lia. rewrite L6, L7. split; [| split; [| split]].
  - intros H. destruct (Nat.ltb_spec i a); [auto |]. destruct (Nat.ltb_spec i (a + (S b - a))); [lia | auto].
  - intros H. destruct (Nat.ltb_spec i a); [lia |]. destruct (Nat.ltb_spec i (a + (S b - a))); [| lia].
    rewrite zip_nth, slice_nth. unfold fill. rewrite nth_error_map_some, rows_nth. replace (a + (i - a))%nat with i by lia.
    destruct (Nat.leb_spec i b); [| lia]. destruct (Nat.ltb_spec (i - a) (S b - a)); [| lia]. destruct (nth_error lost i); reflexivity.
  - intros ->. destruct (Nat.ltb_spec a a); [lia |]. destruct (Nat.ltb_spec a (a + (S b - a))); [| lia]. rewrite Hseg by lia. replace (a - a)%nat with 0%nat by lia. reflexivity.
  - intros H. destruct (Nat.ltb_spec i a); [lia |]. destruct (Nat.ltb_spec i (a + (S b - a))); [| lia]. rewrite Hseg by lia.
    destruct (i - a)%nat as [| k] eqn:Ek; [lia |]. rewrite Hp. destruct (Nat.ltb_spec k (b - a)); [| lia]. replace (S a + k)%nat with i by lia. reflexivity.
Qed.

Lemma fill_single_error : a = b -> freq = None -> fill_outage freq (evenly t0 w n) power o (lost, corrected) = Raise ValueError.
Proof.
  intros E F. unfold fill_outage. fold a b. rewrite subset_rows. rewrite <- E, (rows_cons a a) by lia. replace (S a - a)%nat with 1%nat by lia.
  unfold rows_from. replace (S a - S a)%nat with 0%nat by lia. cbn [seq map grid combine]. unfold grid. cbn [seq map combine]. rewrite energy_single, F. reflexivity.
Qed.
End Outage.
