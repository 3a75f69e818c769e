(** pandas rolling windows and positional comparison of columns (no rdtools code). *)

From Coq Require Import QArith Qcanon List ZArith Bool Arith Lia.
From Verif.Base Require Import QcExtra ISort Quantile Fl TimeSeries.
Import ListNotations.
Open Scope Qc_scope.

(** A window is a time span in nanoseconds or a number of rows. *)
Inductive span : Type := ByTime (w : Z) | ByRows (n : nat).

(** [rolling(w, closed='both')]: is row (j, u) in the window of row (i, t)? *)
Definition in_back (sp : span) (i : nat) (t : Z) (j : nat) (u : Z) : bool :=
  match sp with
  | ByTime w => (t - w <=? u)%Z && (u <=? t)%Z
  | ByRows n => (i <=? j + n)%nat && (j <=? i)%nat
  end.
(** The same on the reversed series. *)
Definition in_fwd (sp : span) (i : nat) (t : Z) (j : nat) (u : Z) : bool :=
  match sp with
  | ByTime w => (t <=? u)%Z && (u <=? t + w)%Z
  | ByRows n => (i <=? j)%nat && (j <=? i + n)%nat
  end.
(** [rolling(w, center=True)]: from w/2 before (excluded) to w/2 after; k rows ending
    (k-1)//2 rows later.  Time spans are taken to be even. *)
Definition in_center (sp : span) (i : nat) (t : Z) (j : nat) (u : Z) : bool :=
  match sp with
  | ByTime w => (- w <? 2 * (u - t))%Z && (2 * (u - t) <=? w)%Z
  | ByRows k => (i + (k - 1) / 2 <? j + k)%nat && (j <=? i + (k - 1) / 2)%nat
  end.

(** Rolling windows treat infinities as missing. *)
Definition noninf (x : fl) : fl := match x with Fin q => Fin q | _ => NaN end.

Definition window_values (inside : nat -> Z -> bool) (s : series) : list fl :=
  map (fun r => noninf (snd (snd r)))
      (filter (fun r => inside (fst r) (fst (snd r))) (combine (seq 0 (length s)) s)).

(** [.median()] with [min_periods]. *)
Definition rolling_median (inside : nat -> Z -> nat -> Z -> bool) (min_periods : nat) (s : series) : series :=
  map (fun r => let w := window_values (inside (fst r) (fst (snd r))) s in
                (fst (snd r), if (min_periods <=? fcount w)%nat then fmedian w else NaN))
      (combine (seq 0 (length s)) s).

(** Arithmetic on two columns with the same index. *)
Definition zip_with (f : fl -> fl -> fl) (a b : series) : series :=
  map (fun p => (fst (fst p), f (snd (fst p)) (snd (snd p)))) (combine a b).
Definition on_values (f : fl -> fl) (s : series) : series := map (fun r => (fst r, f (snd r))) s.

(** A boolean column. *)
Definition mask := list (Z * bool).
Definition where_ (f : fl -> bool) (s : series) : mask := map (fun r => (fst r, f (snd r))) s.

(** Arithmetic between columns with different indexes: the union, missing values NaN. *)
Definition same_index (a b : list Z) : bool := if list_eq_dec Z.eq_dec a b then true else false.
Definition align (a b : series) : list (Z * (fl * fl)) :=
  if same_index (times a) (times b) then map (fun p => (fst (fst p), (snd (fst p), snd (snd p)))) (combine a b)
  else map (fun t => (t, (lookup a t, lookup b t))) (zset (times a ++ times b)).

(** ** Lemmas *)

Lemma nth_error_combine : forall A B (a : list A) (b : list B) i,
  nth_error (combine a b) i =
  match nth_error a i, nth_error b i with Some x, Some y => Some (x, y) | _, _ => None end.
Proof.
  induction a as [| x a IH]; intros b i; [destruct i; reflexivity |].
  destruct b as [| y b].
  - destruct i; cbn; [reflexivity |]. destruct (nth_error a i); reflexivity.
  - destruct i; cbn; [reflexivity | apply IH].
Qed.

Lemma nth_error_seq : forall k n i, nth_error (seq k n) i = if (i <? n)%nat then Some (k + i)%nat else None.
Proof.
  intros k n. revert k. induction n as [| n IH]; intros k i; [destruct i; reflexivity |].
  destruct i as [| i]; cbn [seq nth_error]; [change (0 <? S n)%nat with true; cbn match; f_equal; lia |]. rewrite IH.
  change (S i <? S n)%nat with (i <? n)%nat. destruct (i <? n)%nat; [f_equal; lia | reflexivity].
Qed.

Lemma nth_error_numbered : forall A (s : list A) i,
  nth_error (combine (seq 0 (length s)) s) i = match nth_error s i with Some r => Some (i, r) | None => None end.
Proof.
  intros A s i. rewrite nth_error_combine, nth_error_seq.
  destruct (i <? length s)%nat eqn:E.
  - destruct (nth_error s i); reflexivity.
  - apply Nat.ltb_ge in E. assert (nth_error s i = None) as -> by (apply nth_error_None; lia). reflexivity.
Qed.

Lemma nth_error_map_some : forall A B (f : A -> B) l i, nth_error (map f l) i = match nth_error l i with Some x => Some (f x) | None => None end.
Proof. intros A B f l. induction l as [| x l IH]; intros i; destruct i; cbn; auto. Qed.

Lemma rolling_median_nth : forall inside mp s i,
  nth_error (rolling_median inside mp s) i =
  match nth_error s i with
  | Some (t, _) => let w := window_values (inside i t) s in Some (t, if (mp <=? fcount w)%nat then fmedian w else NaN)
  | None => None
  end.
Proof.
  intros inside mp s i. unfold rolling_median. rewrite nth_error_map_some, nth_error_numbered.
  destruct (nth_error s i) as [[t v] |]; reflexivity.
Qed.

Lemma rolling_median_length : forall inside mp s, length (rolling_median inside mp s) = length s.
Proof. intros. unfold rolling_median. rewrite map_length, combine_length, seq_length. lia. Qed.

Lemma rolling_median_times : forall inside mp s, times (rolling_median inside mp s) = times s.
Proof.
  intros inside mp s. unfold rolling_median, times. rewrite map_map. cbn [fst].
  assert (forall k, map (fun x : nat * (Z * fl) => fst (snd x)) (combine (seq k (length s)) s) = map fst s) as K; [| apply K].
  induction s as [| r s IH]; intros k; cbn; [reflexivity |]. f_equal. apply IH.
Qed.

Lemma noninf_noinf : forall l, noinf (map noninf l).
Proof. intros l x H. apply in_map_iff in H. destruct H as (y & <- & _). destruct y; cbn; split; discriminate. Qed.
Lemma window_noinf : forall inside s, noinf (window_values inside s).
Proof. intros inside s x H. unfold window_values in H. rewrite <- (map_map (fun r => snd (snd r)) noninf) in H. exact (noninf_noinf _ x H). Qed.

Lemma zip_with_nth : forall f a b i,
  nth_error (zip_with f a b) i =
  match nth_error a i, nth_error b i with Some x, Some y => Some (fst x, f (snd x) (snd y)) | _, _ => None end.
Proof.
  intros f a b i. unfold zip_with. rewrite nth_error_map_some, nth_error_combine.
  destruct (nth_error a i), (nth_error b i); reflexivity.
Qed.
Lemma on_values_nth : forall f s i, nth_error (on_values f s) i = match nth_error s i with Some x => Some (fst x, f (snd x)) | None => None end.
Proof. intros. apply nth_error_map_some. Qed.
Lemma where_nth : forall f s i, nth_error (where_ f s) i = match nth_error s i with Some x => Some (fst x, f (snd x)) | None => None end.
Proof. intros. apply nth_error_map_some. Qed.

Lemma same_index_iff : forall a b, same_index a b = true <-> a = b.
Proof. intros a b. unfold same_index. destruct (list_eq_dec Z.eq_dec a b); split; congruence. Qed.

Lemma align_same : forall a b, times a = times b ->
  align a b = map (fun p => (fst (fst p), (snd (fst p), snd (snd p)))) (combine a b).
Proof. intros a b H. unfold align. assert (same_index (times a) (times b) = true) as -> by (apply same_index_iff; exact H). reflexivity. Qed.
