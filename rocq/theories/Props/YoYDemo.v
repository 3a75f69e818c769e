(** A concrete year-on-year run used by the examples beside the theorems. *)

From Coq Require Import QArith Qcanon List ZArith Bool Permutation Sorted Lia.
From Verif.Base Require Import QcExtra ISort Quantile Fl Calendar.
From Verif.Spec Require Import Stats Time YoY.
From Verif.Model Require Import Utilities Bootstrap YearOnYear.
From Verif.Proofs Require Import StatsP FlP YoYP YoYP2.
Import ListNotations.
Opaque add_years.

(** A stable sort by shifted time meets the contract of [sort_values]. *)
Definition shift_le (a b : Z * fl) : bool := (add_years 1 (fst a) <=? add_years 1 (fst b))%Z.
Definition demo_sortv (l : series) : series := isort shift_le l.

Lemma demo_sortv_ok : sorts_by_shifted demo_sortv.
Proof.
  intros l. split; [apply isort_perm |].
  assert (forall a b, shift_le a b = true \/ shift_le b a = true) as T.
  { intros a b. unfold shift_le. destruct (Z.le_ge_cases (add_years 1 (fst a)) (add_years 1 (fst b)));
      [left | right]; apply Z.leb_le; lia. }
  assert (forall a b c, shift_le a b = true -> shift_le b c = true -> shift_le a c = true) as R.
  { intros a b c H1 H2. unfold shift_le in *. apply Z.leb_le in H1, H2. apply Z.leb_le. lia. }
  pose proof (StronglySorted_Sorted (isort_sorted shift_le T R l)) as S. unfold demo_sortv.
  induction S as [| a l' S IH H]; constructor; [exact IH |].
  destruct H as [| b l' H]; constructor. intros ta tb Ha Hb.
  apply one_year_later_eq in Ha, Hb. subst. unfold shift_le in H. apply Z.leb_le in H. exact H.
Qed.

Definition at_date (y m d : Z) : Z := (day_of_civil (mkdate y m d) * ns_day)%Z.

(** Five rows around 29 February, unsorted, one energy missing. *)
Definition demo_input : series :=
  [(at_date 2014 2 28, ff 90 100); (at_date 2012 2 29, ff 100 100); (at_date 2013 2 28, ff 95 100);
   (at_date 2013 3 5, ff 94 100); (at_date 2013 7 1, NaN)].

(** A daily step. *)
Definition demo_infer (_ : list Z) : option (Z -> Z) := Some (fun t => (t - ns_day)%Z).

(** Two repetitions of the simple bootstrap for three values. *)
Definition demo_choice (n : nat) : list (list nat) := [[0; 1; 1]; [2; 2; 0]]%nat.

Definition demo_run (rc : bool) (m : umethod) : result yoy_out :=
  degradation_year_on_year demo_infer demo_sortv demo_choice [[3; 1; 0; 4; 2]; [0; 2; 2; 1; 1]]%nat
    rc (qz 95) (qz 68) m demo_input.

Definition no_out : yoy_out := mk_yoy_out NaN [] NaN [] None None.
Definition demo_out (rc : bool) (m : umethod) : yoy_out :=
  match demo_run rc m with Ok o => o | Raise _ => no_out end.

Lemma demo_ok : demo_run false NoUncertainty = Ok (demo_out false NoUncertainty).
Proof. vm_compute. reflexivity. Qed.
Lemma demo_ok_simple : demo_run true Simple = Ok (demo_out true Simple).
Proof. vm_compute. reflexivity. Qed.
Lemma demo_ok_block : demo_run false (CircularBlock 1) = Ok (demo_out false (CircularBlock 1)).
Proof. vm_compute. reflexivity. Qed.

Lemma demo_nodup : NoDup (times demo_input).
Proof.
  repeat constructor; cbn [In map fst]; intros H; repeat (destruct H as [H | H]; [vm_compute in H; discriminate |]); exact H.
Qed.

Lemma demo_no_clash : no_clash demo_input.
Proof.
  intros [t1 e1] [t2 e2] t H1 H2 Y1 Y2. cbn [fst] in *.
  apply one_year_later_eq in Y1, Y2. rewrite Y1 in Y2. clear Y1 t.
  cbn [demo_input In] in H1, H2.
  repeat (destruct H1 as [H1 | H1]; [injection H1 as <- <- |]); try (destruct H1; fail);
  repeat (destruct H2 as [H2 | H2]; [injection H2 as <- <- |]); try (destruct H2; fail);
  first [reflexivity | exfalso; vm_compute in Y2; discriminate].
Qed.

(** 28 and 29 February 2012 both land on 28 February 2013; sorts that leave them in either order. *)
Definition leap_input : series :=
  [(at_date 2012 2 28, ff 100 100); (at_date 2012 2 29, ff 98 100); (at_date 2013 2 28, ff 95 100); (at_date 2014 2 28, ff 90 100)].
Definition other_sortv (l : series) : series := demo_sortv (rev l).
Lemma other_sortv_ok : sorts_by_shifted other_sortv.
Proof.
  intros l. destruct (demo_sortv_ok (rev l)) as [P S]. split; [| exact S]. eapply Permutation_trans; [apply Permutation_rev | exact P].
Qed.
Lemma leap_nodup : NoDup (times leap_input).
Proof.
  repeat constructor; cbn [In map fst]; intros H; repeat (destruct H as [H | H]; [vm_compute in H; discriminate |]); exact H.
Qed.
Lemma leap_clash : ~ no_clash leap_input.
Proof.
  intros H. assert (at_date 2012 2 28 = at_date 2012 2 29) as E; [| vm_compute in E; discriminate].
  apply (H (at_date 2012 2 28, ff 100 100) (at_date 2012 2 29, ff 98 100) (at_date 2013 2 28)); [left; reflexivity | right; left; reflexivity | |]; apply one_year_later_iff; vm_compute; reflexivity.
Qed.
Lemma leap_finite : forall t e, In (t, e) leap_input -> exists q, e = Fin q.
Proof. intros t e H. cbn [leap_input In] in H. repeat (destruct H as [H | H]; [injection H as _ <-; eexists; reflexivity |]). destruct H. Qed.
Definition leap_run (sortv : series -> series) (m : umethod) : result yoy_out :=
  degradation_year_on_year demo_infer sortv demo_choice [] false (qz 95) (qz 68) m leap_input.
Definition leap_out (sortv : series -> series) (m : umethod) : yoy_out := match leap_run sortv m with Ok o => o | Raise _ => no_out end.
