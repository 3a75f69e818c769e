(** C78: year-on-year values of a part of a record *)

From Coq Require Import QArith Qcanon List ZArith Bool Arith Lia Permutation Sorted.
From Verif.Base Require Import QcExtra ISort Quantile Fl Calendar.
From Verif.Spec Require Import Stats Time YoY Window.
From Verif.Model Require Import Utilities Bootstrap YearOnYear.
From Verif.Proofs Require Import StatsP FlP YoYP YoYP2 YoYP3 WindowP.
Import ListNotations.
Open Scope list_scope.
Open Scope Qc_scope.
From Verif.Props Require Import YoYDemo.
Open Scope Qc_scope.

(** In a part of a record each point has the partners it has in the whole record, if they are in the part. *)
Theorem C78_partners : forall input a b dt r, clean_cut input a -> (dt <= b)%Z ->
  (is_partner (between a b input) dt r <-> is_partner input dt r /\ (a <= fst r)%Z).
Proof. exact partner_between. Qed.

(** Cutting at midnight is clean, except on 29 February. *)
Theorem C78_midnight : forall input a, ordinary_midnight a -> clean_cut input a.
Proof. exact midnight_clean. Qed.

(** With the same factor (in particular without recentering), the part has exactly those values of the whole record whose two ends lie in it. *)
Theorem C78_window : forall infer infer' sortv sortv' choice choice' starts starts' rc rc' ep cl ep' cl' m m' input a b o o',
  sorts_by_shifted sortv -> sorts_by_shifted sortv' -> NoDup (times input) -> clean_cut input a ->
  degradation_year_on_year infer sortv choice starts rc ep cl m input = Ok o ->
  degradation_year_on_year infer' sortv' choice' starts' rc' ep' cl' m' (between a b input) = Ok o' ->
  forall dt v, one_partner input dt -> yo_renorm o' = yo_renorm o ->
  (In (dt, v) (yo_values o') <-> In (dt, v) (yo_values o) /\ (dt <= b)%Z /\ exists r, is_partner input dt r /\ (a <= fst r)%Z).
Proof. exact cut_values. Qed.

(** Adding later data changes no value of the past; with recentering, once the first 364 days are complete. *)
Theorem C78_past : forall infer infer' sortv sortv' choice choice' starts starts' rc ep cl ep' cl' m m' input b o o' first,
  sorts_by_shifted sortv -> sorts_by_shifted sortv' -> NoDup (times input) -> no_clash input ->
  is_first input first -> (rc = true -> (first + days 364 <= b)%Z) ->
  degradation_year_on_year infer sortv choice starts rc ep cl m input = Ok o ->
  degradation_year_on_year infer' sortv' choice' starts' rc ep' cl' m' (up_to b input) = Ok o' ->
  yo_renorm o' = yo_renorm o /\ yo_values o' = filter (fun p => (fst p <=? b)%Z) (yo_values o).
Proof. exact past_kept. Qed.

(** Six rows in five years, one of them unknown; the record as it was at the end of 2014. *)
Definition record : series :=
  [(at_date 2012 3 10, fz 8); (at_date 2012 9 1, fz 6); (at_date 2013 3 12, fz 4); (at_date 2014 3 12, NaN); (at_date 2014 3 15, fz 3);
   (at_date 2015 3 20, fz 2); (at_date 2016 3 21, fz 1)].
Definition year_end : Z := at_date 2014 12 31.
Definition analysis (rc : bool) (s : series) : result yoy_out :=
  degradation_year_on_year demo_infer demo_sortv demo_choice [] rc (qz 95) (qz 68) NoUncertainty s.

Lemma record_nodup : NoDup (times record).
Proof. repeat constructor; cbn [In map fst]; intros H; repeat (destruct H as [H | H]; [vm_compute in H; discriminate |]); exact H. Qed.
Lemma record_no_clash : no_clash record.
Proof.
  intros r1 r2 t H1 H2 L1 L2. apply one_year_later_eq in L1, L2. rewrite L1 in L2. clear L1.
  cbn [In record] in H1, H2.
  repeat (destruct H1 as [<- | H1]; [repeat (destruct H2 as [<- | H2]; [try reflexivity; vm_compute in L2; discriminate |]); contradiction |]). contradiction.
Qed.
Lemma record_first : is_first record (at_date 2012 3 10).
Proof. split; [left; reflexivity |]. intros t H. cbn [record times map In fst] in H. repeat (destruct H as [<- | H]; [vm_compute; discriminate |]). contradiction. Qed.

Definition out_of (r : result yoy_out) : yoy_out := match r with Ok o => o | Raise _ => no_out end.
Example C78_example :
  analysis true record = Ok (out_of (analysis true record)) /\ analysis true (up_to year_end record) = Ok (out_of (analysis true (up_to year_end record))) /\
  yo_renorm (out_of (analysis true (up_to year_end record))) = yo_renorm (out_of (analysis true record)) /\
  List.length (yo_values (out_of (analysis true record))) = 4%nat /\
  yo_values (out_of (analysis true (up_to year_end record))) = filter (fun p => (fst p <=? year_end)%Z) (yo_values (out_of (analysis true record))) /\
  List.length (yo_values (out_of (analysis true (up_to year_end record)))) = 2%nat.
Proof.
  assert (analysis true record = Ok (out_of (analysis true record))) as A by (vm_compute; reflexivity).
  assert (analysis true (up_to year_end record) = Ok (out_of (analysis true (up_to year_end record)))) as B by (vm_compute; reflexivity).
  destruct (C78_past demo_infer demo_infer demo_sortv demo_sortv demo_choice demo_choice [] [] true (qz 95) (qz 68) (qz 95) (qz 68) NoUncertainty NoUncertainty record year_end _ _ _
              demo_sortv_ok demo_sortv_ok record_nodup record_no_clash record_first (fun _ => ltac:(vm_compute; discriminate)) A B) as [R V].
  split; [exact A |]. split; [exact B |]. split; [exact R |]. split; [vm_compute; reflexivity |]. split; [exact V |]. vm_compute. reflexivity.
Qed.

(** The years from 2013 on: only the values with both ends in them are left. *)
Example C78_window_example :
  let whole := out_of (analysis false record) in
  let part := out_of (analysis false (between (at_date 2013 1 1) (at_date 2017 1 1) record)) in
  ordinary_midnight (at_date 2013 1 1) /\ yo_renorm part = yo_renorm whole /\
  times (yo_values whole) = [at_date 2013 3 12; at_date 2014 3 15; at_date 2015 3 20; at_date 2016 3 21] /\
  yo_values part = tl (yo_values whole).
Proof.
  split; [exists 2013%Z, 1%Z, 1%Z; split; [split; cbn; lia | split; [discriminate | reflexivity]] |]. vm_compute. auto.
Qed.

(** On 29 February a cut is not clean: the row from 28 February, 23:00 lands after the one from
    29 February, 1:00, so without it another pair is formed, with another value. *)
Definition leap_record : series :=
  [((at_date 2012 2 28 + 23 * 3600000000000)%Z, fz 8); ((at_date 2012 2 29 + 3600000000000)%Z, fz 6); (at_date 2013 3 2, fz 4); (at_date 2014 3 12, fz 2)].
Theorem C78_any_cut_refuted : ~ (forall infer sortv choice starts ep cl input a b o o',
  sorts_by_shifted sortv -> NoDup (times input) -> no_clash input ->
  degradation_year_on_year infer sortv choice starts false ep cl NoUncertainty input = Ok o ->
  degradation_year_on_year infer sortv choice starts false ep cl NoUncertainty (between a b input) = Ok o' ->
  forall p, In p (yo_values o') -> In p (yo_values o)).
Proof.
  intros H.
  assert (In (hd (0%Z, NaN) (yo_values (out_of (analysis false (between (at_date 2012 2 29) (at_date 2017 1 1) leap_record))))) (yo_values (out_of (analysis false leap_record)))) as C.
  { apply (H demo_infer demo_sortv demo_choice [] (qz 95) (qz 68) leap_record (at_date 2012 2 29) (at_date 2017 1 1)
             (out_of (analysis false leap_record)) (out_of (analysis false (between (at_date 2012 2 29) (at_date 2017 1 1) leap_record)))).
    - exact demo_sortv_ok.
    - repeat constructor; cbn [In map fst]; intros K; repeat (destruct K as [K | K]; [vm_compute in K; discriminate |]); exact K.
    - intros r1 r2 t H1 H2 L1 L2. apply one_year_later_eq in L1, L2. rewrite L1 in L2. clear L1. cbn [In leap_record] in H1, H2.
      repeat (destruct H1 as [<- | H1]; [repeat (destruct H2 as [<- | H2]; [try reflexivity; vm_compute in L2; discriminate |]); contradiction |]). contradiction.
    - vm_compute. reflexivity.
    - vm_compute. reflexivity.
    - vm_compute. left. reflexivity. }
  assert (existsb (fun p => feq (snd p) (snd (hd (0%Z, NaN) (yo_values (out_of (analysis false (between (at_date 2012 2 29) (at_date 2017 1 1) leap_record)))))))
    (yo_values (out_of (analysis false leap_record))) = false) as D by (vm_compute; reflexivity).
  enough (existsb (fun p => feq (snd p) (snd (hd (0%Z, NaN) (yo_values (out_of (analysis false (between (at_date 2012 2 29) (at_date 2017 1 1) leap_record)))))))
    (yo_values (out_of (analysis false leap_record))) = true) as E by (rewrite D in E; discriminate).
  apply existsb_exists. eexists. split; [exact C | vm_compute; reflexivity].
Qed.
Print Assumptions C78_any_cut_refuted.

Print Assumptions C78_partners.
Print Assumptions C78_midnight.
Print Assumptions C78_window.
Print Assumptions C78_past.
