(** Specification of the CODS bootstrap. *)

From Coq Require Import QArith Qcanon List ZArith Bool Arith String.
From Verif.Base Require Import QcExtra Fl.
From Verif.Spec Require Import Stats CodsRun.
From Verif.Model Require Import Cods.
Import ListNotations.
Open Scope list_scope.
Open Scope Qc_scope.

(** [r] is the least multiple of [m] that is not below [n]. *)
Definition next_multiple (m n r : nat) : Prop := (exists k, r = m * k)%nat /\ (n <= r)%nat /\ (r < n + m)%nat.

(** Every combination, the last parameter changing first. *)
Definition all_choices {A B C D : Type} (la : list A) (lb : list B) (lc : list C) (ld : list D) : list (A * B * C * D) :=
  flat_map (fun a => flat_map (fun b => flat_map (fun c => map (fun d => (a, b, c, d)) ld) lc) lb) la.

(** Share of the rows on which a column is one. *)
Definition share_of_ones (l : list fl) (f : Qc) : Prop :=
  f = qz (Z.of_nat (List.length (filter (fun x => match x with Fin q => if Qc_eq_dec q 1 then true else false | _ => false end) l))) / qz (Z.of_nat (List.length l)).

(** Weights inversely proportional to error * (1 + share), adding up to one. *)
Definition inverse_weights (errors shares w : list Qc) : Prop :=
  List.length w = List.length errors /\ (forall x, In x w -> 0 < x) /\ qsum w = 1 /\
  forall i j, (i < List.length w)%nat -> (j < List.length w)%nat ->
    nth i w 0 * (nth i errors 0 * (1 + nth i shares 0)) = nth j w 0 * (nth j errors 0 * (1 + nth j shares 0)).
Definition weighted_mean (w x : list Qc) (m : Qc) : Prop := List.length w = List.length x /\ m = qsum (map (fun p => fst p * snd p) (combine w x)).

(** Estimate and ends of the interval of confidence level [cl] per cent. *)
Definition estimate (cl : Qc) (w x : list Qc) (t : fl * fl * fl) : Prop :=
  exists m lo hi, t = (Fin m, Fin lo, Fin hi) /\ weighted_mean w x m /\ is_percentile (qz 50 - cl / qz 2) x lo /\ is_percentile (qz 50 + cl / qz 2) x hi.

Definition limited (x y : fl) : Prop :=
  (fle (fz 0) x = true /\ fle x (fz 1) = true /\ y = x) \/ (flt x (fz 0) = true /\ y = fz 0) \/ (flt (fz 1) x = true /\ y = fz 1) \/ (x = NaN /\ y = NaN).

(** The first of the largest weights. *)
Definition heaviest (w : list Qc) (b : nat) : Prop :=
  (b < List.length w)%nat /\ (forall j, (j < List.length w)%nat -> nth j w 0 <= nth b w 0) /\ (forall j, (j < b)%nat -> nth j w 0 < nth b w 0).

(** ** Results in terms of the fits (the records of the model) *)

(** Fits with positive errors. *)
Definition errors_of (l : list decomposition) (errors : list Qc) : Prop :=
  map o_rmse l = map Fin errors /\ (forall x, In x errors -> 0 < x) /\ (forall d, In d l -> o_ratio d <> []).
Definition shares_of (l : list decomposition) (shares : list Qc) : Prop := Forall2 (fun d f => share_of_ones (o_ratio d) f) l shares.
(** The values of a row over the fits. *)
Definition row_values (columns : list (list fl)) (i : nat) (x : list Qc) : Prop := Forall2 (fun c q => value_at c i q) columns x.
Definition event_value (d : decomposition) (i : nat) (q : Qc) : Prop := (nth_error (o_events d) i = Some true /\ q = 1) \/ (nth_error (o_events d) i <> Some true /\ q = 0).

(** Results from the last initial fit and the bootstrap fits (with the seasonal samples used) that were kept. *)
Definition summary_of (cl : Qc) (pi : list fl) (last : decomposition) (saved : list (decomposition * list fl)) (r : cods_result) : Prop :=
  saved <> [] /\ qz (-100) <= cl /\ cl <= qz 100 /\ cr_small r = false /\
  Forall2 limited (o_ratio last) (cr_ratio r) /\
  linear (List.length pi) (cr_trend r) (fst (fst (cr_degradation r))) /\
  composed pi (cr_trend r) (cr_season r) (cr_ratio r) (cr_total r) (cr_residuals r) (cr_shift r) /\
  forall errors, errors_of (map fst saved) errors -> exists shares w, shares_of (map fst saved) shares /\ inverse_weights errors shares w /\
    (forall x, map o_rate (map fst saved) = map Fin x -> estimate cl w x (cr_degradation r)) /\
    (forall x, map o_loss (map fst saved) = map Fin x -> estimate cl w x (cr_loss r)) /\
    (forall i x, (i < List.length pi)%nat -> row_values (map o_ratio (map fst saved)) i x ->
       exists m lo hi, value_at (cr_bt_ratio r) i m /\ value_at (cr_ratio_low r) i lo /\ value_at (cr_ratio_high r) i hi /\
         weighted_mean w x m /\ is_percentile (qz 50 - cl / qz 2) x lo /\ is_percentile (qz 50 + cl / qz 2) x hi) /\
    (forall i x, (i < List.length pi)%nat -> row_values (map snd saved) i x -> exists m, value_at (cr_season r) i m /\ weighted_mean w x m) /\
    (forall i x, (i < List.length pi)%nat -> Forall2 (fun d q => event_value d i q) (map fst saved) x -> exists m, value_at (cr_events r) i m /\ weighted_mean w x m).

(** The residuals passed the test of stationarity; the statistic counts as failed if it is zero. *)
Definition passes (d : decomposition) : Prop := flt (snd (o_adf d)) (ff 1 20) = true.
Definition counts_as_failed (d : decomposition) : Prop := ~ passes d \/ exists q, fst (o_adf d) = Fin q /\ q = 0.
(** More than [m] elements have the property. *)
Definition more_than {A : Type} (m : nat) (P : A -> Prop) (l : list A) : Prop :=
  exists rows, NoDup rows /\ (m < List.length rows)%nat /\ forall i, In i rows -> exists x, nth_error l i = Some x /\ P x.
(** The fits that were possible. *)
Definition fits_of {A : Type} (fit : A -> result decomposition) (l : list A) : list decomposition :=
  flat_map (fun c => match fit c with Ok d => [d] | Raise _ => [] end) l.

(** The series without the missing values in front; all of it if there is nothing else. *)
Definition without_leading (s kept : list (Z * fl)) : Prop :=
  (exists front, s = front ++ kept /\ (forall r, In r front -> snd r = NaN) /\ exists r rest, kept = r :: rest /\ snd r <> NaN) \/
  (s <> [] /\ kept = s /\ forall r, In r s -> snd r = NaN).
