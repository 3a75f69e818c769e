(** Specification of calls of the analyses: the entry of [results] and the failures of the
    requested analyses. *)

From Coq Require Import List ZArith String.
From Verif.Base Require Import Fl TimeSeries Calendar.
From Verif.Model Require Import TrendAnalysis.
From Verif.Spec Require Import TrendRuns.
Import ListNotations.
Open Scope list_scope.

(** The first and the last row are at least 730 days apart. *)
Definition two_years (p : series) : Prop :=
  exists first last, hd_error (times p) = Some first /\ (exists l, times p = l ++ [last]) /\ (first + 730 * (24 * 3600 * 1000000000) <= last)%Z.

Section Calls.
Context {P W T O YK SK YR SR : Type}.
Local Notation env := (environment P W T O YK SK YR SR).
Local Notation st := (state P W T O YR SR).
Local Notation req := (@request YK SK).

(** The degradation of the performance: the value of the analysis if requested, which needs two years. *)
Definition degradation_entry (E : env) (q : req) (p : series) (y : option YR) : Prop :=
  In "yoy_degradation"%string (q_names q) /\ two_years p /\ (exists v, e_yoy E (q_yoy q) p = Ok v /\ y = Some v) \/
  ~ In "yoy_degradation"%string (q_names q) /\ y = None.
Definition degradation_fails (E : env) (q : req) (p : series) (e : exn) : Prop :=
  In "yoy_degradation"%string (q_names q) /\ (~ two_years p /\ e = ValueError \/ two_years p /\ e_yoy E (q_yoy q) p = Raise e).
(** Soiling, which needs daily aggregation. *)
Definition soiling_entry (E : env) (q : req) (width : Z) (p i : series) (z : option SR) : Prop :=
  In "srr_soiling"%string (q_names q) /\ width = ns_day /\ (exists v, e_srr E (q_srr q) p i = Ok v /\ z = Some v) \/
  ~ In "srr_soiling"%string (q_names q) /\ z = None.
Definition soiling_fails (E : env) (q : req) (width : Z) (p i : series) (e : exn) : Prop :=
  In "srr_soiling"%string (q_names q) /\ (width <> ns_day /\ e = ValueError \/ width = ns_day /\ e_srr E (q_srr q) p i = Raise e).

(** The entry after several calls: that of the last call of the case that succeeds on the initial
    object, or the initial entry. *)
Definition last_successful (E : env) (c : case) (s : st) (qs : list req) (o : option (outcome YR SR)) : Prop :=
  (exists before q after, qs = before ++ q :: after /\ q_case q = c /\ snd (analyse E q s) = Ok tt /\
     (forall q', In q' after -> q_case q' = c -> snd (analyse E q' s) <> Ok tt) /\ o = d_result (side_of c (fst (analyse E q s)))) \/
  ((forall q, In q qs -> q_case q = c -> snd (analyse E q s) <> Ok tt) /\ o = d_result (side_of c s)).
End Calls.
