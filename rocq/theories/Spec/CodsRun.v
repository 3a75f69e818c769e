(** Specification of the iterations of the CODS decomposition. *)

From Coq Require Import QArith Qcanon List ZArith Bool Arith String.
From Verif.Base Require Import QcExtra Fl TimeSeries Calendar.
Import ListNotations.
Open Scope list_scope.
Open Scope nat_scope.

(** ** The schedule *)

(** [m i] is the error after [i] fits.  Its improvement over the last [n] fits, relative to the error before. *)
Definition hardly_improved (n : nat) (criterion : fl) (m : nat -> fl) (i : nat) : Prop :=
  flt (fdiv (fsub (m (i - n)) (m i)) (m (i - n))) criterion = true.
(** Perfect cleaning is given up after fit [i]: all components were fitted, and half of the fits
    are done or there was hardly any improvement. *)
Definition gives_up (n max : nat) (criterion : fl) (m : nat -> fl) (i : nat) : Prop :=
  n <= i /\ (max <= 2 * i \/ hardly_improved n criterion m i).
Definition change_point (n max : nat) (criterion : fl) (m : nat -> fl) (c : nat) : Prop :=
  1 <= c /\ gives_up n max criterion m c /\ forall i, 1 <= i < c -> ~ gives_up n max criterion m i.
(** A full cycle after the change there was hardly any improvement. *)
Definition converged (n max : nat) (criterion : fl) (m : nat -> fl) (i : nat) : Prop :=
  exists c, change_point n max criterion m c /\ c + n <= i /\ hardly_improved n criterion m i.

(** Component and assumption of fit number [i] (from 1): the components take turns, and begin again
    when perfect cleaning is given up. *)
Definition scheduled (order : list string) (max : nat) (criterion : fl) (m : nat -> fl) (i : nat) (f : string * bool) : Prop :=
  let n := List.length order in
  (snd f = true /\ nth_error order ((i - 1) mod n) = Some (fst f) /\ forall c, c < i -> ~ change_point n max criterion m c) \/
  (exists c, c < i /\ change_point n max criterion m c /\ snd f = false /\ nth_error order ((i - 1 - c) mod n) = Some (fst f)).

(** Fits carried out one after the other, with the errors reached. *)
Inductive carried_out {St : Type} (step : string -> bool -> nat -> St -> result (St * fl)) : nat -> St -> list (string * bool) -> list fl -> result St -> Prop :=
| co_end : forall ic st, carried_out step ic st [] [] (Ok st)
| co_step : forall ic st c p st' x fs ms r, step c p (S ic) st = Ok (st', x) -> carried_out step (S ic) st' fs ms r ->
    carried_out step ic st ((c, p) :: fs) (x :: ms) r
| co_fail : forall ic st c p e, step c p (S ic) st = Raise e -> carried_out step ic st [(c, p)] [] (Raise e).

(** The whole run: [errors] begins with the error before any fit. *)
Definition run_of {St : Type} (step : string -> bool -> nat -> St -> result (St * fl)) (order : list string) (max : nat) (criterion : fl)
    (first : fl) (st : St) (fits : list (string * bool)) (errors : list fl) (r : result St) : Prop :=
  let n := List.length order in
  let m i := nth i errors NaN in
  (exists rest, errors = first :: rest /\ carried_out step 0 st fits rest r) /\
  (forall i f, nth_error fits i = Some f -> scheduled order max criterion m (S i) f) /\
  List.length fits <= max /\
  (forall i, i < List.length fits -> ~ converged n max criterion m i) /\
  (forall s, r = Ok s -> List.length fits = max \/ converged n max criterion m (List.length fits)).

(** ** The output *)

Open Scope Qc_scope.

(** The value of a column on row [i]. *)
Definition value_at (l : list fl) (i : nat) (q : Qc) : Prop := nth_error l i = Some (Fin q).
Definition missing_at (l : list fl) (i : nat) : Prop := nth_error l i = Some NaN.
(** Mean of the values of a column. *)
Definition mean_of (l : list fl) (m : Qc) : Prop := m = qsum (finvals l) / qz (Z.of_nat (List.length (finvals l))).

(** Total model and residuals of three components. *)
Definition composed (pi ratio season trend total residuals : list fl) (shift : fl) : Prop :=
  (forall i a b c, value_at ratio i a -> value_at season i b -> value_at trend i c ->
     (forall t, shift = Fin t -> value_at total i (a * b * c * t)) /\
     (forall p, value_at pi i p -> a * b * c <> 0 -> exists r, value_at residuals i r /\ r * (a * b * c) = p)) /\
  (forall i x y z, nth_error ratio i = Some x -> nth_error season i = Some y -> nth_error trend i = Some z -> x = NaN \/ y = NaN \/ z = NaN ->
     missing_at total i /\ forall p, nth_error pi i = Some p -> missing_at residuals i) /\
  (noinf residuals -> finvals residuals <> [] -> exists t, shift = Fin t /\ mean_of residuals t).

(** Squared deviations on the rows where both columns have a value. *)
Definition squares (pi total : list fl) : list Qc :=
  flat_map (fun p => match p with (Fin a, Fin b) => [(b - a) * (b - a)] | _ => [] end) (combine pi total).
Definition mean_square (pi total : list fl) (x : fl) : Prop :=
  (squares pi total = [] /\ x = NaN) \/
  (squares pi total <> [] /\ x = Fin (qsum (squares pi total) / qz (Z.of_nat (List.length (squares pi total))))).

(** A trend falling (or rising) by [rate] per cent in 365 days, from 1 on the first of [n] days. *)
Definition linear (n : nat) (trend : list fl) (rate : fl) : Prop :=
  List.length trend = n /\ forall r, rate = Fin r -> forall i, (i < n)%nat -> value_at trend i (1 + qz (Z.of_nat i) * r / qz 100 / qz 365).
(** The same value on the same day of any year. *)
Definition seasonal (index : list Z) (season : list fl) : Prop :=
  List.length season = List.length index /\
  forall i j t u, nth_error index i = Some t -> nth_error index j = Some u -> ts_doy t = ts_doy u -> nth_error season i = nth_error season j.
