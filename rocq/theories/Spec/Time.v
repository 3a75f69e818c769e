(** Specification of "one calendar year later". *)

From Coq Require Import ZArith.
From Verif.Base Require Import Calendar.
Open Scope Z_scope.

(** [t'] is the same wall-clock time, month and day as [t] in the next year, with
    29 February replaced by 28 February. *)
Definition one_year_later (t t' : Z) : Prop :=
  exists y m d tod,
    valid_date (mkdate y m d) /\ 0 <= tod < ns_day /\
    t = day_of_civil (mkdate y m d) * ns_day + tod /\
    t' = day_of_civil (mkdate (y + 1) m (if (m =? 2) && (d =? 29) then 28 else d)%bool)
           * ns_day + tod.

(** [t'] is the same wall-clock time, month and day [n] years after [t], with
    29 February replaced by 28 February when the target year is not a leap year. *)
Definition years_later (n t t' : Z) : Prop :=
  exists y m d tod,
    valid_date (mkdate y m d) /\ 0 <= tod < ns_day /\
    t = day_of_civil (mkdate y m d) * ns_day + tod /\
    t' = day_of_civil
           (mkdate (y + n) m (if (m =? 2) && (d =? 29) && negb (leap (y + n)) then 28 else d)%bool)
           * ns_day + tod.
