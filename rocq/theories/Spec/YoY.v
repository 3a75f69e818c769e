(** Specification of year-on-year pairs, independent of the merge algorithm. *)

From Coq Require Import QArith Qcanon List ZArith Permutation Sorted.
From Verif.Base Require Import QcExtra Fl Calendar.
From Verif.Spec Require Import Time Stats.
Import ListNotations.

Definition eight_days : Z := (8 * 86400 * 1000000000)%Z.
Definition days (n : Z) : Z := (n * 86400 * 1000000000)%Z.

(** Moved forward one calendar year, timestamp [t] lands on [dt] or at most eight
    days before it. *)
Definition in_reach (t dt : Z) : Prop :=
  exists t', one_year_later t t' /\ (t' <= dt)%Z /\ (dt <= t' + eight_days)%Z.

(** [r] is a latest-landing row among those landing at or before [dt], and it is in
    reach. *)
Definition is_partner (input : series) (dt : Z) (r : Z * fl) : Prop :=
  In r input /\
  exists t', one_year_later (fst r) t' /\ (t' <= dt)%Z /\ (dt <= t' + eight_days)%Z /\
    forall r2 t2, In r2 input -> one_year_later (fst r2) t2 -> (t2 <= dt)%Z -> (t2 <= t')%Z.

(** Percent change per 365-day year between a row and its partner, after dividing
    both energies by the renormalising factor. *)
Definition pair_value (renorm : fl) (dt : Z) (e : fl) (r : Z * fl) : fl :=
  fdiv (fmul (fz 100) (fsub (fdiv e renorm) (fdiv (snd r) renorm)))
       (Fin (qz (dt - fst r) / qz (days 365))%Qc).

(** What the library may assume about [sort_values('dt_shifted')]: a rearrangement
    of the rows in non-decreasing order of the shifted time. *)
Definition sorts_by_shifted (sortv : series -> series) : Prop :=
  forall l, Permutation l (sortv l) /\
    Sorted (fun a b => forall ta tb, one_year_later (fst a) ta -> one_year_later (fst b) tb ->
                                     (ta <= tb)%Z) (sortv l).

(** Distinct timestamps never land on the same instant (no 28/29 February clash). *)
Definition no_clash (input : series) : Prop :=
  forall r1 r2 t, In r1 input -> In r2 input ->
    one_year_later (fst r1) t -> one_year_later (fst r2) t -> fst r1 = fst r2.

Definition is_first (input : series) (f : Z) : Prop :=
  In f (times input) /\ forall t, In t (times input) -> (f <= t)%Z.
Definition is_last (input : series) (l : Z) : Prop :=
  In l (times input) /\ forall t, In t (times input) -> (t <= l)%Z.

(** Differences between neighbouring elements. *)
Fixpoint neighbour_gaps (l : list Z) : list Qc :=
  match l with
  | x :: ((y :: _) as l') => qz (y - x) :: neighbour_gaps l'
  | _ => []
  end.

(** The data cover less than two calendar years minus one step.  [infer] gives the
    inferred step (as "subtract one step"); without one the step is the median gap
    between consecutive timestamps. *)
Definition span_short (infer : list Z -> option (Z -> Z)) (input : series) : Prop :=
  exists ts f l f2,
    Permutation (times input) ts /\ Sorted Z.lt ts /\
    is_first input f /\ is_last input l /\ years_later 2 f f2 /\
    match infer ts with
    | Some minus_step => (l < minus_step f2)%Z
    | None => exists M, neighbour_gaps ts <> [] /\ is_median (neighbour_gaps ts) M /\
                        (qz l < qz f2 - M)%Qc
    end.

(** [dt] is the earliest timestamp whose partner is [t]. *)
Definition first_matched (input : series) (t dt : Z) : Prop :=
  In dt (times input) /\ (exists e, is_partner input dt (t, e)) /\
  forall dt' e, In dt' (times input) -> is_partner input dt' (t, e) -> (dt <= dt')%Z.

(** [t] ends a reported pair / starts a reported pair. *)
Definition ends_pair (values : series) (t : Z) : Prop := exists v, In (t, v) values.
Definition starts_pair (input values : series) (t : Z) : Prop :=
  exists dt e v, In (dt, v) values /\ is_partner input dt (t, e).

(** Which partner each point gets: one of the latest-landing rows in reach, or none if there is
    none; of rows that land on the same instant (28 and 29 February) always the same one. *)
Definition partner_choice (input : series) (pick : Z -> option (Z * fl)) : Prop :=
  (forall dt, match pick dt with Some r => is_partner input dt r | None => forall r, ~ is_partner input dt r end) /\
  (forall dt dt' r r' t, pick dt = Some r -> pick dt' = Some r' -> one_year_later (fst r) t -> one_year_later (fst r') t -> r = r').
(** [dt] is the earliest timestamp that gets [t]. *)
Definition first_picked (input : series) (pick : Z -> option (Z * fl)) (t dt : Z) : Prop :=
  In dt (times input) /\ (exists e, pick dt = Some (t, e)) /\
  forall dt' e, In dt' (times input) -> pick dt' = Some (t, e) -> (dt <= dt')%Z.
(** The reported values are those of the pairs of each point with the row it gets. *)
Definition values_of_pairs (input : series) (pick : Z -> option (Z * fl)) (rho : fl) (values : series) : Prop :=
  forall dt v, In (dt, v) values <-> v <> NaN /\ exists e r, In (dt, e) input /\ pick dt = Some r /\ v = pair_value rho dt e r.
