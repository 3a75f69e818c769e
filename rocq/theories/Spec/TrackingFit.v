(** Specification of a whole Kalman fit: runs and the events between them. *)

From Coq Require Import QArith Qcanon List ZArith Bool Arith Permutation Sorted.
From Verif.Base Require Import QcExtra Fl TimeSeries Calendar.
From Verif.Spec Require Import Stats Theil Filters Soiling Cods TrackingSetup Tracking.
Import ListNotations.
Open Scope list_scope.
Open Scope Qc_scope.

Definition count_true (b : list bool) : nat := count_occ Bool.bool_dec b true.
(** The marked rows in increasing order. *)
Definition marked (b : list bool) (l : list nat) : Prop := StronglySorted lt l /\ forall i, In i l <-> detected b i.

(** Events to begin with: those given, if more than four, else upward shifts of the median of nine rows, clusters collapsed. *)
Definition first_found (zs : list fl) (given : option (list bool)) (first : list nat) : Prop :=
  (exists b, given = Some b /\ (4 < count_true b)%nat /\ List.length b = List.length zs /\ marked b first) \/
  ((forall b, given = Some b -> (count_true b <= 4)%nat) /\ (11 <= List.length zs)%nat /\
   exists ev m out, (List.length ev = List.length zs /\ forall i, detected ev i <-> upward_shift true 9 (qf 1 2) zs i) /\ median_steps zs m /\ collapsed 5 ev m out /\ marked out first).

(** Events for the next run: the plausible ones and, if more than one row rises too fast, the rows of such rises. *)
Definition kept_events (prune limit : Qc) (levels rates : list Qc) (events next : list nat) : Prop :=
  exists kept fast, (events = [] /\ kept = [] \/ events <> [] /\ plausible prune levels events kept) /\ too_fast limit rates fast /\
  ((count_true fast <= 1)%nat -> next = kept) /\
  ((1 < count_true fast)%nat -> exists more found, collapsed 4 fast (map Fin rates) more /\ marked more found /\ StronglySorted le next /\ Permutation next (kept ++ found)).

Record outcome : Type := Outcome { o_events : list nat; o_levels : list Qc; o_rates : list Qc; o_cov : cov }.
(** The runs of one fit.  The last variances of a run are the deviations, squared once more, at the beginning of the next. *)
Fixpoint fitted (v R : Qc) (med : list Qc) (soiling : list nat) (line : motion) (zs : list (option Qc)) (prune limit : Qc)
    (level_dev rate_dev : Qc) (first : list nat) (runs : list outcome) : Prop :=
  match runs with
  | [] => False
  | o :: later =>
    tracked v R med soiling (line, (level_dev * level_dev, 0, rate_dev * rate_dev)) zs first (o_events o) (o_levels o) (o_rates o) (o_cov o) /\
    (later = [] \/
     exists next, kept_events prune limit (o_levels o) (o_rates o) (o_events o) next /\ next <> o_events o /\
       fitted v R med soiling line zs prune limit (fst (fst (o_cov o))) (snd (o_cov o)) next later)
  end.
