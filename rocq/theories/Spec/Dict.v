(** Specification of dictionaries given as lists of pairs. *)

From Coq Require Import List String.
Import ListNotations.
Open Scope list_scope.

(** The last pair with a key counts. *)
Definition binds {V} (items : list (string * V)) (k : string) (v : V) : Prop :=
  exists before after, items = before ++ (k, v) :: after /\ ~ In k (map fst after).
(** One pair for each key. *)
Definition is_dict {V} (d : list (string * V)) : Prop := NoDup (map fst d).
(** Contents after [items] are put into [d]: keys keep their places, new ones follow in the order of their first pair. *)
Definition put_all {V} (d items after : list (string * V)) : Prop :=
  is_dict after /\ (forall k v, In (k, v) after <-> binds (d ++ items) k v) /\
  exists new, map fst after = map fst d ++ new /\
    (forall k, In k new <-> In k (map fst items) /\ ~ In k (map fst d)) /\
    forall a b, (exists x y z, new = x ++ a :: y ++ b :: z) <->
      (In a new /\ In b new /\ exists x y, map fst items = x ++ y /\ In a x /\ ~ In b x).
(** Contents without a key. *)
Definition without {V} (k : string) (d after : list (string * V)) : Prop :=
  exists before v later, d = before ++ (k, v) :: later /\ after = before ++ later.
(** All keys are among the valid ones. *)
Definition only {V} (valid : list string) (d : list (string * V)) : Prop := forall k, In k (map fst d) -> In k valid.
