(** Specification of texts with inserted values and of stripped texts. *)

From Coq Require Import List String Ascii Bool Arith.
Import ListNotations.
Open Scope list_scope.

(** A template is a sequence of literal text, inserted values and percent signs. *)
Inductive piece : Type := Text (s : string) | Value (key : string) | Percent.
Fixpoint lacks (c : ascii) (s : string) : Prop := match s with EmptyString => True | String d r => d <> c /\ lacks c r end.
Definition plain (p : piece) : Prop :=
  match p with Text s => lacks "%" s | Value k => lacks "(" k /\ lacks ")" k | Percent => True end.
(** How a piece is written. *)
Definition written (p : piece) : string :=
  match p with Text s => s | Value k => append "%(" (append k ")s") | Percent => "%%"%string end.
(** What it becomes. *)
Definition shown (values : list (string * string)) (p : piece) (r : string) : Prop :=
  match p with Text s => r = s | Value k => In (k, r) values | Percent => r = "%"%string end.

(** White space of Latin-1. *)
Definition blank (c : ascii) : Prop := let n := nat_of_ascii c in (9 <= n <= 13)%nat \/ (28 <= n <= 32)%nat \/ n = 133%nat \/ n = 160%nat.
(** Without the characters of one kind at both ends. *)
Definition stripped (P : ascii -> Prop) (s r : string) : Prop :=
  exists before later, list_ascii_of_string s = before ++ list_ascii_of_string r ++ later /\ Forall P before /\ Forall P later /\
    (forall c rest, list_ascii_of_string r = c :: rest -> ~ P c) /\ (forall c start, list_ascii_of_string r = start ++ [c] -> ~ P c).
