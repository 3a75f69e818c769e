(** rdtools/_deprecation.py:137-318.  Strings are sequences of Latin-1 characters.

    Simplifications: a format specification other than [%(key)s] and [%%] in a message given by
    the caller is left to a function [odd]; [textwrap.dedent] is a function [dedent]; how a
    warning is shown (stack level, repetitions) is not modelled, only whether it is turned into
    an exception. *)

From Coq Require Import List ZArith Bool Arith String Ascii.
From Verif.Base Require Import Fl.
Import ListNotations.
Open Scope list_scope.

(** ** [message % values] *)
Definition percent : ascii := "%"%char.
Definition value_of (values : list (string * string)) (k : string) : result string :=
  match find (fun p => String.eqb (fst p) k) values with Some p => Ok (snd p) | None => Raise KeyError end.
(** The text up to the next closing parenthesis and the rest; [None] for a nested one. *)
Fixpoint key_of (s : string) : option (option (string * string)) :=
  match s with
  | EmptyString => Some None
  | String c r =>
    if Ascii.eqb c ")" then Some (Some (EmptyString, r))
    else if Ascii.eqb c "(" then None
    else match key_of r with Some (Some (k, rest)) => Some (Some (String c k, rest)) | o => o end
  end.
(** [None] means a specification that is not modelled.  [fuel] is at least the length. *)
Fixpoint render (fuel : nat) (values : list (string * string)) (s : string) : option (result string) :=
  match fuel, s with
  | _, EmptyString => Some (Ok EmptyString)
  | O, _ => None
  | S n, String c r =>
    if Ascii.eqb c percent then
      match r with
      | EmptyString => Some (Raise ValueError)
      | String c' r' =>
        if Ascii.eqb c' percent then
          match render n values r' with Some (Ok t) => Some (Ok (String percent t)) | o => o end
        else if Ascii.eqb c' "(" then
          match key_of r' with
          | None => None
          | Some None => Some (Raise ValueError)
          | Some (Some (k, rest)) =>
            match value_of values k with
            | Raise e => Some (Raise e)
            | Ok v =>
              match rest with
              | EmptyString => Some (Raise ValueError)
              | String c'' rest' =>
                if Ascii.eqb c'' "s" then match render n values rest' with Some (Ok t) => Some (Ok (append v t)) | o => o end
                else None
              end
            end
          end
        else None
      end
    else match render n values r with Some (Ok t) => Some (Ok (String c t)) | o => o end
  end.
Definition insert_values (odd : string -> list (string * string) -> result string) (message : string) (values : list (string * string)) : result string :=
  match render (String.length message) values message with Some r => r | None => odd message values end.

(** ** [str.strip] *)
Definition is_blank (c : ascii) : bool :=
  let n := nat_of_ascii c in ((9 <=? n) && (n <=? 13) || (28 <=? n) && (n <=? 32) || (n =? 133) || (n =? 160))%nat.
Fixpoint drop_while (p : ascii -> bool) (l : list ascii) : list ascii :=
  match l with [] => [] | c :: r => if p c then drop_while p r else l end.
Definition strip_chars (p : ascii -> bool) (s : string) : string :=
  string_of_list_ascii (rev (drop_while p (rev (drop_while p (list_ascii_of_string s))))).
Definition strip (s : string) : string := strip_chars is_blank s.
Definition newline : ascii := ascii_of_nat 10.

(** The argument [removal]: a string, or another false value together with how it is shown. *)
Inductive removal_argument : Type := Version (s : string) | Falsy (s : string).
Definition nonempty (s : string) : bool := negb (String.eqb s EmptyString).
Definition project : string := "rdtools".

(** 137-164. *)
Definition generate_deprecation_message (odd : string -> list (string * string) -> result string)
    (since message name alternative : string) (pending : bool) (obj_type addendum : string) (removal : removal_argument) : result string :=
  bind (match removal with                                                                        (* 141-147 *)
        | Falsy s => Ok (s, false)
        | Version s => if nonempty s then if pending then Raise ValueError else Ok (append "in " s, true) else Ok ("soon"%string, true)
        end) (fun p => let '(removal, truthy) := p in
  let message := if nonempty message then message else                                            (* 149-160 *)
    append "The %(name)s %(obj_type)s" (append
      (if pending then " will be deprecated in a future version"
       else append " was deprecated in %(projectName)s %(since)s" (if truthy then " and will be removed %(removal)s" else "")) (append "." (append
      (if nonempty alternative then " Use %(alternative)s instead." else "")
      (if nonempty addendum then " %(addendum)s" else "")))) in
  insert_values odd message                                                                         (* 162-164 *)
    [("func", name); ("name", name); ("obj_type", obj_type); ("since", since); ("removal", removal);
     ("alternative", alternative); ("addendum", addendum); ("projectName", project)])%string.

(** Warnings: category and text.  [raises] tells which ones are turned into exceptions. *)
Inductive category : Type := ProjectWarning | PendingWarning.
Definition warning : Type := (category * string)%type.
Inductive outcome (R : Type) : Type := Returned (r : R) | Warned (w : warning).
Arguments Returned {R} r.
Arguments Warned {R} w.
Definition category_of (pending : bool) : category := if pending then PendingWarning else ProjectWarning.

(** 167-213. *)
Definition warn_deprecated (odd : string -> list (string * string) -> result string)
    (since message name alternative : string) (pending : bool) (obj_type addendum : string) (removal : removal_argument) : result warning :=
  bind (generate_deprecation_message odd since message name alternative pending obj_type addendum removal) (fun message =>
  Ok (category_of pending, String newline message)).

(** ** The decorator *)
Inductive kind : Type := AClass | AClassMethod | AFunction.
(** A function called with arguments [A] in a state [S]: it issues warnings, changes the state and ends with [R]. *)
Definition callable (A S R : Type) : Type := A -> S -> list warning * S * R.
Record decorated (A S R : Type) : Type := Decorated { d_call : A -> S -> list warning * S * outcome R; d_doc : string; d_warning : warning }.
Arguments Decorated {A S R} _ _ _.
Arguments d_call {A S R} _.
Arguments d_doc {A S R} _.
Arguments d_warning {A S R} _.

(** 258-318.  [own_name] is [obj.__name__], if there is one; [old_doc] is [obj.__doc__ or '']. *)
Definition deprecated (odd : string -> list (string * string) -> result string) (dedent : string -> string) (raises : warning -> bool)
    (since message name alternative : string) (pending : bool) (addendum : string) (removal : removal_argument)
    {A S R : Type} (obj : kind) (own_name : option string) (old_doc : string) (func : callable A S R) : result (decorated A S R) :=
  bind (if nonempty name then Ok name else match own_name with Some n => Ok n | None => Raise AttributeError end) (fun name =>  (* 261-262 *)
  let obj_type := match obj with AClass => "class"%string | _ => "function"%string end in           (* 264-293 *)
  bind (generate_deprecation_message odd since message name alternative pending obj_type addendum removal) (fun message =>     (* 295-297 *)
  let old_doc := strip_chars (Ascii.eqb newline) (dedent old_doc) in                                (* 305 *)
  let message := strip message in                                                                  (* 306: the wrapper sees this value *)
  let w := (category_of pending, message) in                                                       (* 298-299 *)
  let new_doc := append (String newline (append ".. deprecated:: " (append since (String newline (append "    " (append message (String newline (String newline EmptyString)))))))) old_doc in   (* 307-309 *)
  let new_doc := if nonempty old_doc then new_doc else append new_doc "\ " in                       (* 310-313 *)
  Ok (Decorated (fun a s =>                                                                        (* 301-303 *)
        if raises w then ([w], s, Warned w) else let '(ws, s', r) := func a s in (w :: ws, s', Returned r)) new_doc w))).

(** normalization.py:213 and 338. *)
Definition as_deprecated (odd : string -> list (string * string) -> result string) (dedent : string -> string) (raises : warning -> bool)
    {A S R : Type} (own_name : string) (old_doc : string) (func : callable A S R) : result (decorated A S R) :=
  deprecated odd dedent raises "2.0.0" "" "" "" false "" (Version "3.0.0") AFunction (Some own_name) old_doc func.
