(** C55: deprecated functions behave like the functions they wrap *)

From Coq Require Import QArith Qcanon List ZArith Bool Arith Lia String Ascii.
From Verif.Base Require Import QcExtra ISort Quantile Fl TimeSeries Calendar Rolling.
From Verif.Spec Require Import Deprecation.
From Verif.Model Require Import Deprecation Interpolation Normalization.
From Verif.Proofs Require Import DeprP.
Import ListNotations.
Open Scope list_scope.

(** Decoration fails exactly without a name or if the message fails; otherwise each call issues one warning more and, unless that warning is turned into an exception, does and returns what the function does. *)
Theorem C55_decorated : forall odd dedent raises since message name alternative (pending : bool) addendum removal (A S R : Type) obj own_name old_doc (func : callable A S R),
  let the_name := if string_dec name "" then own_name else Some name in
  let the_type := match obj with AClass => "class" | _ => "function" end%string in
  match the_name with
  | None => deprecated odd dedent raises since message name alternative pending addendum removal obj own_name old_doc func = Raise AttributeError
  | Some n =>
    match generate_deprecation_message odd since message n alternative pending the_type addendum removal with
    | Raise e => deprecated odd dedent raises since message name alternative pending addendum removal obj own_name old_doc func = Raise e
    | Ok text => exists d t, deprecated odd dedent raises since message name alternative pending addendum removal obj own_name old_doc func = Ok d /\ stripped blank text t /\
        let w := (if pending then PendingWarning else ProjectWarning, t) in d_warning d = w /\
        forall a s, d_call d a s = if raises w then ([w], s, Warned w) else (w :: fst (fst (func a s)), snd (fst (func a s)), Returned (snd (func a s)))
    end
  end.
Proof. exact decorated_spec. Qed.

(** A pending deprecation cannot have a scheduled removal. *)
Theorem C55_rejected : forall odd since message name alternative obj_type addendum s, s <> EmptyString ->
  generate_deprecation_message odd since message name alternative true obj_type addendum (Version s) = Raise ValueError.
Proof. exact rejected. Qed.

(** The message without one of the own; names and the like are inserted as they are. *)
Theorem C55_default_message : forall odd since name alternative (pending : bool) obj_type addendum removal, (pending = true -> forall s, removal = Version s -> s = EmptyString) ->
  generate_deprecation_message odd since "" name alternative pending obj_type addendum removal = Ok (sentence since name alternative pending obj_type addendum removal).
Proof. exact default_message. Qed.

(** A message of the own with inserted values. *)
Theorem C55_own_message : forall odd since name alternative (pending : bool) obj_type addendum removal ps rs, (pending = true -> forall s, removal = Version s -> s = EmptyString) ->
  Forall plain ps -> join (map written ps) <> EmptyString ->
  Forall2 (shown (values_of name obj_type since match removal with Falsy s => s | Version s => if string_dec s "" then "soon"%string else append "in " s end alternative addendum)) ps rs ->
  generate_deprecation_message odd since (join (map written ps)) name alternative pending obj_type addendum removal = Ok (join rs).
Proof. exact own_message. Qed.

(** Insertion in general. *)
Theorem C55_interpolate : forall odd values ps rs, Forall plain ps -> keyed values -> Forall2 (shown values) ps rs -> insert_values odd (join (map written ps)) values = Ok (join rs).
Proof. exact insert_spec. Qed.

(** A key that is not known. *)
Theorem C55_missing_value : forall odd values ps rs k rest, Forall plain ps -> keyed values -> Forall2 (shown values) ps rs -> plain (Value k) -> ~ In k (map fst values) ->
  insert_values odd (append (join (map written ps)) (append (written (Value k)) rest)) values = Raise KeyError.
Proof. exact insert_missing. Qed.

(** A message that ends inside a value to insert. *)
Theorem C55_incomplete : forall odd values ps rs k v rest, Forall plain ps -> keyed values -> Forall2 (shown values) ps rs -> plain (Value k) ->
  rest = "%"%string \/ rest = append "%(" k \/ In (k, v) values /\ rest = append "%(" (append k ")") ->
  insert_values odd (append (join (map written ps)) rest) values = Raise ValueError.
Proof. exact insert_incomplete. Qed.

(** The docstring. *)
Theorem C55_documented : forall odd dedent raises since message name alternative (pending : bool) addendum removal (A S R : Type) obj own_name old_doc (func : callable A S R) d,
  deprecated odd dedent raises since message name alternative pending addendum removal obj own_name old_doc func = Ok d ->
  exists doc, stripped (fun c => c = newline) (dedent old_doc) doc /\
    let nl := String newline EmptyString in
    d_doc d = append (append nl (append ".. deprecated:: " (append since (append nl (append "    " (append (snd (d_warning d)) (append nl nl))))))) (if string_dec doc "" then "\ " else doc)%string.
Proof. exact documented. Qed.

(** The function that only warns. *)
Theorem C55_warn : forall odd since message name alternative pending obj_type addendum removal,
  warn_deprecated odd since message name alternative pending obj_type addendum removal =
  match generate_deprecation_message odd since message name alternative pending obj_type addendum removal with
  | Ok text => Ok (if pending then PendingWarning else ProjectWarning, append (String newline "") text)
  | Raise e => Raise e
  end.
Proof. exact warn_deprecated_spec. Qed.

(** The deprecated names of normalization.py; the warning has the name of the function that is wrapped. *)
Theorem C55_normalization : forall odd dedent raises (A S R : Type) own_name old_doc (func : callable A S R), own_name <> EmptyString ->
  let w := (ProjectWarning, append "The " (append own_name " function was deprecated in rdtools 2.0.0 and will be removed in 3.0.0.")) in
  exists d, as_deprecated odd dedent raises own_name old_doc func = Ok d /\
    forall a s, d_call d a s = if raises w then ([w], s, Warned w) else (w :: fst (fst (func a s)), snd (fst (func a s)), Returned (snd (func a s))).
Proof. exact as_deprecated_spec. Qed.

Definition no_odd : string -> list (string * string) -> result string := fun _ _ => Raise TypeError.
Definition same_text (s : string) : string := s.
(** [check_series_frequency] as a function with arguments and no state. *)
Definition frequency : callable (option Z * series) unit (result Z) := fun a s => ([], s, check_series_frequency (fun _ => None) (fst a) (snd a)).
Example C55_example : exists d, as_deprecated no_odd same_text (fun _ => false) "_check_series_frequency" "" frequency = Ok d /\
  d_call d (Some 60%Z, []) tt = ([(ProjectWarning, "The _check_series_frequency function was deprecated in rdtools 2.0.0 and will be removed in 3.0.0."%string)], tt, Returned (Ok 60%Z)) /\
  d_call d (None, []) tt = ([(ProjectWarning, "The _check_series_frequency function was deprecated in rdtools 2.0.0 and will be removed in 3.0.0."%string)], tt, Returned (Raise ValueError)).
Proof. eexists. split; [reflexivity|]. split; reflexivity. Qed.
Example C55_messages :
  generate_deprecation_message no_odd "2.0" "" "f%s" "g" true "class" "Sorry." (Falsy "None") = Ok "The f%s class will be deprecated in a future version. Use g instead. Sorry."%string /\
  generate_deprecation_message no_odd "2.0" "" "f" "" false "class" "" (Version "") = Ok "The f class was deprecated in rdtools 2.0 and will be removed soon."%string /\
  generate_deprecation_message no_odd "2.0" "100%% %(func)s: %(removal)s" "f" "" false "class" "" (Version "9") = Ok "100% f: in 9"%string /\
  generate_deprecation_message no_odd "2.0" "%(nothing)s" "f" "" false "class" "" (Version "9") = Raise KeyError /\
  generate_deprecation_message no_odd "2.0" "100%" "f" "" false "class" "" (Version "9") = Raise ValueError /\
  strip (String newline "  a b ") = "a b"%string.
Proof. repeat split. Qed.
Example C55_pieces : let ps := [Text "100"; Percent; Text " "; Value "func"] in Forall plain ps /\ join (map written ps) = "100%% %(func)s"%string /\
  Forall2 (shown (values_of "f" "class" "2.0" "soon" "" "")) ps ["100"; "%"; " "; "f"]%string.
Proof. cbv zeta. split; [repeat constructor; cbn; intuition discriminate|]. split; [reflexivity|]. repeat constructor. Qed.

Example c55_incomplete : insert_values (fun _ _ => Raise TypeError) "gone in %(when" [("when", "2")]%string = Raise ValueError /\
  insert_values (fun _ _ => Raise TypeError) "gone in %(when)" [("when", "2")]%string = Raise ValueError /\ insert_values (fun _ _ => Raise TypeError) "gone 100%" [] = Raise ValueError.
Proof. repeat split. Qed.

Print Assumptions C55_decorated.
Print Assumptions C55_rejected.
Print Assumptions C55_default_message.
Print Assumptions C55_own_message.
Print Assumptions C55_interpolate.
Print Assumptions C55_missing_value.
Print Assumptions C55_documented.
Print Assumptions C55_warn.
Print Assumptions C55_normalization.
Print Assumptions C55_incomplete.
