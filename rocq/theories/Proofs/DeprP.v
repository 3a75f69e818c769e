(** Deprecation messages and deprecated functions. *)

From Coq Require Import List ZArith Bool Arith String Ascii Lia.
From Verif.Base Require Import Fl.
From Verif.Spec Require Import Deprecation.
From Verif.Model Require Import Deprecation.
Import ListNotations.
Open Scope list_scope.

Lemma append_assoc : forall a b c : string, append (append a b) c = append a (append b c).
Proof. induction a as [|x a IH]; intros; cbn; [reflexivity|]. rewrite IH. reflexivity. Qed.
Lemma append_nil : forall a : string, append a EmptyString = a.
Proof. induction a as [|x a IH]; cbn; [reflexivity|]. rewrite IH. reflexivity. Qed.
Lemma length_append : forall a b : string, String.length (append a b) = (String.length a + String.length b)%nat.
Proof. induction a as [|x a IH]; intros; cbn; [reflexivity|]. rewrite IH. reflexivity. Qed.

Definition after_text (p : string) (o : option (result string)) : option (result string) := match o with Some (Ok t) => Some (Ok (append p t)) | o => o end.
Lemma render_text : forall s, lacks "%" s -> forall n values rest, render (String.length s + n) values (append s rest) = after_text s (render n values rest).
Proof.
  induction s as [|c s IH]; intros L n values rest.
  - cbn. destruct (render n values rest) as [[t|e]|]; reflexivity.
  - destruct L as [N L]. cbn [String.length Nat.add append render]. destruct (Ascii.eqb_spec c percent) as [E|_]; [contradiction|]. rewrite (IH L). destruct (render n values rest) as [[t|e]|]; reflexivity.
Qed.
Lemma key_of_spec : forall k, lacks "(" k -> lacks ")" k -> forall rest, key_of (append k (String ")" rest)) = Some (Some (k, rest)).
Proof.
  induction k as [|c k IH]; intros L1 L2 rest; [reflexivity|]. destruct L1 as [N1 L1], L2 as [N2 L2]. cbn [append key_of]. destruct (Ascii.eqb_spec c ")") as [E|_]; [contradiction|]. destruct (Ascii.eqb_spec c "(") as [E|_]; [contradiction|]. rewrite (IH L1 L2). reflexivity.
Qed.
Lemma render_value : forall k, lacks "(" k -> lacks ")" k -> forall n values rest,
  render (S n) values (append (written (Value k)) rest) = match value_of values k with Ok v => after_text v (render n values rest) | Raise e => Some (Raise e) end.
Proof.
  intros k L1 L2 n values rest. cbn [written]. cbn [append render]. change (Ascii.eqb "%" percent) with true. cbn iota. change (Ascii.eqb "(" percent) with false. change (Ascii.eqb "(" "(") with true. cbn iota.
  rewrite append_assoc. change (append ")s" rest) with (String ")" (String "s" rest)). rewrite (key_of_spec k L1 L2). cbn iota. destruct (value_of values k) as [v|e]; [|reflexivity]. change (Ascii.eqb "s" "s") with true. cbn iota. destruct (render n values rest) as [[t|e]|]; reflexivity.
Qed.
Lemma render_fuel : forall n values s, (String.length s <= n)%nat -> forall m, (String.length s <= m)%nat -> render n values s = render m values s.
Proof.
  assert (KL : forall s k r, key_of s = Some (Some (k, r)) -> (String.length r < String.length s)%nat).
  { induction s as [|c s IH]; intros k r E; cbn in E; [discriminate E|]. destruct (Ascii.eqb c ")"); [injection E as <- <-; cbn; lia|]. destruct (Ascii.eqb c "("); [discriminate E|]. destruct (key_of s) as [[[k' r']|]|] eqn:EK; try discriminate E. injection E as <- <-. specialize (IH _ _ eq_refl). cbn. lia. }
  induction n as [|n IH]; intros values s L m M.
  - destruct s; [destruct m; reflexivity|cbn in L; lia].
  - destruct s as [|c r]; [destruct m; reflexivity|]. destruct m as [|m]; [cbn in M; lia|]. cbn [String.length] in L, M. cbn [render]. destruct (Ascii.eqb c percent).
    + destruct r as [|c' r']; [reflexivity|]. cbn [String.length] in L, M. destruct (Ascii.eqb c' percent); [rewrite (IH values r' ltac:(lia) m ltac:(lia)); reflexivity|]. destruct (Ascii.eqb c' "("); [|reflexivity].
      destruct (key_of r') as [[[k rest]|]|] eqn:EK; try reflexivity. destruct (value_of values k) as [v|e]; [|reflexivity]. destruct rest as [|c'' rest']; [reflexivity|]. destruct (Ascii.eqb c'' "s"); [|reflexivity]. apply KL in EK. cbn [String.length] in EK.
      rewrite (IH values rest' ltac:(lia) m ltac:(lia)). reflexivity.
    + rewrite (IH values r ltac:(lia) m ltac:(lia)). reflexivity.
Qed.

(** The last value given for a key does not matter if keys are distinct. *)
Definition keyed (values : list (string * string)) : Prop := NoDup (map fst values).
Lemma value_of_In : forall values k v, keyed values -> In (k, v) values -> value_of values k = Ok v.
Proof.
  intros values k v D I. unfold value_of. induction values as [|[a b] l IH]; [destruct I|]. inversion D as [|x y NI D']; subst. cbn [find fst]. destruct (String.eqb_spec a k) as [->|N].
  - destruct I as [E|I]; [injection E as ->; reflexivity|]. contradiction NI. apply (in_map fst) in I. exact I.
  - destruct I as [E|I]; [injection E as -> ->; contradiction|]. apply (IH D' I).
Qed.
Lemma value_of_missing : forall values k, ~ In k (map fst values) -> value_of values k = Raise KeyError.
Proof.
  intros values k N. unfold value_of. destruct (find (fun p => String.eqb (fst p) k) values) as [p|] eqn:E; [|reflexivity]. apply find_some in E. destruct E as [I E]. apply String.eqb_eq in E. contradiction N. rewrite <- E. apply in_map. exact I.
Qed.
Definition join (l : list string) : string := fold_right append EmptyString l.

Lemma render_pieces : forall values ps rest, Forall plain ps -> forall n, (String.length (join (map written ps)) + String.length rest <= n)%nat -> keyed values ->
  (forall rs, Forall2 (shown values) ps rs -> render n values (append (join (map written ps)) rest) = after_text (join rs) (render n values rest)).
Proof.
  intros values. induction ps as [|p ps IH]; intros rest F n L K rs S; inversion S as [|? r ? rs' H1 H2]; subst.
  - cbn. destruct (render n values rest) as [[t|e]|]; reflexivity.
  - inversion F as [|? ? P F']; subst. cbn [map join fold_right] in L. fold (join (map written ps)) in L. rewrite length_append in L. cbn [map join fold_right]. fold (join (map written ps)). fold (join rs'). rewrite append_assoc.
    assert (G : exists m, render n values (append (written p) (append (join (map written ps)) rest)) = after_text r (render m values (append (join (map written ps)) rest)) /\ (String.length (join (map written ps)) + String.length rest <= m)%nat).
    { destruct p as [s|k|]; cbn [plain shown written] in *.
      - subst r. exists (n - String.length s)%nat. split; [|lia]. rewrite <- (render_text s P). f_equal. lia.
      - destruct P as [P1 P2]. change (append "%(" (append k ")s")) with (written (Value k)) in *. cbn [written] in L. rewrite !length_append in L. cbn [String.length] in L.
        exists (n - 1)%nat. split; [|lia]. replace n with (Datatypes.S (n - 1)) at 1 by lia. rewrite (render_value k P1 P2), (value_of_In _ _ _ K H1). reflexivity.
      - subst r. cbn [String.length] in L. exists (n - 1)%nat. split; [|lia]. replace n with (Datatypes.S (n - 1)) at 1 by lia. cbn [append render]. change (Ascii.eqb "%" percent) with true. cbn iota. destruct (render (n - 1) values _) as [[t|e]|]; reflexivity. }
    destruct G as (m & G & M). rewrite G, (IH rest F' m M K rs' H2). rewrite (render_fuel m values rest ltac:(lia) n ltac:(lia)). destruct (render n values rest) as [[t|e]|]; cbn [after_text]; [rewrite append_assoc|..]; reflexivity.
Qed.
Theorem insert_spec : forall odd values ps rs, Forall plain ps -> keyed values -> Forall2 (shown values) ps rs -> insert_values odd (join (map written ps)) values = Ok (join rs).
Proof.
  intros odd values ps rs F K S. unfold insert_values. pose proof (render_pieces values ps EmptyString F (String.length (join (map written ps))) ltac:(cbn; lia) K rs S) as R. rewrite append_nil in R. rewrite R.
  destruct (String.length (join (map written ps))); cbn [render after_text]; rewrite append_nil; reflexivity.
Qed.
Theorem insert_missing : forall odd values ps rs k rest, Forall plain ps -> keyed values -> Forall2 (shown values) ps rs -> plain (Value k) -> ~ In k (map fst values) ->
  insert_values odd (append (join (map written ps)) (append (written (Value k)) rest)) values = Raise KeyError.
Proof.
  intros odd values ps rs k rest F K S [P1 P2] N. unfold insert_values. set (n := String.length _).
  rewrite (render_pieces values ps (append (written (Value k)) rest) F n ltac:(unfold n; rewrite !length_append; lia) K rs S).
  assert (E : n = Datatypes.S (n - 1)) by (unfold n; rewrite !length_append; cbn; lia). rewrite E, (render_value k P1 P2), (value_of_missing _ _ N). reflexivity.
Qed.
(** A message that ends inside a value to insert: after the percent sign, within the name, or after it. *)
Lemma key_of_open : forall k, lacks "(" k -> lacks ")" k -> key_of k = Some None.
Proof.
  induction k as [|c k IH]; intros L1 L2; [reflexivity|]. destruct L1 as [N1 L1], L2 as [N2 L2]. cbn [key_of]. destruct (Ascii.eqb_spec c ")") as [E|_]; [contradiction|]. destruct (Ascii.eqb_spec c "(") as [E|_]; [contradiction|]. rewrite (IH L1 L2). reflexivity.
Qed.
Theorem insert_incomplete : forall odd values ps rs k v rest, Forall plain ps -> keyed values -> Forall2 (shown values) ps rs -> plain (Value k) ->
  rest = "%"%string \/ rest = append "%(" k \/ In (k, v) values /\ rest = append "%(" (append k ")") ->
  insert_values odd (append (join (map written ps)) rest) values = Raise ValueError.
Proof.
  intros odd values ps rs k v rest F K S [P1 P2] R. unfold insert_values. set (n := String.length _).
  rewrite (render_pieces values ps rest F n ltac:(unfold n; rewrite !length_append; lia) K rs S).
  assert (E : n = Datatypes.S (n - 1)) by (unfold n; rewrite !length_append; destruct R as [-> | [-> | [_ ->]]]; cbn; lia). rewrite E. clear E.
  destruct R as [-> | [-> | [I ->]]]; [reflexivity | |]; cbn [append render]; change (Ascii.eqb "%" percent) with true; cbn iota; change (Ascii.eqb "(" percent) with false; change (Ascii.eqb "(" "(") with true; cbn iota.
  - rewrite (key_of_open k P1 P2). reflexivity.
  - rewrite (key_of_spec k P1 P2). cbn iota. rewrite (value_of_In _ _ _ K I). reflexivity.
Qed.

(** ** Messages *)
Lemma nonempty_false : forall s, nonempty s = false <-> s = EmptyString.
Proof. intros s. unfold nonempty. destruct (String.eqb_spec s EmptyString); cbn; split; congruence. Qed.
Definition values_of (name obj_type since removal alternative addendum : string) : list (string * string) :=
  [("func", name); ("name", name); ("obj_type", obj_type); ("since", since); ("removal", removal); ("alternative", alternative); ("addendum", addendum); ("projectName", "rdtools")]%string.
Theorem rejected : forall odd since message name alternative obj_type addendum s, s <> EmptyString ->
  generate_deprecation_message odd since message name alternative true obj_type addendum (Version s) = Raise ValueError.
Proof. intros. unfold generate_deprecation_message. destruct (nonempty s) eqn:E; [reflexivity|]. apply nonempty_false in E. contradiction. Qed.
(** The sentence for no message of one's own. *)
Definition sentence (since name alternative : string) (pending : bool) (obj_type addendum : string) (removal : removal_argument) : string :=
  append "The " (append name (append " " (append obj_type (append
    (if pending then " will be deprecated in a future version"
     else append " was deprecated in rdtools " (append since match removal with Version s => append " and will be removed " (if string_dec s "" then "soon" else append "in " s) | Falsy _ => "" end)) (append "." (append
    (if string_dec alternative "" then "" else append " Use " (append alternative " instead."))
    (if string_dec addendum "" then "" else append " " addendum)))))))%string.
Theorem default_message : forall odd since name alternative (pending : bool) obj_type addendum removal, (pending = true -> forall s, removal = Version s -> s = EmptyString) ->
  generate_deprecation_message odd since "" name alternative pending obj_type addendum removal = Ok (sentence since name alternative pending obj_type addendum removal).
Proof.
  intros odd since name alternative pending obj_type addendum removal H. unfold generate_deprecation_message, sentence.
  destruct removal as [s|s].
  - assert (E : (if nonempty s then if pending then Raise ValueError else Ok (append "in " s, true) else Ok ("soon"%string, true)) = Ok (if string_dec s "" then "soon"%string else append "in " s, true)).
    { unfold nonempty. destruct (String.eqb_spec s EmptyString) as [->|N]; [reflexivity|]. cbn. destruct pending; [contradiction N; apply (H eq_refl s eq_refl)|]. destruct (string_dec s ""); [contradiction|reflexivity]. }
    rewrite E. cbn [bind]. set (r := if string_dec s "" then "soon"%string else append "in " s). change (nonempty "") with false. cbn iota.
    destruct pending; unfold nonempty; (destruct (String.eqb_spec alternative EmptyString) as [->|NA]; [|destruct (string_dec alternative ""); [contradiction|]]);
      (destruct (String.eqb_spec addendum EmptyString) as [->|ND]; [|destruct (string_dec addendum ""); [contradiction|]]); cbn [negb]; unfold insert_values; cbn; rewrite ?append_nil; repeat (rewrite append_assoc; cbn [append]); reflexivity.
  - cbn [bind]. change (nonempty "") with false. cbn iota.
    destruct pending; unfold nonempty; (destruct (String.eqb_spec alternative EmptyString) as [->|NA]; [|destruct (string_dec alternative ""); [contradiction|]]);
      (destruct (String.eqb_spec addendum EmptyString) as [->|ND]; [|destruct (string_dec addendum ""); [contradiction|]]); cbn [negb]; unfold insert_values; cbn; rewrite ?append_nil; repeat (rewrite append_assoc; cbn [append]); reflexivity.
Qed.
Theorem own_message : forall odd since name alternative (pending : bool) obj_type addendum removal ps rs, (pending = true -> forall s, removal = Version s -> s = EmptyString) ->
  Forall plain ps -> join (map written ps) <> EmptyString ->
  Forall2 (shown (values_of name obj_type since match removal with Falsy s => s | Version s => if string_dec s "" then "soon"%string else append "in " s end alternative addendum)) ps rs ->
  generate_deprecation_message odd since (join (map written ps)) name alternative pending obj_type addendum removal = Ok (join rs).
Proof.
  intros odd since name alternative pending obj_type addendum removal ps rs H F N S. unfold generate_deprecation_message.
  assert (E : match removal with Falsy s => Ok (s, false) | Version s => if nonempty s then if pending then Raise ValueError else Ok (append "in " s, true) else Ok ("soon"%string, true) end = Ok (match removal with Falsy s => s | Version s => if string_dec s "" then "soon"%string else append "in " s end, match removal with Falsy _ => false | _ => true end)).
  { destruct removal as [s|s]; [|reflexivity]. unfold nonempty. destruct (String.eqb_spec s EmptyString) as [->|NE]; [reflexivity|]. cbn. destruct pending; [contradiction NE; apply (H eq_refl s eq_refl)|]. destruct (string_dec s ""); [contradiction|reflexivity]. }
  rewrite E. cbn [bind]. destruct (nonempty (join (map written ps))) eqn:NE; [|apply nonempty_false in NE; contradiction]. apply insert_spec; [exact F| |exact S]. unfold keyed. cbn. repeat constructor; cbn; intuition discriminate.
Qed.

(** ** Stripping *)
Lemma is_blank_spec : forall c, is_blank c = true <-> blank c.
Proof.
  intros c. unfold is_blank, blank. set (n := nat_of_ascii c). rewrite !orb_true_iff, !andb_true_iff, !Nat.leb_le, !Nat.eqb_eq. lia.
Qed.
Lemma drop_while_spec : forall p l, exists a, l = a ++ drop_while p l /\ Forall (fun c => p c = true) a /\ (forall c r, drop_while p l = c :: r -> p c = false).
Proof.
  intros p. induction l as [|c l (a & E & F & H)]; [exists []; repeat split; [constructor|intros c r C; discriminate C]|]. cbn [drop_while]. destruct (p c) eqn:EP.
  - exists (c :: a). split; [cbn; f_equal; exact E|]. split; [constructor; assumption|exact H].
  - exists []. split; [reflexivity|]. split; [constructor|]. intros c' r C. injection C as <- <-. exact EP.
Qed.
Theorem strip_chars_spec : forall p (P : ascii -> Prop), (forall c, p c = true <-> P c) -> forall s, stripped P s (strip_chars p s).
Proof.
  intros p P HP s. unfold strip_chars, stripped. rewrite list_ascii_of_string_of_list_ascii. set (l := list_ascii_of_string s). destruct (drop_while_spec p l) as (a & E1 & F1 & H1). set (m := drop_while p l) in *.
  destruct (drop_while_spec p (rev m)) as (b & E2 & F2 & H2). set (r := drop_while p (rev m)) in *. assert (EM : m = rev r ++ rev b) by (rewrite <- (rev_involutive m), E2, rev_app_distr; reflexivity).
  exists a, (rev b). split; [rewrite <- EM; exact E1|]. split; [apply (Forall_impl _ (fun c => proj1 (HP c))), F1|]. split; [apply (Forall_impl _ (fun c => proj1 (HP c))), Forall_rev, F2|]. split.
  - intros c t E. intros B. apply HP in B. assert (H := H1 c (t ++ rev b)). rewrite EM, E in H. specialize (H eq_refl). congruence.
  - intros c t E. intros B. apply HP in B. assert (ER : r = c :: rev t) by (rewrite <- (rev_involutive r), E, rev_app_distr; reflexivity). specialize (H2 c (rev t) ER). congruence.
Qed.

(** ** Decorated functions *)
Theorem decorated_spec : forall odd dedent raises since message name alternative (pending : bool) addendum removal (A S R : Type) obj own_name old_doc (func : callable A S R),
  let the_name := if string_dec name "" then own_name else Some name in
  let the_type := match obj with AClass => "class" | _ => "function" end%string in
  match the_name with
  | None => deprecated odd dedent raises since message name alternative pending addendum removal obj own_name old_doc func = Raise AttributeError
  | Some n =>
    match generate_deprecation_message odd since message n alternative pending the_type addendum removal with
    | Raise e => deprecated odd dedent raises since message name alternative pending addendum removal obj own_name old_doc func = Raise e
    | Ok text => exists d t, deprecated odd dedent raises since message name alternative pending addendum removal obj own_name old_doc func = Ok d /\ stripped blank text t /\
        let w := (if pending then PendingWarning else ProjectWarning, t) in d_warning d = w /\
        forall a s, d_call d a s = if raises w then ([w], s, Warned w) else (w :: fst (fst (func a s)), snd (fst (func a s)), Returned (snd (func a s)))
    end
  end.
Proof.
  intros odd dedent raises since message name alternative pending addendum removal A S R obj own_name old_doc func the_name the_type.
  assert (E : (if nonempty name then Ok name else match own_name with Some n => Ok n | None => Raise AttributeError end) = match the_name with Some n => Ok n | None => Raise AttributeError end).
  { unfold the_name, nonempty. destruct (String.eqb_spec name EmptyString) as [->|N]; [reflexivity|]. cbn. destruct (string_dec name ""); [contradiction|reflexivity]. }
  unfold deprecated. rewrite E. destruct the_name as [n|]; [|reflexivity]. cbn [bind]. change (match obj with AClass => "class"%string | _ => "function"%string end) with the_type.
  destruct (generate_deprecation_message odd since message n alternative pending the_type addendum removal) as [text|e]; [|reflexivity]. cbn [bind]. eexists. exists (strip text). split; [reflexivity|]. split; [apply strip_chars_spec, is_blank_spec|]. cbn. split; [reflexivity|].
  intros a s. fold (category_of pending). destruct (raises (category_of pending, strip text)); [reflexivity|]. destruct (func a s) as [[ws s'] r]. reflexivity.
Qed.
Theorem documented : forall odd dedent raises since message name alternative (pending : bool) addendum removal (A S R : Type) obj own_name old_doc (func : callable A S R) d,
  deprecated odd dedent raises since message name alternative pending addendum removal obj own_name old_doc func = Ok d ->
  exists doc, stripped (fun c => c = newline) (dedent old_doc) doc /\
    let nl := String newline EmptyString in
    d_doc d = append (append nl (append ".. deprecated:: " (append since (append nl (append "    " (append (snd (d_warning d)) (append nl nl))))))) (if string_dec doc "" then "\ " else doc)%string.
Proof.
  intros odd dedent raises since message name alternative pending addendum removal A S R obj own_name old_doc func d E. unfold deprecated in E.
  destruct (if nonempty name then Ok name else match own_name with Some n => Ok n | None => Raise AttributeError end) as [n|]; [|discriminate E]. cbn [bind] in E.
  destruct (generate_deprecation_message _ _ _ _ _ _ _ _ _) as [text|]; [|discriminate E]. cbn [bind] in E. set (doc := strip_chars (Ascii.eqb newline) (dedent old_doc)) in *.
  exists doc. split; [apply strip_chars_spec; intros c; rewrite Ascii.eqb_eq; split; congruence|]. injection E as <-. cbn [d_doc d_warning snd]. unfold nonempty. destruct (String.eqb_spec doc EmptyString) as [->|N].
  - cbn [negb]. destruct (string_dec "" "") as [_|C]; [|contradiction]. rewrite append_nil. reflexivity.
  - cbn [negb]. destruct (string_dec doc ""); [contradiction|]. reflexivity.
Qed.
Theorem warn_deprecated_spec : forall odd since message name alternative pending obj_type addendum removal,
  warn_deprecated odd since message name alternative pending obj_type addendum removal =
  match generate_deprecation_message odd since message name alternative pending obj_type addendum removal with
  | Ok text => Ok (if pending then PendingWarning else ProjectWarning, append (String newline "") text)
  | Raise e => Raise e
  end.
Proof. intros. unfold warn_deprecated. destruct (generate_deprecation_message _ _ _ _ _ _ _ _ _); reflexivity. Qed.

(** The two deprecated names of normalization.py. *)
Theorem as_deprecated_spec : forall odd dedent raises (A S R : Type) own_name old_doc (func : callable A S R), own_name <> EmptyString ->
  let w := (ProjectWarning, append "The " (append own_name " function was deprecated in rdtools 2.0.0 and will be removed in 3.0.0.")) in
  exists d, as_deprecated odd dedent raises own_name old_doc func = Ok d /\
    forall a s, d_call d a s = if raises w then ([w], s, Warned w) else (w :: fst (fst (func a s)), snd (fst (func a s)), Returned (snd (func a s))).
Proof.
  intros odd dedent raises A S R own_name old_doc func N w.
  pose proof (decorated_spec odd dedent raises "2.0.0" "" "" "" false "" (Version "3.0.0") A S R AFunction (Some own_name) old_doc func) as H. cbn zeta in H. destruct (string_dec "" "") as [_|C]; [|contradiction].
  rewrite default_message in H by discriminate. destruct H as (d & t & E & ST & _ & H). exists d. split; [exact E|].
  assert (ET : t = snd w).
  { destruct ST as (b & l & EL & FB & FL & H1 & H2). cbn [snd w]. set (whole := append "The " _). assert (EW : list_ascii_of_string whole = b ++ list_ascii_of_string t ++ l) by exact EL.
    assert (EF : exists mid, list_ascii_of_string whole = "T"%char :: mid ++ ["."%char]).
    { assert (LA : forall x y, list_ascii_of_string (append x y) = list_ascii_of_string x ++ list_ascii_of_string y) by (induction x as [|c x IH]; intros y; cbn; [reflexivity|rewrite IH; reflexivity]).
      unfold whole. rewrite !LA. exists (list_ascii_of_string "he " ++ list_ascii_of_string own_name ++ list_ascii_of_string " function was deprecated in rdtools 2.0.0 and will be removed in 3.0.0"). cbn. rewrite <- app_assoc. reflexivity. }
    destruct EF as (mid & EF). assert (NB : forall c, c = "T"%char \/ c = "."%char -> ~ blank c) by (intros c [->| ->] B; apply is_blank_spec in B; discriminate B).
    assert (B0 : b = []). { destruct b as [|c b]; [reflexivity|]. rewrite EF in EW. injection EW as <- _. inversion FB; subst. exfalso. apply (NB "T"%char); auto. }
    assert (L0 : l = []). { destruct l as [|c l] using rev_ind; [reflexivity|]. rewrite EF, !app_assoc, app_comm_cons in EW. apply app_inj_tail in EW. destruct EW as [_ <-]. apply Forall_app in FL. destruct FL as [_ FL]. inversion FL; subst. exfalso. apply (NB "."%char); auto. }
    subst b l. rewrite app_nil_r in EW. cbn [app] in EW. apply (f_equal string_of_list_ascii) in EW. rewrite !string_of_list_ascii_of_string in EW. symmetry. exact EW. }
  intros a s. rewrite H, ET. reflexivity.
Qed.
