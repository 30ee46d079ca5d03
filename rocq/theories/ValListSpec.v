(** Specification vocabulary for C86: file name patterns and the order of strings, without
    reference to the matching and sorting functions of the model. *)
From Verif Require Export ValList ValRegistrySpec.
Open Scope string_scope.

(** Order of Python's strings: a proper prefix, or a smaller first different character *)
Inductive str_lt : string -> string -> Prop :=
| lt_prefix c r : str_lt "" (String c r)
| lt_char c d r r' : (nat_of_ascii c < nat_of_ascii d)%nat -> str_lt (String c r) (String d r')
| lt_tail c r r' : str_lt r r' -> str_lt (String c r) (String c r').

(** "[": a set of characters is closed by the first "]" that is not its first character *)
Inductive no_close : string -> Prop :=
| nc_nil : no_close ""
| nc_cons c s : c <> "]"%char -> no_close s -> no_close (String c s).
Definition set_text (p : string) (neg : bool) (body rest : string) : Prop :=
  exists c t, body = String c t /\ no_close t /\ (neg = false -> c <> "!"%char) /\
              p = (if neg then "!" else "") ++ body ++ "]" ++ rest.
(** The members of a set: ranges a-b and characters, read from left to right *)
Definition no_range (s : string) : Prop := forall a b r, s <> String a ("-" ++ String b r).
Inductive in_set : string -> ascii -> Prop :=
| is_range a b r c : (nat_of_ascii a <= nat_of_ascii c <= nat_of_ascii b)%nat -> in_set (String a ("-" ++ String b r)) c
| is_after_range a b r c : in_set r c -> in_set (String a ("-" ++ String b r)) c
| is_char c r : no_range (String c r) -> in_set (String c r) c
| is_after_char a r c : no_range (String a r) -> in_set r c -> in_set (String a r) c.
(** Shell patterns *)
Inductive matches : string -> string -> Prop :=
| m_end : matches "" ""
| m_star_none p s : matches p s -> matches (String "*" p) s
| m_star_more p c s : matches (String "*" p) s -> matches (String "*" p) (String c s)
| m_any p c s : matches p s -> matches (String "?" p) (String c s)
| m_in p body rest c s : set_text p false body rest -> in_set body c -> matches rest s -> matches (String "[" p) (String c s)
| m_out p body rest c s : set_text p true body rest -> ~ in_set body c -> matches rest s -> matches (String "[" p) (String c s)
| m_bracket p s : (forall neg body rest, ~ set_text p neg body rest) -> matches p s -> matches (String "[" p) (String "[" s)
| m_char c p s : c <> "*"%char -> c <> "?"%char -> c <> "["%char -> matches p s -> matches (String c p) (String c s).

(** A text without any of the special characters *)
Definition literal (p : string) : Prop := forall a b c, p = a ++ String c b -> c <> "*"%char /\ c <> "?"%char /\ c <> "["%char.

(** What is shown for a name: the signature of the function and the first line of its
    documentation, if any, below it *)
Definition is_first_line (doc l : string) : Prop :=
  (forall a b, l <> a ++ String "010" b) /\ (doc = l \/ exists rest, doc = l ++ String "010" rest).
Inductive entry_text (name sig : string) : option string -> string -> Prop :=
| et_none : entry_text name sig None (name ++ sig)
| et_empty : entry_text name sig (Some "") (name ++ sig)
| et_doc doc l : doc <> "" -> is_first_line doc l ->
    entry_text name sig (Some doc) (name ++ sig ++ String "010" ("    " ++ l)).
