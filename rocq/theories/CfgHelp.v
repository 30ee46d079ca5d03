(** Model of the help of the command line options: _shelp_ and _sdefault_, xoa/cfgm.py:1835-1899,
    and of what argparse shows of it (HelpFormatter._expand_help: [help % params]).

    Simplifications: a default value is given by its text, or by the list of the texts of its
    items; in the expansion by argparse, the conversions other than %% are errors (so are most
    of them: they only matter when a comment holds a %). *)
From Verif Require Export ValScalar.
Open Scope string_scope.

Inductive hvalue := HText (s : string) | HList (l : list string).
Inductive hmode := HInline | HAbove | HMerge | HAuto.
(** lines 1856-1857 *)
Definition is_sharp (c : ascii) : bool := Ascii.eqb c "#".
Definition clean (c : string) : string := strip (strip_set is_sharp (strip c)).
(** lines 1859-1878: [above] are the comment lines above the option, [inline] its inline comment
    if any (None otherwise) *)
Definition used (mode : hmode) (above : list string) (inline : option string) : list string :=
  let abcoms := map clean above in
  let incoms := match inline with Some c => [clean c] | None => [] end in
  match mode with
  | HMerge => (abcoms ++ incoms)%list
  | HAuto => match incoms with [] => abcoms | _ => incoms end
  | HAbove => abcoms
  | HInline => incoms
  end.
(** lines 1875-1876 *)
Definition add_dot (c : string) : string := if ends_with_char c "." then c else c ++ ".".
(** lines 1889-1899; [None] is shown as "None" by the format *)
Definition is_paren (c : ascii) : bool := Ascii.eqb c "(" || Ascii.eqb c ")".
Fixpoint escape (s : string) : string :=
  match s with
  | "" => ""
  | String c s' => if Ascii.eqb c "%" then String "%" (String "%" (escape s')) else String c (escape s')
  end.
Definition sdefault (v : hvalue) : option string :=
  let d := match v with HList l => join_with "," l | HText s => strip_set is_paren s end in
  let d := escape d in
  if String.eqb d "None" then None else Some d.
Definition eol : string := String "010"%char "".
(** lines 1835-1886 *)
Definition shelp (mode : hmode) (undoc : string) (adddot : bool) (above : list string) (inline : option string) (v : hvalue) : string :=
  let comments := used mode above inline in
  let comments := if adddot then map add_dot comments else comments in
  let shelp := join_with eol comments in
  let shelp := if nonempty shelp then shelp else undoc in
  shelp ++ " [default: " ++ match sdefault v with Some d => d | None => "None" end ++ "]".

(** argparse: [help % params], where [params] is a dictionary.  Simplification: the conversions (%s,
    %(name)s...) are not modelled, and count as an error. *)
Fixpoint expand (s : string) : res string :=
  match s with
  | "" => Ok ""
  | String c s' =>
    if Ascii.eqb c "%" then
      match s' with
      | String d s'' => if Ascii.eqb d "%" then let* r := expand s'' in Ok (String "%" r) else Raise ValueError
      | "" => Raise ValueError
      end
    else let* r := expand s' in Ok (String c r)
  end.
