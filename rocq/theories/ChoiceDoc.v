(** Model of the documentation of choices: Choices.to_docstring and the decorators
    format_function_docstring and format_method_docstring, xoa/misc.py:185-256, with repr, str and
    str.format of ASCII texts. *)
From Coq Require Import DecimalString.
From Verif Require Import Misc.
Open Scope string_scope.

Definition nl : string := String (ascii_of_nat 10) "".
(** [str(choice)], [repr(choice)] *)
Definition show_Z (z : Z) : string := NilEmpty.string_of_int (Z.to_int z).
Definition hex_digit (n : nat) : ascii := ascii_of_nat (if (n <? 10)%nat then 48 + n else 87 + n).
Fixpoint has (c : ascii) (s : string) : bool :=
  match s with EmptyString => false | String d r => Ascii.eqb c d || has c r end.
Definition squote : ascii := ascii_of_nat 39.
Definition dquote : ascii := ascii_of_nat 34.
Definition backslash : ascii := ascii_of_nat 92.
(** CPython, unicode_repr (ASCII) *)
Definition repr_char (q c : ascii) : string :=
  let n := nat_of_ascii c in
  if Ascii.eqb c q || Ascii.eqb c backslash then String backslash (String c "")
  else if (n =? 9)%nat then String backslash "t"
  else if (n =? 10)%nat then String backslash "n"
  else if (n =? 13)%nat then String backslash "r"
  else if (n <? 32)%nat || (n =? 127)%nat then
    String backslash (String "x" (String (hex_digit (n / 16)) (String (hex_digit (n mod 16)) "")))
  else String c "".
Fixpoint repr_chars (q : ascii) (s : string) : string :=
  match s with EmptyString => "" | String c r => repr_char q c ++ repr_chars q r end.
Definition quote_of (s : string) : ascii := if has squote s && negb (has dquote s) then dquote else squote.
Definition repr_str (s : string) : string :=
  let q := quote_of s in String q (repr_chars q s ++ String q "").
Definition repr (v : cval) : string :=
  match v with CvStr s => repr_str s | CvInt z => show_Z z | CvNone => "None" end.
Definition str (v : cval) : string :=
  match v with CvStr s => s | CvInt z => show_Z z | CvNone => "None" end.

(** ** The object: xoa/misc.py:185-203.  The choices are a list, or a dictionary with the
    documentation of each choice.  (None as description is the empty text here.) *)
Inductive given := GList (l : list cval) | GDict (l : list (cval * string)).
Record cdoc := mkcdoc {
  cd_choices : list cval; cd_docs : list (cval * string); cd_parameter : string; cd_description : string }.
(** [self._docs[value] = doc] *)
Fixpoint put (l : list (cval * string)) (v : cval) (d : string) : list (cval * string) :=
  match l with
  | [] => [(v, d)]
  | (w, e) :: r => if cval_eqb v w then (w, d) :: r else (w, e) :: put r v d
  end.
(** [classname]: the name of the class, "Choices" but for subclasses *)
Definition init (g : given) (ci : bool) (parameter : option string) (description classname : string) : cdoc :=
  let '(cs, ds) :=
    match g with
    | GList l => (map (reformat ci) l, [])
    | GDict l => fold_left (fun '(cs, ds) '(v, d) =>
                   let v := reformat ci v in ((cs ++ [v])%list, put ds v d)) l ([], [])
    end in
  mkcdoc cs ds (match parameter with Some p => p | None => lower classname end) description.

(** ** to_docstring: xoa/misc.py:222-246 *)
Inductive indentation := IInt (z : Z) | IStr (s : string).
Fixpoint spaces (n : nat) : string := match n with O => "" | S n => String " " (spaces n) end.
Definition indent_of (i : indentation) : string :=
  match i with IInt z => spaces (Z.to_nat z) | IStr s => s end.
Definition doc_line (pindent : string) (e : cval * string) : string :=
  pindent ++ "- ``" ++ str (fst e) ++ "``: " ++ snd e ++ nl.
Definition to_docstring (c : cdoc) (i : indentation) : string :=
  let indent := indent_of i in
  let pindent := indent ++ spaces 4 in
  let types := "{" ++ join ", " (map repr (cd_choices c)) ++ "}" in
  let rst := indent ++ cd_parameter c ++ ": " ++ types ++ nl in
  let rst := if String.eqb (cd_description c) "" then rst else rst ++ pindent ++ cd_description c ++ nl in
  match cd_docs c with
  | [] => rst
  | ds => (rst ++ nl ++ String.concat "" (map (doc_line pindent) ds)) ++ nl
  end.

(** ** [text.format] with the parameter as only keyword: CPython, MarkupIterator_next and parse_field *)
Inductive mode :=
| Lit                                   (* literal text *)
| Open | Close                          (* after a first brace *)
| Name (n : string)                     (* in the name of a field *)
| Path (n r : string)                   (* after a dot, or after an index *)
| Index (n r : string)                  (* in brackets *)
| Conv (n r : string)                   (* after an exclamation mark *)
| AfterConv (n r : string)
| Spec (n r : string) (depth : nat).    (* after a colon; braces may be nested *)
Inductive act := Go (m : mode) | Emit (c : ascii) (m : mode) | Field (n r : string) | Bad.
Definition snoc (s : string) (c : ascii) : string := s ++ String c "".
Definition step_name (n : string) (c : ascii) : act :=
  if Ascii.eqb c "{" then Bad
  else if Ascii.eqb c "}" then Field n ""
  else if Ascii.eqb c "[" then Go (Index n "[")
  else if Ascii.eqb c "." then Go (Path n ".")
  else if Ascii.eqb c "!" then Go (Conv n "!")
  else if Ascii.eqb c ":" then Go (Spec n ":" 0)
  else Go (Name (snoc n c)).
Definition step (m : mode) (c : ascii) : act :=
  match m with
  | Lit => if Ascii.eqb c "{" then Go Open else if Ascii.eqb c "}" then Go Close else Emit c Lit
  | Open => if Ascii.eqb c "{" then Emit c Lit else step_name "" c
  | Close => if Ascii.eqb c "}" then Emit c Lit else Bad
  | Name n => step_name n c
  | Path n r =>
    if Ascii.eqb c "{" then Bad
    else if Ascii.eqb c "}" then Field n r
    else if Ascii.eqb c "[" then Go (Index n (snoc r c))
    else if Ascii.eqb c "!" then Go (Conv n (snoc r c))
    else if Ascii.eqb c ":" then Go (Spec n (snoc r c) 0)
    else Go (Path n (snoc r c))
  | Index n r => if Ascii.eqb c "]" then Go (Path n (snoc r c)) else Go (Index n (snoc r c))
  | Conv n r => Go (AfterConv n (snoc r c))
  | AfterConv n r =>
    if Ascii.eqb c "}" then Field n r else if Ascii.eqb c ":" then Go (Spec n (snoc r c) 0) else Bad
  | Spec n r d =>
    if Ascii.eqb c "{" then Go (Spec n (snoc r c) (S d))
    else if Ascii.eqb c "}" then match d with O => Field n r | S d => Go (Spec n (snoc r c) d) end
    else Go (Spec n (snoc r c) d)
  end.
Definition digit (c : ascii) : bool := (48 <=? nat_of_ascii c)%nat && (nat_of_ascii c <=? 57)%nat.
Fixpoint digits (s : string) : bool := match s with EmptyString => true | String c r => digit c && digits r end.
Section Format.
(** [extra r]: the text of a field made of the name of the parameter and [r], a path of attributes and
    indices, a conversion or a format: not modelled, any function *)
Variables (parameter value : string) (extra : string -> res string).
(** A field: an empty name or a number is positional, and there is no positional argument.
    (Simplification: numbers larger than a machine word are a ValueError.) *)
Definition field (n r : string) : res string :=
  if digits n then Raise IndexError
  else if String.eqb n parameter then (if String.eqb r "" then Ok value else extra r)
  else Raise KeyError.
Fixpoint run (m : mode) (s : string) : res string :=
  match s with
  | EmptyString => match m with Lit => Ok "" | _ => Raise ValueError end
  | String c s =>
    match step m c with
    | Go m => run m s
    | Emit c m => let* t := run m s in Ok (String c t)
    | Field n r => let* v := field n r in let* t := run Lit s in Ok (v ++ t)
    | Bad => Raise ValueError
    end
  end.
Definition format (s : string) : res string := run Lit s.
End Format.

(** ** The decorators: xoa/misc.py:248-256.  [doc]: the documentation of the function, maybe none.  The
    result is the new documentation; when it fails, the function keeps its documentation. *)
Definition decorate (extra : string -> res string) (c : cdoc) (i : indentation) (doc : option string) : res string :=
  match doc with
  | None => Raise AttributeError                      (* None has no format *)
  | Some s => format (cd_parameter c) (to_docstring c i) extra s
  end.
Definition format_function_docstring extra (c : cdoc) (doc : option string) : res string := decorate extra c (IInt 4) doc.
Definition format_method_docstring extra (c : cdoc) (doc : option string) : res string := decorate extra c (IInt 8) doc.
