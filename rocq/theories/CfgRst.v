(** Model of cfg2rst: xoa/cfgm.py:1987-1990 (_redent), 1993-2063 (cfg2rst) and 2066-2135 (_walker_cfg2rst_), with
    get_sec_names (1946-1954, CfgNames.v) and the walk of configobj (options first, then sections, the section being
    visited before what it holds; exceptions are let through).
    Simplifications: the default formats of the directives; only ASCII letters have a case; what the validator parses
    (get_spec, lines 1687-1697) is given by a function. *)
From Verif Require Export CfgNames PyRe ValScalar.
Open Scope string_scope.
Open Scope nat_scope.

Definition nl : ascii := "010".
Definition snl : string := String nl "".
(** The value of an option: a text, a list (the texts of its elements), or something else (its text) *)
Inductive rval := RText (s : string) | RList (l : list string) | ROther (shown : string).
(** A section of a configuration: its options, its subsections and its inline comments *)
Inductive conf := Conf (opts : list (string * rval)) (subs : list (string * conf)) (inline : dict string).
(** What get_spec returns *)
Record optspec := mkospec { o_default : rval; o_func : string; o_args : list string; o_kwargs : dict rval }.
Inductive rmode := RBasic | RValues | RSpecs | RBad.

(** lines 1987-1990 *)
Fixpoint spaces (n : nat) : string := match n with O => "" | S n => "    " ++ spaces n end.
Definition redent (text : string) (n : nat) : string := join snl (map (fun line => spaces n ++ line) (split_on nl text)).

(** lines 2108-2111: lists are joined *)
Definition joined (v : rval) : rval := match v with RList l => RText (join ", " l) | _ => v end.
(** lines 2124-2127 *)
Definition shown (v : rval) : string := match v with RText "" => " " | RText s => s | RList l => join ", " l | ROther s => s end.
Definition item_line (kv : string * rval) : string := "| " ++ fst kv ++ ": ``" ++ shown (joined (snd kv)) ++ "``" ++ snl.
Definition value_text (v : rval) : string := match v with RText s => s | RList l => join ", " l | ROther s => s end.
Section rst.
Variable parse : string -> res optspec.
Variables (optrole secrole : string) (mode : rmode).
(** lines 2092-2107 *)
Definition items (name : string) (v : rval) : res (dict rval) :=
  match mode with
  | RBasic => Ok []
  | RValues => Ok [("default", v)]
  | RSpecs =>
    let* sp := parse (value_text v) in
    let d := [("default", o_default sp); ("type", RText (o_func sp))] in
    let d := match o_args sp with [] => d | a => dset d (if String.eqb name "choice" then "possible choices" else "args") (RList a) end in
    Ok (match o_kwargs sp with [] => d | kw => dupdate d kw end)
  | RBad => Raise AssertionError
  end.
(** lines 2114-2117 *)
Definition sharp (c : ascii) : bool := Ascii.eqb c "#".
Definition describe (inline : dict string) (key : string) : string :=
  capitalize (strip (strip_set sharp (match dget inline key with Some c => c | None => "" end))).
(** lines 2119-2135 *)
Definition directive (s : sect) (conftype name desc : string) (its : dict rval) : string :=
  let desc := match its with [] => desc | _ => String.concat "" (map item_line its) ++ snl ++ desc end in
  redent (".. " ++ conftype ++ ":: " ++ name ++ snl ++ snl ++ redent desc 1 ++ snl) (depth s).
(** lines 2078-2091 *)
Definition option_text (s : sect) (inline : dict string) (kv : string * rval) : res string :=
  let name := match get_sec_names s with [] => fst kv | l => "[" ++ join "][" l ++ "] " ++ fst kv end in
  let* its := items name (snd kv) in
  Ok (directive s optrole name (describe inline (fst kv)) its).
Definition section_text (s : sect) (inline : dict string) (key : string) : res string :=
  match mode with
  | RBad => Raise AssertionError
  | _ => Ok (directive s secrole ("[" ++ join "][" (get_sec_names s ++ [key])%list ++ "]") (describe inline key) [])
  end.
(** The walk *)
Fixpoint seq {A} (l : list (res (list A))) : res (list A) :=
  match l with [] => Ok [] | x :: l' => let* a := x in let* b := seq l' in Ok (a ++ b)%list end.
Fixpoint walk (s : sect) (c : conf) : res (list string) :=
  match c with
  | Conf opts subs inline =>
    let* a := seq (map (fun kv => let* t := option_text s inline kv in Ok [t]) opts) in
    let* b := seq (map (fun kc => let* t := section_text s inline (fst kc) in
                                   let* l := walk (Sub (fst kc) s) (snd kc) in Ok (t :: l)) subs) in
    Ok (a ++ b)%list
  end.
(** lines 2043-2063 *)
Definition cfg2rst (c : conf) : res string := let* lines := walk Root c in Ok (join snl lines).
End rst.
