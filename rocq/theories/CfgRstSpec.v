(** What the document that cfg2rst makes must hold (C74), independently of how it is made. *)
From Verif Require Export CfgRst.
Open Scope string_scope.
Open Scope nat_scope.

(** A configuration as documented: for every option its name, its description and what is said of it; for every
    subsection its name, its description and what it holds *)
Inductive doc := Doc (opts : list (string * string * list (string * string))) (subs : list (string * string * doc)).
(** The directives, in order: options first, then each subsection followed by what it holds *)
Record entry := mkentry { e_path : list string; e_key : string; e_section : bool; e_desc : string; e_items : list (string * string) }.
Fixpoint entries (path : list string) (d : doc) : list entry :=
  match d with
  | Doc opts subs =>
    (map (fun o => let '(k, desc, its) := o in mkentry path k false desc its) opts ++
     flat_map (fun s => let '(k, desc, d') := s in mkentry path k true desc [] :: entries (path ++ [k]) d') subs)%list
  end.
(** The lines of a directive: [.. role:: name], indented by the depth of the section it is in, then what is said of the
    option and the description, indented once more *)
Definition title (e : entry) : string :=
  if e_section e then "[" ++ join "][" (e_path e ++ [e_key e])%list ++ "]"
  else match e_path e with [] => e_key e | _ => "[" ++ join "][" (e_path e) ++ "] " ++ e_key e end.
Definition block (optrole secrole : string) (e : entry) : list string :=
  let d := List.length (e_path e) in
  let header := spaces d ++ ".. " ++ (if e_section e then secrole else optrole) ++ ":: " ++ title e in
  let said := map (fun kv => spaces (S d) ++ "| " ++ fst kv ++ ": ``" ++ snd kv ++ "``") (e_items e) in
  let said := match e_items e with [] => said | _ => (said ++ [spaces (S d)])%list end in
  let description := spaces (S d) ++ e_desc e in
  ([header; spaces d] ++ said ++ [description; spaces d])%list.

(** The text of a value; that of an empty text or list is a blank *)
Definition display (v : rval) : string :=
  match v with ROther s => s | _ => if String.eqb (value_text v) "" then " " else value_text v end.
Definition listed (parse : string -> res optspec) (mode : rmode) (v : rval) : list (string * string) :=
  match mode with
  | RBasic | RBad => []
  | RValues => [("default", display v)]
  | RSpecs =>
    match parse (value_text v) with
    | Raise _ => []
    | Ok sp => ([("default", display (o_default sp)); ("type", display (RText (o_func sp)))] ++
                match o_args sp with [] => [] | a => [("args", display (RList a))] end ++
                map (fun kv => (fst kv, display (snd kv))) (o_kwargs sp))%list
    end
  end.
(** The documentation of a configuration; the inline comment of an entry gives its description *)
Fixpoint doc_of (parse : string -> res optspec) (mode : rmode) (c : conf) : doc :=
  match c with
  | Conf opts subs inline =>
    Doc (map (fun kv => (fst kv, describe inline (fst kv), listed parse mode (snd kv))) opts)
        (map (fun kc => (fst kc, describe inline (fst kc), doc_of parse mode (snd kc))) subs)
  end.

Definition no_nl (s : string) : Prop := all_chars (fun c => negb (Ascii.eqb c nl)) s = true.
Definition bracket (c : ascii) : bool := Ascii.eqb c "[" || Ascii.eqb c "]".
Definition no_bracket (s : string) : Prop := all_chars (fun c => negb (bracket c)) s = true.
Definition no_colon (s : string) : Prop := all_chars (fun c => negb (Ascii.eqb c ":")) s = true.
(** Everything is on one line *)
Inductive one_line : doc -> Prop :=
| one_line_doc opts subs :
    (forall k desc its, In (k, desc, its) opts -> no_nl k /\ no_nl desc /\ forall i v, In (i, v) its -> no_nl i /\ no_nl v) ->
    (forall k desc d, In (k, desc, d) subs -> no_nl k /\ no_nl desc /\ one_line d) -> one_line (Doc opts subs).
(** What is said of options has no colon in its name *)
Inductive readable : doc -> Prop :=
| readable_doc opts subs :
    (forall k desc its, In (k, desc, its) opts -> forall i v, In (i, v) its -> no_colon i) ->
    (forall k desc d, In (k, desc, d) subs -> readable d) -> readable (Doc opts subs).
(** The sections and the options, with their path *)
Inductive holds : conf -> list string -> string -> bool -> Prop :=
| holds_option opts subs inline k v : In (k, v) opts -> holds (Conf opts subs inline) [] k false
| holds_section opts subs inline k c : In (k, c) subs -> holds (Conf opts subs inline) [] k true
| holds_inside opts subs inline k c p key b : In (k, c) subs -> holds c p key b -> holds (Conf opts subs inline) (k :: p) key b.
(** The names of sections have no bracket, no option at the top has a name that starts with one *)
Definition unambiguous (c : conf) : Prop :=
  (forall p k b, holds c p k b -> Forall no_bracket p /\ (b = true -> no_bracket k)) /\
  (forall k, holds c [] k false -> startswith k "[" = false).
Definition role_ok (r : string) : Prop := no_nl r /\ no_colon r.
(** Specifications whose keyword arguments have their own names; no option at the top is called "choice" *)
Definition plain_spec (sp : optspec) : Prop :=
  NoDup (dkeys (o_kwargs sp)) /\ forall k, In k (dkeys (o_kwargs sp)) -> ~ In k ["default"; "type"; "args"].
Definition plain (parse : string -> res optspec) (mode : rmode) (c : conf) : Prop :=
  mode = RSpecs -> (forall s sp, parse s = Ok sp -> plain_spec sp) /\
    match c with Conf opts _ _ => ~ In "choice" (map fst opts) end.
