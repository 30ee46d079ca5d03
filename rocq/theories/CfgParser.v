(** Model of the parser that ConfigManager.arg_parse builds (xoa/cfgm.py:1137-1262) on the one of the caller, of
    print_short_help (2138-2192), of the two help actions (2195-2204) and of cfgargparse (1448-1503).

    The model of argparse: a parser has groups (title, description, what is done when an option string is already
    taken) and actions, each in a group.  The index of the option strings of argparse is read off the actions.
    Not modelled: abbreviations, parent and sub parsers, mutually exclusive groups, the layout of the text: what is
    given to the formatter is the list of its blocks. *)
From Verif Require Export CfgArgs.
From Verif Require Import Opt2Rst.
From Verif Require Import CfgHelp.
Open Scope string_scope.

Inductive handler := HError | HResolve.
(** What an option does: the help of argparse, those of xoa, the configuration file, the n-th extra option, an option
    of the configuration, the n-th argument of the caller; [Fake]: line 2160 *)
Inductive what := LongHelp | ShortHelp | VeryShortHelp | CfgFile | Extra (n : nat) | Conf (p : path) | User (n : nat) | Fake.
(** no flag: a positional argument *)
Record action := mkaction { a_flags : list string; a_what : what; a_group : nat }.
Record group := mkgroup { g_title : option string; g_desc : option string; g_handler : handler }.
Record parser := mkparser {
  p_usage : option string; p_desc : option string; p_epilog : option string; p_handler : handler;
  p_actions : list action; p_groups : list group }.
Definition set_actions (P : parser) (l : list action) : parser := mkparser (p_usage P) (p_desc P) (p_epilog P) (p_handler P) l (p_groups P).
Definition set_groups (P : parser) (l : list group) : parser := mkparser (p_usage P) (p_desc P) (p_epilog P) (p_handler P) (p_actions P) l.

(** ** argparse *)
Definition has_string (l : list string) (f : string) : bool := existsb (String.eqb f) l.
(** _handle_conflict_resolve: an option loses its taken strings, and is removed if it has no other *)
Definition steal (flags : list string) (l : list action) : list action :=
  flat_map (fun a =>
    match a_flags a with
    | [] => [a]
    | _ => match List.filter (fun f => negb (has_string flags f)) (a_flags a) with
           | [] => []
           | rest => [mkaction rest (a_what a) (a_group a)]
           end
    end) l.
Definition taken (P : parser) (f : string) : bool := existsb (fun a => has_string (a_flags a) f) (p_actions P).
(** _add_action of a group; ArgumentError is written ValueError *)
Definition add_with (h : handler) (g : nat) (flags : list string) (w : what) (P : parser) : res parser :=
  match h with
  | HError => if existsb (taken P) flags then Raise ValueError else Ok (set_actions P (p_actions P ++ [mkaction flags w g])%list)
  | HResolve => Ok (set_actions P (steal flags (p_actions P) ++ [mkaction flags w g])%list)
  end.
Definition handler_of (P : parser) (g : nat) : handler := match nth_error (p_groups P) g with Some x => g_handler x | None => p_handler P end.
Definition add_to (g : nat) (flags : list string) (w : what) (P : parser) : res parser := add_with (handler_of P g) g flags w P.
(** ArgumentParser._add_action: groups 0 and 1 are those of the positional and of the optional arguments *)
Definition add_argument (flags : list string) (w : what) (P : parser) : res parser :=
  add_to (match flags with [] => 0 | _ => 1 end) flags w P.
Definition add_group (title desc : option string) (P : parser) : parser :=
  set_groups P (p_groups P ++ [mkgroup title desc (p_handler P)])%list.
(** [optionals]: the title of the group of the options, "optional arguments" before Python 3.10, then "options" *)
Definition new_parser (optionals : string) (usage desc epilog : option string) (h : handler) : parser :=
  mkparser usage desc epilog h [] [mkgroup (Some "positional arguments") None h; mkgroup (Some optionals) None h].

(** What the caller did with a parser before it is given: [group]: in which group, None for parser.add_argument *)
Inductive call := CAdd (group : option nat) (flags : list string) (n : nat) | CHelp | CGroup (title desc : option string).
Definition do_call (P : parser) (c : call) : res parser :=
  match c with
  | CAdd None flags n => add_argument flags (User n) P
  | CAdd (Some g) flags n => if (g <? List.length (p_groups P))%nat then add_to g flags (User n) P else Raise NameError
  | CHelp => add_argument ["-h"; "--help"] LongHelp P
  | CGroup t d => Ok (add_group t d P)
  end.
Fixpoint do_calls (P : parser) (l : list call) : res parser :=
  match l with [] => Ok P | c :: l' => let* P := do_call P c in do_calls P l' end.

(** ** arg_parse *)
(** lines 1144-1164: the optional group resolves the conflicts during the three calls *)
Definition add_helps (P : parser) : res parser :=
  let* P := add_with HResolve 1 ["-h"; "--help"] ShortHelp P in
  let* P := add_with HResolve 1 ["--long-help"] LongHelp P in
  add_with HResolve 1 ["--short-help"] VeryShortHelp P.
(** lines 1167-1178: the call is after the loop *)
Definition add_extras (extras : list (list string)) (P : parser) : res parser :=
  match rev extras with [] => Ok P | flags :: before => add_argument flags (Extra (List.length before)) P end.
(** lines 1181-1195 *)
Inductive cfgopt := OptStr (s : string) | OptTuple (l : list string).
Definition cfg_flags (o : cfgopt) : list string :=
  match o with
  | OptStr s =>
    if nonempty s then
      if startswith s "-" then [s] else if (String.length s =? 1)%nat then ["-" ++ s] else ["--" ++ s]
    else []
  | OptTuple l => l
  end.
Definition add_cfgfile (o : cfgopt) (P : parser) : res parser :=
  match cfg_flags o with [] => Ok P | flags => add_argument flags CfgFile P end.
(** lines 1202-1221: title and description of the group of the global options.  [split(":", 1)] *)
Definition split_colon (s : string) : string * option string :=
  match at_colon s with Some (a, b) => (a, Some b) | None => (s, None) end.
Definition spaces : rex := Rep (Cls is_space).
Fixpoint word (s : string) : rex := match s with EmptyString => Eps | String c s' => Cat (chr c) (word s') end.
Definition re_coding : rex :=
  Cat (chr "#") (Cat spaces (Cat (word "-*-") (Cat spaces (Cat (word "coding") (Cat spaces (Cat (chr ":") (Cat spaces
    (Cat (plus (fun c => negb (is_space c))) (Cat spaces (Cat (word "-*-") spaces)))))))))).
Definition is_coding (line : string) : bool := match ways re_coding line with [] => false | _ => true end.
Definition sharp_space (c : ascii) : bool := Ascii.eqb c "#" || Ascii.eqb c " ".
Definition GLOBAL : string := "global configuration options".
Definition global_desc (initial : list string) : res (string * option string) :=
  match initial with
  | [] => Ok (GLOBAL, None)
  | first :: rest =>
    if is_coding first then
      match rest with
      | [] => Raise UnboundLocalError                   (* [desc] is not assigned *)
      | line :: _ => Ok (split_colon (strip_set sharp_space line))
      end
    else Ok (GLOBAL, None)
  end.
(** lines 1240-1249 *)
Definition section_desc (name : string) (comment : option string) : string * option string :=
  match comment with
  | None => (name, None)
  | Some c =>
    let d := strip_set sharp_space c in
    match at_colon d with Some (a, b) => (a, Some b) | None => (lower name, Some d) end
  end.
(** The configuration: the comment lines at its top, its sections with their inline comment, the paths of its options *)
Record config := mkconfig { c_initial : list string; c_sections : list (string * option string); c_paths : list path }.
Fixpoint add_options (g : nat) (nested : option string) (l : list path) (P : parser) : res parser :=
  match l with
  | [] => Ok P
  | p :: l' => let* P := add_to g ["--" ++ flag nested p] (Conf p) P in add_options g nested l' P
  end.
(** lines 1224-1235 and 1790-1801, see CfgArgs.has_flag *)
Definition declared (exc : list string) (p : path) : bool := has_flag unit exc (mkentry unit p KStore tt).
Definition in_section (name : string) (p : path) : bool := match parents p with s :: _ => String.eqb s name | [] => false end.
Definition is_global (p : path) : bool := match parents p with [] => true | _ => false end.
Fixpoint add_sections (exc : list string) (nested : option string) (paths : list path) (l : list (string * option string)) (P : parser) : res parser :=
  match l with
  | [] => Ok P
  | (name, comment) :: l' =>
    let '(title, desc) := section_desc name comment in
    let g := List.length (p_groups P) in
    let* P := add_options g nested (List.filter (fun p => in_section name p && declared exc p) paths) (add_group (Some title) desc P) in
    add_sections exc nested paths l' P
  end.
(** lines 1137-1262 *)
Definition declare (exc : list string) (nested : option string) (extras : list (list string)) (o : cfgopt) (c : config) (P : parser) : res parser :=
  let* P := add_helps P in
  let* P := add_extras extras P in
  let* P := add_cfgfile o P in
  let* d := global_desc (c_initial c) in
  let g := List.length (p_groups P) in
  let P := add_group (Some (fst d)) (snd d) P in
  let* P := add_options g nested (List.filter (fun p => is_global p && declared exc p) (c_paths c)) P in
  add_sections exc nested (c_paths c) (c_sections c) P.

(** ** The helps *)
(** What is given to the formatter *)
Inductive block := BUsage (usage : option string) (l : list action) | BText (t : option string) | BSection (title desc : option string) (l : list action).
Definition members (P : parser) (g : nat) : list action := List.filter (fun a => (a_group a =? g)%nat) (p_actions P).
Fixpoint numbered {A} (n : nat) (l : list A) : list (nat * A) := match l with [] => [] | x :: l' => (n, x) :: numbered (S n) l' end.
(** argparse: ArgumentParser.format_help *)
Definition long_help (P : parser) : list block :=
  ([BUsage (p_usage P) (p_actions P); BText (p_desc P)] ++
   map (fun ng => BSection (g_title (snd ng)) (g_desc (snd ng)) (members P (fst ng))) (numbered 0 (p_groups P)) ++
   [BText (p_epilog P)])%list.
Inductive compressed := ZBool (b : bool) | ZStr (s : string) | ZList (l : list string).
Definition kept_strings (z : compressed) : list string :=
  match z with
  | ZBool true => ["-h"; "-help"; "--long-help"; "--short-help"; "--cfgfile"]
  | ZBool false => []
  | ZStr s => if nonempty s then [s] else []
  | ZList l => l
  end.
Definition fake : action := mkaction ["other-options"] Fake 0.
Definition valid_option (strings : list string) (a : action) : bool :=
  match a_flags a with [] => true | fl => existsb (has_string strings) fl end.
Definition STANDARD : list string := ["positional arguments"; "optional arguments"].
(** lines 2138-2192 *)
Definition print_short_help (P : parser) (z : compressed) : list block :=
  let strings := kept_strings z in
  let actions := match strings with [] => p_actions P | _ => (List.filter (valid_option strings) (p_actions P) ++ [fake])%list end in
  ([BUsage (p_usage P) actions; BText (p_desc P)] ++
   flat_map (fun ng => match g_title (snd ng) with
                       | Some t => if has_string STANDARD t then [BSection (Some t) (g_desc (snd ng)) (members P (fst ng))] else []
                       | None => []
                       end) (numbered 0 (p_groups P)) ++
   [BText (p_epilog P)])%list.
(** The command line [flag] alone: what is printed before the program exits with the code 0, None for another action
    (lines 2195-2204; _HelpAction of argparse) *)
Definition lookup (P : parser) (f : string) : option what := option_map a_what (find (fun a => has_string (a_flags a) f) (p_actions P)).
Definition help_of (P : parser) (w : what) : option (list block) :=
  match w with
  | LongHelp => Some (long_help P)
  | ShortHelp => Some (print_short_help P (ZBool false))
  | VeryShortHelp => Some (print_short_help P (ZBool true))
  | _ => None
  end.
Definition run_flag (P : parser) (f : string) : option (list block) :=
  match lookup P f with Some w => help_of P w | None => None end.

(** ** What arg_parse returns (lines 1309-1324), and cfgargparse (1495-1503): [getargs] is True *)
Inductive part := AConfig | AParser | AOptions.
Inductive returned := Single (x : part) | Tuple (l : list part).
Definition arg_parse_returns (parse getparser getargs : bool) : returned :=
  if parse then
    if negb getparser && negb getargs then Single AConfig
    else Tuple ([AConfig] ++ (if getparser then [AParser] else []) ++ (if getargs then [AOptions] else []))%list
  else Single AParser.
Definition cfgargparse_returns : returned := arg_parse_returns true false true.
