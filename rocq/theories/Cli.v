(** Model of xoa/cli.py and of what it prints: xoa/__init__.py:311-452 (show_options, show_versions, show_paths, show_info,
    get_data_sample, show_data_samples). *)
From Verif Require Export Misc.
From Coq Require Import String Ascii List Bool Arith Lia.
Import ListNotations.
Open Scope string_scope.

(** What the functions see of their environment *)
Record world := mkworld {
  w_python : string;                     (* platform.python_version() *)
  w_dist : string -> option string;      (* pkg_resources.get_distribution(name).version *)
  w_lib : string;                        (* os.path.dirname(__file__) *)
  w_samples : option (list string);      (* os.listdir of the directory of samples, None when there is no such directory *)
  w_exists : string -> bool;             (* os.path.exists *)
  w_config : string; w_cf : string; w_cache : string;  (* the three user files *)
  w_options : res (list string) }.       (* _get_options_().write(), which loads the options *)

(** xoa/__init__.py:59-72 *)
Definition nl : string := String (ascii_of_nat 10) EmptyString.
Definition join_lines (l : list string) : string := String.concat nl l.
Definition CONFIG_SPECS : string := join_lines [
  "";
  "[cf] # cf module";
  "accessors=boolean(default=True) # automatically load the :mod:`~xoa.cf` accessors?";
  "cache=boolean(default=True) # use the :mod:`~xoa.cf` in memory and file caches";
  "";
  "[plot] # plot parameters";
  "cmapdiv = string(default=""cmo.balance"") # defaut diverging colormap";
  "cmappos = string(default=""cmo.amp"")     # default positive colormap";
  "cmapneg = string(default=""cmo.tempo_r"") # default negative colormap";
  "cmapcyc = string(default=""cmo.phase"")   # default cyclic colormap";
  "";
  ""].
(** xoa/__init__.py:85-96 *)
Definition PACKAGES : list string :=
  ["appdirs"; "cartopy"; "cmocean"; "configobj"; "matplotlib"; "numpy"; "pandas"; "scipy"; "xarray"; "xesmf"].

(** [s.strip("\n")] and [s.replace('#', ' #')] *)
Definition is_nl (c : ascii) : bool := Ascii.eqb c (ascii_of_nat 10).
Fixpoint lstrip_nl (s : string) : string :=
  match s with String c r => if is_nl c then lstrip_nl r else s | EmptyString => s end.
Fixpoint rstrip_nl (s : string) : string :=
  match s with
  | String c r => let r' := rstrip_nl r in if is_nl c then match r' with EmptyString => EmptyString | _ => String c r' end else String c r'
  | EmptyString => EmptyString end.
Definition strip_nl (s : string) : string := rstrip_nl (lstrip_nl s).
Fixpoint hash_space (s : string) : string :=
  match s with
  | String c r => if Ascii.eqb c "#" then String " " (String c (hash_space r)) else String c (hash_space r)
  | EmptyString => EmptyString end.

(** What a function printed, and how it ended *)
Definition output := (list string * res unit)%type.
Definition say (l : list string) : output := (l, Ok tt).
Definition then_ (a b : output) : output :=
  match a with (l, Ok _) => ((l ++ fst b)%list, snd b) | (l, Raise e) => (l, Raise e) end.

(** xoa/__init__.py:311-332 *)
Definition show_options (w : world) (specs : bool) : output :=
  if specs then say [strip_nl CONFIG_SPECS]
  else match w_options w with
       | Ok l => say [hash_space (strip_nl (join_lines l))]
       | Raise e => ([], Raise e)
       end.
(** xoa/__init__.py:348-367.  (Simplification: no other error than DistributionNotFound.) *)
Definition show_versions (w : world) : output :=
  say (("- python: " ++ w_python w) :: ("- xoa: " ++ "0.1.0") ::
    map (fun p => "- " ++ p ++ ": " ++ match w_dist w p with Some v => v | None => "NOT INSTALLED or UKNOWN" end) PACKAGES).
(** xoa/__init__.py:417-452.  [None], a string, or anything else (simplification: that is not equal to a string).
    (Simplification: the names that os.listdir gives have no slash.) *)
Inductive fname := FNone | FStr (s : string) | FOther.
Inductive sample := SNames (l : list string) | SPath (p : string).
Definition get_data_sample (w : world) (f : fname) : res sample :=
  let filenames := match w_samples w with None => [] | Some l => l end in
  match f with
  | FNone => Ok (SNames filenames)
  | FStr s => if existsb (String.eqb s) filenames then Ok (SPath (w_lib w ++ "/_samples/" ++ s)) else Raise XoaError
  | FOther => Raise TypeError
  end.
Definition sample_names (w : world) : list string := match get_data_sample w FNone with Ok (SNames l) => l | _ => [] end.
(** xoa/__init__.py:488-506 *)
Definition show_data_samples (w : world) : output := say [String.concat " " (sample_names w)].
(** xoa/__init__.py:370-394: the loop on the three files *)
Fixpoint path_lines (w : world) (asterix : bool) (files : list (string * string)) : bool * list string :=
  match files with
  | [] => (asterix, [])
  | (label, path) :: r =>
    let '(asterix, path) := if w_exists w path then (asterix, path) else (true, path ++ " [*]") in
    let '(a, l) := path_lines w asterix r in (a, ("- " ++ label ++ ": " ++ path) :: l)
  end.
Definition show_paths (w : world) : output :=
  let '(asterix, l) := path_lines w false [("user config file", w_config w); ("user CF specs file", w_cf w); ("user CF cache file", w_cache w)] in
  say ([("- xoa library dir: " ++ w_lib w)%string] ++ l ++ [("- data samples: " ++ String.concat " " (sample_names w))%string] ++
       (if asterix then ["*: file not present"] else []))%list.
(** xoa/__init__.py:397-414 *)
Definition show_info (w : world) (opt_specs : bool) : output :=
  then_ (say ["# VERSIONS"]) (then_ (show_versions w) (then_ (say [nl ++ "# FILES AND DIRECTORIES"]) (then_ (show_paths w)
    (then_ (say [nl ++ "# OPTIONS"]) (show_options w opt_specs))))).

(** xoa/cli.py:27-40 with argparse.  (Simplification: arguments that begin with a dash are only -h and --help; the other ones are
    not in the domain of this model, and the texts of the help and of the usage are not modelled.) *)
Inductive parsed := PHelp | PUsage | PNone | PInfo (category : string).
Definition is_help (s : string) : bool := String.eqb s "-h" || String.eqb s "--help".
Definition CHOICES : list string := ["all"; "paths"; "versions"; "options"].
Definition parse_info (args : list string) : parsed :=
  match args with
  | [] => PInfo "all"
  | c :: r =>
    if is_help c then PHelp
    else if negb (existsb (String.eqb c) CHOICES) then PUsage
    else if existsb is_help r then PHelp
    else match r with [] => PInfo c | _ => PUsage end
  end.
Definition parse_args (args : list string) : parsed :=
  match args with
  | [] => PNone
  | c :: r => if is_help c then PHelp else if String.eqb c "info" then parse_info r else PUsage
  end.
(** xoa/cli.py:50-58 *)
Definition main_info (w : world) (category : string) : output :=
  if String.eqb category "all" then show_info w true
  else if String.eqb category "versions" then show_versions w
  else if String.eqb category "paths" then show_paths w
  else if String.eqb category "options" then show_options w false
  else say [].
(** xoa/cli.py:43-47: the process prints and ends, or exits with a code after a help or a usage message *)
Inductive ending := Ran (o : output) | Exits (code : nat).
Definition main (w : world) (args : list string) : ending :=
  match parse_args args with
  | PHelp => Exits 0
  | PUsage => Exits 2
  | PNone => Ran ([], Raise AttributeError)
  | PInfo c => Ran (main_info w c)
  end.
