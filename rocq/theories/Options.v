(** Model of the options of xoa/__init__.py: CONFIG_SPECS, load_options, get_option,
    set_options, set_option, reset_options. *)
From Verif Require Export PyRe.
Open Scope nat_scope.

(** xoa/__init__.py:59: [^(\w+)\W(\w+)$] ([$] also matches before a final newline) *)
Definition re_option (s : string) : option (string * string) :=
  let (a, r) := span_word s in
  match r with
  | String _ r' =>
    let (b, e) := span_word r' in
    if nonempty a && nonempty b && (String.eqb e "" || String.eqb e newline) then Some (a, b) else None
  | EmptyString => None
  end.

(** Values of options: strings, booleans, integers, anything else *)
Inductive oval := OStr (s : string) | OBool (b : bool) | OInt (z : Z) | OOther (n : nat).
Definition options := dict (dict oval).

(** configobj/validate.py: is_boolean, is_string; an invalid value is left as it is, and so is a value equal to its
    conversion (ConfigObj.validate writes the result back only [if (check != val) or missing]): the integers 0 and 1,
    equal to False and True in Python, stay integers *)
Definition bool_of_string (s : string) : option bool :=
  let s := lower s in
  if existsb (String.eqb s) ["on"; "1"; "true"; "yes"]%string then Some true
  else if existsb (String.eqb s) ["off"; "0"; "false"; "no"]%string then Some false
  else None.
Inductive checker := CBool (default : bool) | CStr (default : string).
Definition check (c : checker) (v : oval) : oval :=
  match c, v with
  | CBool _, OStr s => match bool_of_string s with Some b => OBool b | None => v end
  | _, _ => v
  end.
Definition default_of (c : checker) : oval := match c with CBool b => OBool b | CStr s => OStr s end.

(** xoa/__init__.py:62-73: CONFIG_SPECS *)
Definition config_specs : dict (dict checker) :=
  [("cf", [("accessors", CBool true); ("cache", CBool true)]);
   ("plot", [("cmapdiv", CStr "cmo.balance"); ("cmappos", CStr "cmo.amp");
             ("cmapneg", CStr "cmo.tempo_r"); ("cmapcyc", CStr "cmo.phase")])]%string.

Definition section_of (o : options) (sec : string) : dict oval :=
  match dget o sec with Some s => s | None => [] end.
(** ConfigObj.validate(copy=True): each option of the specifications is converted, or
    created with its default value.  (Simplification: values are not dictionaries and have no
    interpolation.) *)
Definition validate_section (spec : dict checker) (s : dict oval) : dict oval :=
  fold_left (fun s kc => dset s (fst kc)
    (match dget s (fst kc) with Some v => check (snd kc) v | None => default_of (snd kc) end)) spec s.
Definition validate (o : options) : options :=
  fold_left (fun o ks => dset o (fst ks) (validate_section (snd ks) (section_of o (fst ks)))) config_specs o.
(** ConfigObj.merge of a two-level dictionary *)
Definition merge (o e : options) : options :=
  fold_left (fun o ks => dset o (fst ks) (dupdate (section_of o (fst ks)) (snd ks))) e o.

(** Python state: the ConfigObj objects created so far, and [_CACHE["options"]].  The user
    configuration file is a constant. *)
Record state := mkst { objs : list options; cache : option nat }.
Definition content (st : state) (i : nat) : options := nth i (objs st) [].

(** xoa/__init__.py:126-173: load_options(dict or None).  The object of the cache is
    modified in place. *)
Definition load_options (user : options) (cfg : options) (st : state) : state :=
  let '(st, i) :=
    match cache st with
    | Some i => (st, i)
    | None => (mkst (objs st ++ [user]) (Some (List.length (objs st))), List.length (objs st))
    end in
  let o := content st i in
  let o := match cfg with [] => o | _ => merge o cfg end in
  mkst (upd (objs st) i (validate o)) (Some i).
(** lines 176-179 *)
Definition get_options (user : options) (st : state) : state :=
  match cache st with Some _ => st | None => load_options user [] st end.
Definition current (st : state) : options :=
  match cache st with Some i => content st i | None => [] end.

(** lines 182-207: the value, or the *returned* exception of an unknown option *)
Inductive answer := Value (v : oval) | ErrorObject.
Definition get_option (user : options) (section : string) (option : option string) (st : state)
    : state * res answer :=
  let st := get_options user st in
  let so := match option with
            | Some o => Ok (section, o)
            | None => match re_option section with Some so => Ok so | None => Raise XoaConfigError end
            end in
  (st, let* so := so in
       Ok (match dget (section_of (current st) (fst so)) (snd so) with
           | Some v => Value v | None => ErrorObject end)).

(** lines 242-260: set_options.__init__; [opts] are the keyword arguments *)
Definition parse_opts (section : option string) (opts : list (string * oval)) : res options :=
  fold_left (fun acc kv =>
    let* o := acc in
    let* so := match re_option (fst kv) with
               | Some so => Ok so
               | None => match section with Some s => Ok (s, fst kv) | None => Raise XoaConfigError end
               end in
    Ok (dset o (fst so) (dset (section_of o (fst so)) (snd so) (snd kv)))) opts (Ok []).
Definition set_init (user : options) (section : option string) (opts : list (string * oval)) (st : state)
    : state * res nat :=
  match cache st with
  | None => (st, Raise KeyError)                      (* del _CACHE["options"] *)
  | Some old =>
    let st := mkst (objs st) None in
    match parse_opts section opts with
    | Ok o => (load_options user o st, Ok old)
    | Raise e => (st, Raise e)
    end
  end.
(** lines 265-269: set_options.__exit__ *)
Definition set_exit (old : nat) (st : state) : state * res unit :=
  match content st old with
  | [] => match cache st with Some _ => (mkst (objs st) None, Ok tt) | None => (st, Raise KeyError) end
  | _ => (mkst (objs st) (Some old), Ok tt)
  end.
(** lines 293-308: reset_options *)
Definition reset_options (st : state) : state * res unit :=
  match cache st with Some _ => (mkst (objs st) None, Ok tt) | None => (st, Raise KeyError) end.

(** Programs: any sequence of calls, where the answers decide of the sequel; exceptions are
    passed to the sequel, that may go on (try/except) or raise again ([Throw]). *)
Inductive prog :=
| Stop
| Throw (e : exn)
| Get (section : string) (option : option string) (k : res answer -> prog)
| Load (cfg : options) (k : prog)
| SetOpts (section : option string) (opts : list (string * oval)) (k : res unit -> prog)
| Reset (k : res unit -> prog)
| With (section : option string) (opts : list (string * oval)) (body : prog) (k : res unit -> prog).

(** [with set_options(section, **opts): body] where [body] maps a state to a state and an
    outcome *)
Definition with_options (user : options) (section : option string) (opts : list (string * oval))
    (body : state -> state * res unit) (st : state) : state * res unit :=
  match set_init user section opts st with
  | (st, Raise e) => (st, Raise e)
  | (st, Ok old) =>
    let '(st, r) := body st in
    let '(st, r') := set_exit old st in
    (st, match r' with Raise e => Raise e | Ok _ => r end)
  end.
Definition as_unit {A} (r : res A) : res unit := match r with Ok _ => Ok tt | Raise e => Raise e end.
Fixpoint run (user : options) (p : prog) (st : state) : state * res unit :=
  match p with
  | Stop => (st, Ok tt)
  | Throw e => (st, Raise e)
  | Get s o k => let '(st, r) := get_option user s o st in run user (k r) st
  | Load cfg k => run user k (load_options user cfg st)
  | SetOpts s o k => let '(st, r) := set_init user s o st in run user (k (as_unit r)) st
  | Reset k => let '(st, r) := reset_options st in run user (k r) st
  | With s o body k =>
    let '(st, r) := with_options user s o (run user body) st in run user (k r) st
  end.
(** A new session *)
Definition init : state := mkst [] None.
