(** Model of the registry of validation functions: xoa/cfgm.py:64-194 (wrappers), 597-643
    (_update_registry_), 658-679 (register_validation_functions), 1700-1717 (get_validator).

    Simplifications: specifications that are given as dictionaries are not shared between names
    and have no other keys; VALIDATOR_TYPES, the sorted list of the names, is in ValList.v. *)
From Verif Require Export Validators.
Open Scope string_scope.

(** Functions: those of the code and of the user, and the wrapped ones.  They are told apart by
    their names, which start with "validator_wrapper-" and "list_validator_wrapper-". *)
Inductive func := Base (n : nat) | Wrap (f : func) | WrapList (f : func).
(** lines 64-87 *)
Definition valwrap (f : func) : func := match f with Base n => Wrap f | _ => f end.
(** lines 90-194 *)
Definition valwraplist (f : func) : func := match f with WrapList _ => f | _ => WrapList f end.

(** ** Calls *)
Definition without {A} (ks : list string) (d : dict A) : dict A := filter (fun kv => negb (existsb (String.eqb (fst kv)) ks)) d.
Definition list_keys : list string := ["n"; "nmin"; "nmax"; "odd"; "even"; "shape"].
Section calls.
  (** Names of the parameters of a function (without the keyword-only ones), its result for a
      value, positional arguments and keyword arguments; [int()] *)
  Variable params : nat -> list string.
  Variable run : nat -> yval -> list yval -> dict yval -> res yval.
  Variable to_int : yval -> res Z.
  Definition argspec (f : func) : list string := match f with Base n => params n | _ => ["value"] end.
  Definition int_arg (v : option yval) : res (option Z) :=
    match v with Some YNone | None => Ok None | Some v => let* z := to_int v in Ok (Some z) end.
  Fixpoint call (f : func) (value : yval) (args : list yval) (kw : dict yval) : res yval :=
    match f with
    | Base n => run n value args kw
    (* lines 77-84 *)
    | Wrap g => call g value args (filter (fun kv => existsb (String.eqb (fst kv)) (argspec g)) kw)
    (* lines 117-191.  (Simplification: n, nmin and nmax are all converted first.) *)
    | WrapList g =>
      if prints_none value then Ok YNone else
      let* n := int_arg (dget kw "n") in
      let* nmin := int_arg (dget kw "nmin") in
      let* nmax := int_arg (dget kw "nmax") in
      let shape := match dget kw "shape" with Some YNone | None => false | Some _ => true end in
      list_validator (fun v => call g v args (without list_keys kw)) args (dget kw "default")
        (mklopts n nmin nmax (dget kw "odd") (dget kw "even") shape) value
    end.
End calls.

(** ** The registry.  Entries may be functions or incomplete as long as they were not updated. *)
Record entry := mkentry { e_func : option func; e_base : option func; e_iter : option bool; e_opttype : option string; e_argtype : option func }.
Definition registry := dict entry.
Definition of_func (f : func) : entry := mkentry (Some f) None None None None.
Definition or_else {A} (o : option A) (d : A) : A := match o with Some x => x | None => d end.
(** lines 610-618.  Function 0 is validate.is_string. *)
Definition is_string : func := Base 0.
Definition complete (k : string) (e : entry) : entry :=
  let f := or_else (e_func e) is_string in
  let b := or_else (e_base e) f in
  let f := valwrap f in
  mkentry (Some f) (Some b) (Some (or_else (e_iter e) false)) (Some (or_else (e_opttype e) k)) (Some (or_else (e_argtype e) f)).
(** lines 622-627 *)
Definition plural (k : string) : string :=
  if ends_with_char k "y" then substring 0 (String.length k - 1) k ++ "ies"
  else if ends_with_char k "x" then k ++ "es"
  else k ++ "s".
(** lines 628-633 *)
Definition list_entry (e : entry) : entry :=
  mkentry (option_map valwraplist (e_func e)) (e_base e) (Some true) (e_opttype e) (e_argtype e).
Definition add_absent (r : registry) (k : string) (e : entry) : registry := if dmem r k then r else dset r k e.
Definition update_one (r : registry) (ke : string * entry) : registry :=
  let (k, e) := ke in
  let e' := complete k e in
  let r := dset r k e' in
  let r := add_absent r (plural k) (list_entry e') in
  add_absent r (k ++ "_list") (list_entry e').
Definition update_registry (r : registry) : registry := fold_left update_one r r.
(** lines 677-678 *)
Definition register (r : registry) (kwargs : registry) : registry := update_registry (dupdate r kwargs).
Definition registered (r : registry) (history : list registry) : registry := fold_left register history r.
(** lines 640-643 *)
Definition functions (r : registry) : dict func := flat_map (fun ke => match e_func (snd ke) with Some f => [(fst ke, f)] | None => [] end) r.
(** lines 1700-1717.  [own]: the functions of validate.Validator *)
Definition get_validator (own : dict func) (r : registry) (user : dict func) : dict func :=
  map (fun kf => (fst kf, valwrap (snd kf))) (dupdate (dupdate own (functions r)) user).

(** Lines 566-594: the registry of the module *)
Definition names0 : list string := ["integer"; "float"; "boolean"; "string"; "option"; "date"; "cdtime"; "pydatetime"; "datetime";
  "datetime64"; "timestamp"; "daterange"; "minmax"; "numerics"; "figsize"; "bbox"; "file"; "path"; "directory"; "interval"; "eval";
  "cmap"; "color"; "dict"].
Definition import_registry (func_of : string -> nat) : registry := update_registry (map (fun k => (k, of_func (Base (func_of k)))) names0).
