(** Model of the values of the options of the command line: _walker_argcfg_setarg_, xoa/cfgm.py:1777-1832, as
    called by ConfigManager.arg_parse (1232-1265), with Validator.check of configobj and what argparse does of
    the type and of the action of an option.

    Parameters: [handle], the reading of a value of a configuration file by configobj (_handle_value: quotes,
    lists and comments; None for a SyntaxError); the validation functions (see ValRegistry).
    Simplifications: those of BoolSpec (parsing of specifications) and ValRegistry; the validator given to
    ConfigManager is a dictionary of functions. *)
From Verif Require Import BoolSpec ValRegistry.
Open Scope string_scope.

(** line 1804: [sec.configspec[key].split("(", 1)[0]] *)
Definition type_name (spec : string) : string := match cut "(" spec with Some (n, _) => n | None => spec end.

(** What the command line has for an option: nothing, the option alone, the option with a text *)
Inductive given := Absent | Alone | With (t : string).
(** What comes out: nothing for the configuration, a value, an error of argparse (usage and exit), or an
    exception (None: SyntaxError) *)
Inductive outcome := Nothing | Value (v : yval) | Usage | Fails (e : option exn).

Section Values.
  Variable params : nat -> list string.
  Variable run : nat -> yval -> list yval -> dict yval -> res yval.
  Variable to_int : yval -> res Z.
  Variable handle : string -> option yval.

  (** Validator.check.  An unknown function is a VdtUnknownCheckError, here ValidateError. *)
  Definition check (fs : dict func) (spec : string) (v : yval) : res yval :=
    let* c := parse_check spec in
    match v with
    | YNone => Ok YNone
    | _ =>
      match dget fs (c_name c) with
      | None => Raise ValidateError
      | Some f => call params run to_int f v (map YStr (c_args c)) (map (fun kv => (fst kv, YStr (snd kv))) (c_kwargs c))
      end
    end.

  (** lines 1794-1796, 1232-1243 and 1256-1265: a top level option is declared without the validator, and gets
      a new one, without the functions of the user *)
  Definition functions_of (own : dict func) (r : registry) (user : dict func) (top : bool) : dict func :=
    get_validator own r (if top then [] else user).

  (** lines 1823-1829 *)
  Inductive action := StoreTrue | StoreFalse | Store (iterable : bool).
  Definition action_of (boolean_false : bool) (r : registry) (spec : string) (default : yval) : action :=
    let e := dget r (type_name spec) in
    let opttype := match e with Some e => e_opttype e | None => None end in
    let iterable := match e with Some e => match e_iter e with Some b => b | None => false end | None => false end in
    if boolean_false && match opttype with Some t => String.eqb t "boolean" | None => false end then
      match default with YBool false => StoreTrue | _ => StoreFalse end
    else Store iterable.

  (** argparse: [type] is called with the text; TypeError and ValueError are errors of usage *)
  Definition caught (e : exn) : bool := match e with TypeError | ValueError => true | _ => false end.
  Definition checked (r : res yval) : outcome :=
    match r with Ok YNone => Nothing | Ok v => Value v | Raise e => if caught e then Usage else Fails (Some e) end.
  (** lines 1806-1822 *)
  Definition option_value (own : dict func) (r : registry) (user : dict func) (boolean_false top : bool)
      (spec : string) (default : yval) (g : given) : outcome :=
    match action_of boolean_false r spec default, g with
    | StoreTrue, Absent => Value (YBool false)
    | StoreTrue, Alone => Value (YBool true)
    | StoreFalse, Absent => Value (YBool true)
    | StoreFalse, Alone => Value (YBool false)
    | Store _, Absent => Nothing
    | Store it, With t =>
      let fs := functions_of own r user top in
      if it then match handle t with None => Fails None | Some v => checked (check fs spec v) end
      else checked (check fs spec (YStr t))
    | _, _ => Usage
    end.

  (** The same text in the configuration file, lines 958-975: read by configobj, validated by the validator of
      the manager.  None when there is no value (an error, which the manager reports in its own way). *)
  Definition file_value (own : dict func) (r : registry) (user : dict func) (spec : string) (t : string) : option yval :=
    match handle t with
    | None => None
    | Some v => match check (get_validator own r user) spec v with Ok v => Some v | Raise _ => None end
    end.
End Values.
