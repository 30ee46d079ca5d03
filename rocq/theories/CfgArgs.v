(** Model of ConfigManager.arg_parse (xoa/cfgm.py:1051-1324), arg_patch (1326-1347), of the loading
    of a configuration (909-1010) and of the declaration of options (1779-1845), on
    configurations seen as values at paths.

    Not modelled: help texts and groups of options, the parser given by the caller, [nested]
    parsers.  The patch of a configuration (lines 1012-1048) is the one that C35 proves: each
    option of the patch replaces the one of the configuration, converted to its type. *)
From Verif Require Export CfgNames.
Open Scope string_scope.

Section args.
  Variable V : Type.
  Variable of_bool : bool -> V.
  (** the conversion of a new value to the type of the old one (C35) *)
  Variable cast : V -> V -> V.
  (** the validation of a text for an option: None if it is refused *)
  Variable check : path -> string -> option V.

  (** An option of the specifications: path, whether it is a boolean, default value *)
  Record entry := mkentry { e_path : path; e_kind : okind; e_default : V }.

  (** lines 1012-1048 *)
  Definition patch_one (c : conf V) (kv : path * V) : conf V :=
    cset c (fst kv) (match cget c (fst kv) with Some old => cast old (snd kv) | None => snd kv end).
  (** each path once: the first binding is the value *)
  Fixpoint once (seen : list path) (c : conf V) : conf V :=
    match c with
    | [] => []
    | (p, v) :: c' => if existsb (path_eqb p) seen then once seen c' else (p, v) :: once (p :: seen) c'
    end.
  Definition patch_conf (c p : conf V) : conf V := fold_left patch_one (once [] p) c.

  (** lines 909-1010, with a configuration file: its texts are validated and the options that it
      does not have get their default value.  (Simplification: no patch nor filter.) *)
  Fixpoint load (schema : list entry) (file : conf string) : res (conf V) :=
    match schema with
    | [] => Ok []
    | e :: schema' =>
      let* c := load schema' file in
      match cget file (e_path e) with
      | None => Ok (cset c (e_path e) (e_default e))
      | Some t => match check (e_path e) t with
                  | Some v => Ok (cset c (e_path e) v)
                  | None => Raise ValidateError
                  end
      end
    end.
  Definition defaults (schema : list entry) : conf V := map (fun e => (e_path e, e_default e)) schema.

  (** lines 1222-1234 and 1790-1801: the options with a flag: not excluded, and found in the
      specifications once their name is stripped *)
  Definition has_flag (exc : list string) (e : entry) : bool :=
    let k := strip_under (key (e_path e)) in
    negb (existsb (String.eqb k) exc) && String.eqb k (key (e_path e)) &&
    (match parents (e_path e) with [] => negb (existsb (String.eqb (key (e_path e))) exc) | _ => true end).
  Fixpoint distinct (l : list string) : bool :=
    match l with [] => true | x :: l' => negb (existsb (String.eqb x) l') && distinct l' end.
  (** lines 1826-1845 and argparse: what the namespace has for an option.  [given]: the text on the
      command line ("" for a flag without value), None if the option is not there. *)
  Definition ns_value (boolean_false : bool) (e : entry) (given : option string) : res (option V) :=
    match (if boolean_false then e_kind e else KStore), given with
    | KBool d, Some _ => Ok (Some (of_bool (negb d)))
    | KBool d, None => Ok (Some (of_bool d))
    | KStore, None => Ok None
    | KStore, Some t => match check (e_path e) t with Some v => Ok (Some v) | None => Raise ValidateError end
    end.
  Fixpoint namespace (boolean_false : bool) (nested : option string) (given : path -> option string) (l : list entry)
      : res (list (string * option V)) :=
    match l with
    | [] => Ok []
    | e :: l' =>
      let* v := ns_value boolean_false e (given (e_path e)) in
      let* r := namespace boolean_false nested given l' in
      Ok ((dest_of (flag nested (e_path e)), v) :: r)
    end.
  (** lines 1167-1178: [parser.add_argument] is outside of the loop *)
  Definition last_only {A} (l : list A) : list A := match rev l with [] => [] | x :: _ => [x] end.

  Inductive patch_arg := PatchNone | PatchTrue | PatchConf (c : conf V).
  Inductive when := Before | After | Never.
  (** lines 1278-1281 *)
  Definition start_conf (schema : list entry) (patch : patch_arg) : conf V :=
    match patch with
    | PatchNone => []
    | PatchTrue => patch_conf [] (defaults schema)
    | PatchConf p => patch_conf [] p
    end.
  (** lines 1263-1317.  [file]: the content of the configuration file, None when the option is
      empty ([Some []] when the file does not exist); [extras]: the extra options, with what the
      namespace has for them. *)
  Definition arg_parse (boolean_false : bool) (schema : list entry) (exc : list string) (nested : option string)
      (patch : patch_arg) (cfgfilepatch : when) (file : option (conf string)) (cfgfileopt : option (string * V))
      (extras : list (string * option V)) (given : path -> option string) : res (conf V) :=
    let flagged := List.filter (has_flag exc) schema in
    if negb (distinct (map (fun e => flag nested (e_path e)) flagged)) then Raise ValueError (* argparse.ArgumentError *)
    else
    let* ns := namespace boolean_false nested given flagged in
    let ns := (last_only extras ++ match cfgfileopt with Some (d, v) => [(d, Some v)] | None => [] end ++ ns)%list in
    let c := start_conf schema patch in
    let* c := match cfgfilepatch, file with
              | Before, Some f => let* l := load schema f in Ok (patch_conf c l)
              | _, _ => Ok c
              end in
    let c := set_all nested ns (map e_path schema) c in
    match cfgfilepatch, file with
    | After, Some f => let* l := load schema f in Ok (patch_conf c l)
    | _, _ => Ok c
    end.
  (** lines 1326-1347: arg_patch, with the file named on the command line *)
  Definition arg_patch (boolean_false : bool) (schema : list entry) (exc : list string)
      (file : conf string) (cfgfileopt : string * V) (given : path -> option string) : res (conf V) :=
    let* p := arg_parse boolean_false schema exc None PatchNone Before (Some file) (Some cfgfileopt) [] given in
    let* c := load schema file in
    Ok (patch_conf c p).
End args.
