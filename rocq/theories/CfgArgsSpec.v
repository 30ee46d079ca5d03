(** Specification vocabulary for C49: where the value of an option comes from. *)
From Verif Require Export CfgArgs CfgNamesSpec.
Open Scope string_scope.

Section spec.
  Context {V : Type} (of_bool : bool -> V) (check : path -> string -> option V).
  (** The value that the command line gives to an option: a flag of a boolean gives the opposite
      of its default, and a boolean without its flag is there with its default.  [exc]: the names of
      the options without flag *)
  Definition from_line (boolean_false : bool) (exc : list string) (given : path -> option string) (e : entry V) : option V :=
    if existsb (String.eqb (key (e_path V e))) exc then None else
      match (if boolean_false then e_kind V e else KStore), given (e_path V e) with
      | KBool d, Some _ => Some (of_bool (negb d))
      | KBool d, None => Some (of_bool d)
      | KStore, Some t => check (e_path V e) t
      | KStore, None => None
      end.
  (** The value that a configuration file gives to an option: the default if it does not have it *)
  Definition from_file (file : conf string) (e : entry V) : option V :=
    match cget file (e_path V e) with Some t => check (e_path V e) t | None => Some (e_default V e) end.
  Definition from_patch (pa : patch_arg V) (e : entry V) : option V :=
    match pa with PatchNone _ => None | PatchTrue _ => Some (e_default V e) | PatchConf _ c => cget c (e_path V e) end.
End spec.
(** Options that the command line can tell apart *)
Definition good_schema {V} (nested : option string) (schema : list (entry V)) : Prop :=
  good_nested nested /\ NoDup (map (e_path V) schema) /\
  (forall e, In e schema -> clean (key (e_path V e)) /\ (forall s, In s (parents (e_path V e)) -> clean (strip_under s)) /\ no_under (e_path V e)) /\
  (forall e e', In e schema -> In e' schema -> same_names (e_path V e) (e_path V e') -> e = e').
(** Other options of the parser: their names are not those of options of the configuration *)
Definition foreign {V} (nested : option string) (schema : list (entry V)) (d : string) : Prop :=
  forall e, In e schema -> reaches nested d (e_path V e) = false.
