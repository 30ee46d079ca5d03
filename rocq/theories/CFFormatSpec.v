(** Specification vocabulary for C48: formatting with CF specifications. *)
From Verif Require Export CFFormat SGLocSpec.
Open Scope string_scope.

(** What formatting does to one attribute: only standard_name and long_name may change. *)
Definition located_attr (k : string) : Prop := k = "standard_name" \/ k = "long_name".
Definition formatted (sg : sgloc) (loc : larg) (std : bool) (k : string) (v v' : aval) : Prop :=
  (~ located_attr k -> v' = v) /\
  (located_attr k ->
     match v with
     | VStr s => exists w, format_str sg k s loc std = Ok w /\ v' = VStr w
     | VList l => exists l', v' = VList l' /\ Forall2 (fun s w => format_str sg k s loc std = Ok w) l l'
     | VNone => v' = VNone
     | VOther _ => False
     end).
(** The default value of an attribute: the first of the declared values *)
Definition default_of (sp : spec) (k : string) : option string :=
  match dget (s_attrs sp) k with
  | Some (RefList (s :: _)) => Some s
  | Some (RefStr s) => Some s
  | _ => None
  end.
(** The value of an attribute as get_attrs gives it: the first declared value or, for a
    standard_name and a long_name with [multi], all of them *)
Definition offered (sp : spec) (multi : bool) (k : string) : option aval :=
  match dget (s_attrs sp) k with
  | Some (RefList []) | None => None
  | Some (RefList (s :: l)) => if multi && (String.eqb k "standard_name" || String.eqb k "long_name")
                               then Some (VList (s :: l)) else Some (VStr s)
  | Some (RefStr s) => Some (VStr s)
  | Some RefNone => Some VNone
  end.
(** The CF name of an array: the given one, or the first specifications that it matches *)
Definition cf_name_is (sg : sgloc) (cs : catspecs) (da : darr) (name : option string) (n : string) : Prop :=
  name = Some n \/ (name = None /\ match_any sg cs da (MStr "any") = Ok (Some n)).
(** The name in files: the CF name, or the first of the declared names when specialised *)
Definition short_name (sp : spec) (n : string) (specialize : bool) : string :=
  if specialize then match s_names sp with m :: _ => m | [] => n end else n.
(** [d'] is the new name of [d]: the one given to the coordinate called [d], or [d] itself when no
    coordinate has this name *)
Definition renamed (old new : list (option string)) (d d' : option string) : Prop :=
  (exists i, nth_error old i = Some d /\ nth_error new i = Some d') \/ (~ In d old /\ d' = d).
