(** Model of remove_defaults: xoa/cfgm.py:1733-1750, with get_spec (1687-1697, the default value
    only), and of the validation of configobj (Section.validate, Validator.check) that fills a
    configuration with its default values.

    Simplifications: names of options and of subsections are distinct; no __many__ specification;
    validation stops at the first refused value (ConfigManager.load raises then, xoa/cfgm.py:
    986-1006); the bookkeeping of configobj of which options have their default value is not
    modelled, it only changes which text is validated. *)
From Verif Require Export CfgTree.
Open Scope string_scope.

(** The default value of a specification, as parsed: a text or a list of texts *)
Inductive dflt := DText (s : string) | DTexts (l : list string).
(** The specification of an option: its default value if any.  The validation function is given
    by its path. *)
Inductive spec := Spec (opts : dict (option dflt)) (subs : dict spec).
Inductive cfg := Cfg (opts : dict val) (subs : dict cfg).
Definition copts (c : cfg) := match c with Cfg o _ => o end.
Definition csubs (c : cfg) := match c with Cfg _ s => s end.
Definition sopts (s : spec) := match s with Spec o _ => o end.
Definition ssubs (s : spec) := match s with Spec _ s => s end.

(** [spec.default == sec[key]] *)
Fixpoint texts_eq (l : list string) (vs : list val) : bool :=
  match l, vs with
  | [], [] => true
  | s :: l', VStr t :: vs' => String.eqb s t && texts_eq l' vs'
  | _, _ => false
  end.
Definition is_default (d : option dflt) (v : val) : bool :=
  match d, v with
  | Some (DText s), VStr t => String.eqb s t
  | Some (DTexts l), VList vs => texts_eq l vs
  | None, VNone => true
  | _, _ => false
  end.
(** lines 1733-1737: [get_spec("")] has no default *)
Definition declared (s : spec) (k : string) : option dflt := match dget (sopts s) k with Some d => d | None => None end.
(** [not sec.configspec]: no specification or an empty one *)
Definition no_spec (s : option spec) : bool :=
  match s with Some (Spec [] []) | None => true | Some _ => false end.
Definition unchanged (s : option spec) (k : string) (v : val) : bool :=
  if no_spec s then false else match s with Some s => is_default (declared s k) v | None => false end.
Definition sub_spec (s : option spec) (k : string) : option spec := match s with Some s => dget (ssubs s) k | None => None end.
(** lines 1740-1750 *)
Fixpoint remove_defaults (s : option spec) (c : cfg) : cfg :=
  match c with
  | Cfg opts subs =>
    Cfg (filter (fun kv => negb (unchanged s (fst kv) (snd kv))) opts)
        (map (fun kc => (fst kc, remove_defaults (sub_spec s (fst kc)) (snd kc))) subs)
  end.

(** ** Validation by configobj *)
(** Validator._handle_none and Validator.check of a missing value *)
Definition handle_none (d : dflt) : option dflt :=
  match d with
  | DText s => if String.eqb s "None" then None
               else if String.eqb s "'None'" || String.eqb s """None""" then Some (DText "None")
               else Some d
  | DTexts _ => Some d
  end.
Definition raw (d : dflt) : val := match d with DText s => VStr s | DTexts l => VList (map VStr l) end.
Section validation.
  (** The validation function of an option (path of sections and name) applied to a value *)
  Variable check : list string -> string -> val -> res val.
  Definition check_missing (p : list string) (k : string) (d : option dflt) : res val :=
    match d with
    | None => Raise ValidateError (* VdtMissingValue *)
    | Some d => match handle_none d with None => Ok VNone | Some d => check p k (raw d) end
    end.
  Definition check_value (p : list string) (k : string) (v : val) : res val :=
    match v with VNone => Ok VNone | _ => check p k v end.
  Fixpoint validate_opts (p : list string) (specs : dict (option dflt)) (opts : dict val) : res (dict val) :=
    match specs with
    | [] => Ok opts
    | (k, d) :: specs' =>
      let* v := match dget opts k with Some v => check_value p k v | None => check_missing p k d end in
      validate_opts p specs' (dset opts k v)
    end.
  Definition subsection (c : cfg) (k : string) : cfg := match dget (csubs c) k with Some c' => c' | None => Cfg [] [] end.
  Fixpoint validate (p : list string) (s : spec) (c : cfg) : res cfg :=
    match s with
    | Spec specs subs =>
      let* opts := validate_opts p specs (copts c) in
      let* ss := (fix go (l : dict spec) (acc : dict cfg) : res (dict cfg) :=
                    match l with
                    | [] => Ok acc
                    | (k, s') :: l' =>
                      let* c' := validate (p ++ [k])%list s' (subsection c k) in
                      go l' (dset acc k c')
                    end) subs (csubs c) in
      Ok (Cfg opts ss)
    end.
End validation.
