(** Model of configuration trees (configobj.ConfigObj / Section) and of ConfigManager.patch
    (xoa/cfgm.py:1012-1048) with _walker_patch_ (1910-1929) and _parent_list_ (1902-1907),
    and of filter_section (1405-1445).

    Not modelled: comments, string interpolation, validation ([validate=True]), the reading of
    configuration files and the conversion of dictionaries to ConfigObj. *)
From Verif Require Export PyDict.
From Verif Require CfgNames.
Open Scope string_scope.

(** Values of options.  Floats are exact rationals. *)
Inductive val := VNone | VBool (b : bool) | VInt (z : Z) | VFloat (q : Q) | VStr (s : string) | VList (l : list val).
(** A section: the names of its options and of its subsections, in order, and its content.
    configobj keeps the three apart: assigning a section to an existing option changes
    the content and leaves the two lists as they are. *)
Inductive node := Leaf (v : val) | Sec (scalars sections : list string) (items : list (string * node)).

Definition mem (k : string) (l : list string) : bool := existsb (String.eqb k) l.
Definition strip_under := CfgNames.strip_under.

(** configobj Section.__setitem__ *)
Definition setitem (n : node) (k : string) (v : node) : node :=
  match n with
  | Leaf _ => n
  | Sec sc ss it =>
    let new := negb (dmem it k) in
    match v with
    | Sec _ _ _ => Sec sc (if new then ss ++ [k] else ss)%list (dset it k v)
    | Leaf _ => Sec (if new then sc ++ [k] else sc)%list ss (dset it k v)
    end
  end.
(** The object at [k] has been modified in place *)
Definition put (n : node) (k : string) (v : node) : node :=
  match n with Leaf _ => n | Sec sc ss it => Sec sc ss (dset it k v) end.
Definition scalars (n : node) : list string := match n with Leaf _ => [] | Sec sc _ _ => sc end.
Definition sections (n : node) : list string := match n with Leaf _ => [] | Sec _ ss _ => ss end.
Definition items (n : node) : list (string * node) := match n with Leaf _ => [] | Sec _ _ it => it end.

(** [bool(v)] *)
Definition truth (v : val) : bool :=
  match v with
  | VNone => false | VBool b => b | VInt z => negb (Z.eqb z 0) | VFloat q => negb (Qeq_bool q 0)
  | VStr s => negb (String.eqb s "") | VList l => match l with [] => false | _ => true end
  end.
Fixpoint chars (s : string) : list val :=
  match s with EmptyString => [] | String c s' => VStr (String c "") :: chars s' end.
(** [int(q)] *)
Definition truncate (q : Q) : Z := Z.quot (Qnum q) (Zpos (Qden q)).

Section conversions.
  (** Conversions of Python between texts and numbers, left arbitrary *)
  Variable str_of : val -> string.            (* str(v), when v is not a string *)
  Variable text_of_section : node -> string.  (* str(section) *)
  Variable int_of : string -> option Z.       (* int(s), None when it raises *)
  Variable float_of : string -> option Q.     (* float(s) *)

  (** [type(old)(new)], None when it raises *)
  Definition convert (old new : val) : option val :=
    match old, new with
    | VNone, _ => None
    | VBool _, _ => Some (VBool (truth new))
    | VInt _, VInt z => Some (VInt z)
    | VInt _, VBool b => Some (VInt (Z.b2z b))
    | VInt _, VFloat q => Some (VInt (truncate q))
    | VInt _, VStr s => option_map VInt (int_of s)
    | VInt _, _ => None
    | VFloat _, VFloat q => Some (VFloat q)
    | VFloat _, VInt z => Some (VFloat (inject_Z z))
    | VFloat _, VBool b => Some (VFloat (inject_Z (Z.b2z b)))
    | VFloat _, VStr s => option_map VFloat (float_of s)
    | VFloat _, _ => None
    | VStr _, VStr s => Some (VStr s)
    | VStr _, _ => Some (VStr (str_of new))
    | VList _, VList l => Some (VList l)
    | VList _, VStr s => Some (VList (chars s))
    | VList _, _ => None
    end.
  (** lines 1923-1927 *)
  Definition cast_value (old new : val) : val := match convert old new with Some v => v | None => new end.
  Definition cast_node (old new : node) : node :=
    match new with
    | Leaf n => match old with Leaf o => Leaf (cast_value o n) | Sec _ _ _ => new end
    | Sec sc ss it =>
      match old with
      | Leaf (VStr _) => Leaf (VStr (text_of_section new))
      | Leaf (VBool _) => Leaf (VBool (match it with [] => false | _ => true end))
      | Leaf (VList _) => Leaf (VList (map VStr (sc ++ ss)%list))
      | _ => new
      end
    end.

  (** _walker_patch_, xoa/cfgm.py:1910-1929: [ps] are the names of the parents of the visited
      option (stripped by _parent_list_).  Both the configuration and the patch are modified.
      (Simplification: [patch_key in psec] when psec is not a section, which only occurs after
      a section was converted to a text, raises here.) *)
  Fixpoint walker (ps : list string) (k : string) (csec psec : node) : res (node * node) :=
    match ps with
    | [] =>
      match psec, csec with
      | Sec _ _ pit, Sec _ _ cit =>
        match dget pit k with
        | None => Ok (csec, psec)
        | Some new =>
          let new' := match dget cit k with Some old => cast_node old new | None => new end in
          let psec' := if dmem cit k then setitem psec k new' else psec in
          Ok (setitem csec k new', psec')
        end
      | _, _ => Raise AttributeError
      end
    | name :: ps' =>
      match psec, csec with
      | Sec _ pss pit, Sec _ css _ =>
        if negb (mem name pss) then Ok (csec, psec)
        else
          let csec := if negb (mem name css) then setitem csec name (Sec [] [] []) else csec in
          match dget (items csec) name, dget pit name with
          | Some c, Some p => let* (c', p') := walker ps' k c p in Ok (put csec name c', put psec name p')
          | _, _ => Raise KeyError
          end
      | _, _ => Raise AttributeError
      end
    end.

  (** configobj Section.walk: the options visited, each with the stripped names of its parents;
      options first, then subsections *)
  Fixpoint walk (pre : list string) (n : node) : res (list (list string * string)) :=
    match n with
    | Leaf _ => Raise AttributeError
    | Sec sc ss it =>
      let ws := map (fun kn => (fst kn, walk (pre ++ [strip_under (fst kn)])%list (snd kn))) it in
      let* subs := (fix all (l : list string) : res (list (list string * string)) :=
                      match l with
                      | [] => Ok []
                      | k :: l' =>
                        match dget ws k with
                        | None => Raise KeyError
                        | Some w => let* a := w in let* b := all l' in Ok (a ++ b)%list
                        end
                      end) ss in
      Ok (map (fun k => (pre, k)) sc ++ subs)%list
    end.
  Fixpoint apply_walk (l : list (list string * string)) (c p : node) : res (node * node) :=
    match l with
    | [] => Ok (c, p)
    | (ps, k) :: l' => let* (c', p') := walker ps k c p in apply_walk l' c' p'
    end.
  (** ConfigManager.patch, lines 1012-1048: the configuration and the patch afterwards.
      [specs] are the specifications of the manager.  (The list of options visited in the patch
      is computed once, before the second walk: it does not depend on the values.) *)
  Definition patch (specs cfg cfgpatch : node) : res (node * node) :=
    let* l1 := walk [] specs in
    let* (c, p) := apply_walk l1 cfg cfgpatch in
    let* l2 := walk [] p in
    apply_walk l2 c p.
End conversions.

(** ** filter_section, xoa/cfgm.py:1405-1445 *)
(** The filter is a tree of dictionaries; only the truth of the other values matters. *)
Inductive fval := FVal (b : bool) | FDict (d : list (string * fval)) | FNames (l : list string).
Definition ftruth (v : fval) : bool :=
  match v with FVal b => b | FDict d => match d with [] => false | _ => true end | FNames l => match l with [] => false | _ => true end end.
(** lines 1424-1426 *)
Definition f_default (d : list (string * fval)) (default : bool) : bool :=
  match dget d "__default__" with Some v => ftruth v | None => default end.
(** lines 1429-1431 ([__excepts__]: a name or a list of names) *)
Definition f_excepts (d : list (string * fval)) : option (list string) :=
  match dget d "__excepts__" with Some (FNames l) => Some l | _ => None end.
(** lines 1434-1438 *)
Definition f_keep (d : list (string * fval)) (default : bool) (k : string) : bool :=
  let kdefault := match f_excepts d with
                  | None => f_default d default
                  | Some l => if mem k l then negb (f_default d default) else f_default d default
                  end in
  match dget d k with Some v => ftruth v | None => kdefault end.
(** list.remove *)
Fixpoint remove_first (k : string) (l : list string) : list string :=
  match l with [] => [] | x :: l' => if String.eqb x k then l' else x :: remove_first k l' end.
(** configobj Section.__delitem__ *)
Definition delitem (n : node) (k : string) : node :=
  match n with
  | Leaf _ => n
  | Sec sc ss it => if mem k sc then Sec (remove_first k sc) ss (ddel it k) else Sec sc (remove_first k ss) (ddel it k)
  end.
Fixpoint filter_section (n : node) (d : list (string * fval)) (default : bool) : node :=
  match n with
  | Leaf _ => n
  | Sec sc ss it =>
    (* each content is filtered with its own filter first: same result, since deletions and
       filtering of distinct subsections commute *)
    let it' := map (fun kn => (fst kn,
                 if mem (fst kn) ss then
                   match dget d (fst kn) with Some (FDict d') => filter_section (snd kn) d' false | _ => snd kn end
                 else snd kn)) it in
    fold_left (fun n k => if f_keep d default k then n else delitem n k) (sc ++ ss)%list (Sec sc ss it')
  end.
