(** Specification vocabulary for C29 and C30. *)
From Verif Require Export CFSearch.
From Verif Require Import MiscSpec.
From Verif Require Export SGLocSpec.
Open Scope string_scope.

(** Same text up to case and surrounding spaces *)
Definition same_text (v ref : string) : Prop :=
  v <> "" /\ ref <> "" /\ lower (strip v) = lower (strip ref).
(** A parsed location is one that is asked for. *)
Definition loc_ok (loc : mloc) (ol : option string) : Prop :=
  match loc with
  | MAny => True
  | MFalse => ol = None
  | MStr s => s = "any" \/ (s = "" /\ ol = None) \/
      (s <> "" /\ exists l a b, ol = Some l /\ s = a ++ l ++ b)
  | MList [] => ol = None
  | MList l => exists x, ol = Some x /\ In x l
  end.
(** The value [v] of attribute [attr] is accepted by the reference [ref]: same text, or same
    root at a location that is asked for (C26 tells what is parsed) *)
Definition fits (sg : sgloc) (loc : mloc) (attr v ref : string) : Prop :=
  same_text v ref \/
  (known_attr attr /\ exists r ol, parse_attr sg attr (lower v) = Ok (r, ol) /\
     lower r = lower ref /\ loc_ok loc ol).
Definition ref_list (r : refs) : list string :=
  match r with RefList l => l | RefStr s => chars s | RefNone => [] end.
(** A criterion: an attribute and its references *)
Definition meets (sg : sgloc) (loc : mloc) (da : darr) (crit : string * refs) : Prop :=
  exists v ref, da_get da (fst crit) = VStr v /\ In ref (ref_list (snd crit)) /\
    fits sg loc (fst crit) v ref.

(** The criteria of an entry: those of its search order *)
Definition letter_attr (c : string) : list string :=
  if String.eqb c "n" then ["name"] else if String.eqb c "s" then ["standard_name"]
  else if String.eqb c "l" then ["long_name"] else if String.eqb c "a" then ["axis"]
  else if String.eqb c "u" then ["units"] else [].
Definition attr_refs (name : string) (sp : spec) (attr : string) : list (string * refs) :=
  if String.eqb attr "name" then [(attr, RefList (name :: s_names sp))]
  else match dget (s_attrs sp) attr with Some r => [(attr, r)] | None => [] end.
Definition criteria (name : string) (sp : spec) : list (string * refs) :=
  flat_map (attr_refs name sp) (gunique String.eqb (flat_map letter_attr (chars (s_order sp)))).
(** An item matches an entry *)
Definition matches (sg : sgloc) (loc : mloc) (name : string) (sp : spec) (da : darr) : Prop :=
  exists crit, In crit (criteria name sp) /\ meets sg loc da crit.

(** Items of a dataset have different names. *)
Definition distinct_names (objs : list darr) : Prop := NoDup (map da_name objs).

(** When nothing can go wrong: attributes are strings, an item with the attribute [axis] meets
    only entries with an axis, and a location is not given as a string. *)
Definition simple_loc (loc : mloc) : Prop :=
  match loc with MStr s => s = "" \/ s = "any" | _ => True end.
Definition fair (cs : catspecs) (da : darr) : Prop :=
  (forall k v, dget (da_attrs da) k = Some v -> (exists s, v = VStr s) \/ v = VNone) /\
  forall name sp attr, In (name, sp) cs -> dget (s_attrs sp) attr = Some RefNone -> da_get da attr = VNone.
(** The items that meet the first criterion, in their order; then, among the others, those that
    meet the second one; and so on *)
Fixpoint by_priority (M : string * refs -> darr -> bool) (crits : list (string * refs)) (objs : list darr) : list darr :=
  match crits with
  | [] => []
  | c :: cs => (List.filter (M c) objs ++ by_priority M cs (List.filter (fun o => negb (M c o)) objs))%list
  end.

(** ** Dimensions *)
(** The axis of an array, in lower case: that of its attribute, else that of the first entry it
    matches *)
Definition has_axis (sg : sgloc) (cs : catspecs) (da : darr) (t : string) : Prop :=
  (exists s, dget (da_attrs da) "axis" = Some (VStr s) /\ t = lower s) \/
  (dget (da_attrs da) "axis" = None /\
   exists before name sp after s, cs = (before ++ (name, sp) :: after)%list /\
     matches sg MAny name sp da /\ (forall n s, In (n, s) before -> ~ matches sg MAny n s da) /\
     dget (s_attrs sp) "axis" = Some (RefStr s) /\ t = lower s).
(** The name [root] is registered for type [t]: in the first list that has it *)
Definition registered (dims : dict (list string)) (root t : string) : Prop :=
  exists before l after, dims = (before ++ (t, l) :: after)%list /\ In (lower root) l /\
    forall t' l', In (t', l') before -> ~ In (lower root) l'.
(** Type [t] of dimension [d] of array [a]: the registered one, else the axis of the coordinate
    that has its name, else the axis of the array.  The location is removed from the name. *)
Definition has_type (sg : sgloc) (cs : catspecs) (dims : dict (list string)) (a : xda) (d t : string) : Prop :=
  t <> "" /\ exists root ol, parse_attr sg "name" d = Ok (root, ol) /\
  (registered dims root t \/
   ((forall t', ~ registered dims root t') /\ In root (x_dims a) /\
    match dget (x_coords a) root with
    | Some c => has_axis sg cs (c_da c) t
    | None => has_axis sg cs (x_da a) t
    end)).
(** Dimension [d] is at location [loc], or one of them is not known *)
Definition at_loc (sg : sgloc) (loc : option string) (d : string) : Prop :=
  forall l p root, loc = Some l -> l <> "" -> l <> "any" -> parse_attr sg "name" d = Ok (root, Some p) -> p <> "" -> l = p.
(** The type of a dimension can be looked for: it is registered, or is the name of a dimension
    whose axis can be looked for. *)
Definition axis_fair (cs : catspecs) (da : darr) : Prop :=
  fair cs da /\ (forall name sp, In (name, sp) cs -> exists r, dget (s_attrs sp) "axis" = Some r /\ forall l, r <> RefList l) /\
  NoDup (dkeys cs).
Definition dim_fair (sg : sgloc) (cs : catspecs) (dims : dict (list string)) (a : xda) (d : string) : Prop :=
  exists root ol, parse_attr sg "name" d = Ok (root, ol) /\
  ((exists t, registered dims root t) \/
   (In root (x_dims a) /\ match dget (x_coords a) root with Some c => axis_fair cs (c_da c) | None => axis_fair cs (x_da a) end)).
