(** Model of xoa/misc.py:dict_merge by value (aliasing is in DictHeap.v). *)
From Verif Require Export Misc.
Open Scope nat_scope.

Record mopts := mkopts {
  mergesubdicts : bool; mergelists : bool; mergetuples : bool;
  uniquify : bool; skipnones : bool; overwriteempty : bool }.
(** xoa/misc.py:482-484: default options *)
Definition default_opts : mopts := mkopts true false false false true false.

(** [bool(x)] of a value *)
Definition truthy (v : pyval) : bool :=
  match v with
  | VNone => false
  | VBool b => b
  | VInt z => negb (Z.eqb z 0)
  | VStr s => negb (String.eqb s "")
  | VList l | VTuple l => match l with [] => false | _ => true end
  | VDict d => match d with [] => false | _ => true end
  | VObj _ | VGen _ => true
  end.
(** xoa/misc.py:606-611 *)
Definition is_empty (v : pyval) : bool := negb (truthy v).
Definition is_none (v : pyval) : bool := match v with VNone => true | _ => false end.
Definition is_dict (v : pyval) : bool := match v with VDict _ => true | _ => false end.

(** [a == b]; [True == 1]; generators and other objects by identity (a generator is
    never compared with itself here) *)
Fixpoint py_eqb (a b : pyval) {struct a} : bool :=
  match a, b with
  | VNone, VNone => true
  | VStr s, VStr t => String.eqb s t
  | VList l, VList m | VTuple l, VTuple m =>
    (fix go l m := match l, m with
       | [], [] => true
       | x :: l', y :: m' => py_eqb x y && go l' m'
       | _, _ => false end) l m
  | VObj n, VObj p => Nat.eqb n p
  | VBool x, VBool y => Bool.eqb x y
  | VBool x, VInt y => Z.eqb (Z.b2z x) y
  | VInt x, VBool y => Z.eqb x (Z.b2z y)
  | VInt x, VInt y => Z.eqb x y
  | _, _ => false
  end.
(** Values that can be put in a set (dictionaries are never compared then) *)
Fixpoint hashable (a : pyval) : bool :=
  match a with
  | VList _ | VDict _ => false
  | VTuple l => (fix go l := match l with [] => true | x :: l' => hashable x && go l' end) l
  | _ => true
  end.

(** xoa/misc.py:552-583: treatment of one item.  [rec] is the recursive call. *)
Definition merge_item (o : mopts) (rec : list pyval -> res pyval)
    (key : string) (val : pyval) (outd : dict pyval) : res (dict pyval) :=
  if skipnones o && is_none val then Ok outd
  else
    match dget outd key with
    | None => Ok (dset outd key val)
    | Some old =>
      if overwriteempty o && is_empty old then Ok (dset outd key val)
      else
        match old, val with
        | VDict _, VDict _ =>
          if mergesubdicts o then
            let* m := rec [old; val] in Ok (dset outd key m)
          else Ok outd
        | VList a, VList b =>
          if mergelists o then
            Ok (dset outd key (if uniquify o then VGen (gunique py_eqb (a ++ b)) else VList (a ++ b)))
          else Ok outd
        | VTuple a, VTuple b =>
          if mergetuples o then
            if uniquify o then
              if forallb hashable (a ++ b)
              then Ok (dset outd key (VTuple (gunique py_eqb (a ++ b))))
              else Raise TypeError
            else Ok (dset outd key (VTuple (a ++ b)))
          else Ok outd
        | _, _ => Ok outd
        end
    end.

(** xoa/misc.py:546-583: loop on the items of a dictionary, on the dictionaries *)
Definition merge_items (o : mopts) (rec : list pyval -> res pyval)
    (d outd : dict pyval) : res (dict pyval) :=
  for_each d (fun kv outd => next_of (merge_item o rec (fst kv) (snd kv) outd)) outd.
Definition merge_dicts (o : mopts) (rec : list pyval -> res pyval)
    (dd : list (dict pyval)) (outd : dict pyval) : res (dict pyval) :=
  for_each dd (fun d outd => next_of (merge_items o rec d outd)) outd.

Fixpoint dicts_of (l : list pyval) : list (dict pyval) :=
  match l with
  | [] => []
  | VDict d :: r => d :: dicts_of r
  | _ :: r => dicts_of r
  end.

(** xoa/misc.py:482-603 dict_merge, [cls=None] or [cls=dict], plain dictionaries.
    A true value that is not a dictionary sets the class of the result (lines
    524-529); an item can then not be stored (simplification: TypeError in every
    such case; without item the result is an empty instance, here None).
    Recursion depth is [fuel]: RecursionError beyond. *)
Fixpoint dict_merge (fuel : nat) (o : mopts) (dd : list pyval) : res pyval :=
  match fuel with
  | O => Raise RecursionError
  | S fuel' =>
    let dd := List.filter truthy dd in
    if forallb is_dict dd then
      let* out := merge_dicts o (dict_merge fuel' o) (dicts_of dd) [] in
      Ok (VDict out)
    else
      if forallb (fun d => forallb (fun kv => skipnones o && is_none (snd kv)) d) (dicts_of dd)
      then Ok VNone else Raise TypeError
  end.

(** Nesting depth of dictionaries *)
Fixpoint depth (v : pyval) : nat :=
  match v with
  | VDict d => S ((fix go d := match d with
      | [] => 0 | (_, x) :: d' => Nat.max (depth x) (go d') end) d)
  | _ => 0
  end.
