(** Model of xoa/misc.py:dict_merge on a heap: dictionaries and lists are objects with
    an address, values refer to them; [+=] extends a list object in place. *)
From Verif Require Export DictMerge.
Open Scope nat_scope.

Definition addr := nat.
(** A value: an immutable one (top constructor neither VDict, VList nor VGen;
    simplification: what is inside a tuple is by value) or a reference. *)
Inductive hval := HVal (v : pyval) | HRef (a : addr).
(** Objects; [OGen] is the generator returned by gunique. *)
Inductive hobj := ODict (d : dict hval) | OList (l : list hval) | OGen (l : list hval).
(** A new object is put at the end: its address is the length. *)
Definition heap := list hobj.
Fixpoint hupd (h : heap) (a : addr) (o : hobj) : heap :=
  match h, a with
  | [], _ => []
  | _ :: r, O => o :: r
  | x :: r, S a' => x :: hupd r a' o
  end.

(** Programs on the heap; the heap is kept when an exception is raised. *)
Definition hm A := heap -> res A * heap.
Definition hret {A} (x : A) : hm A := fun h => (Ok x, h).
Definition hraise {A} (e : exn) : hm A := fun h => (Raise e, h).
Definition hbind {A B} (m : hm A) (f : A -> hm B) : hm B := fun h =>
  match m h with (Ok x, h') => f x h' | (Raise e, h') => (Raise e, h') end.
Definition halloc (o : hobj) : hm addr := fun h => (Ok (List.length h), h ++ [o]).
Definition hwrite (a : addr) (o : hobj) : hm unit := fun h => (Ok tt, hupd h a o).
Fixpoint hfor {A} (l : list A) (f : A -> hm unit) : hm unit :=
  match l with [] => hret tt | x :: r => hbind (f x) (fun _ => hfor r f) end.

Definition deref (h : heap) (v : hval) : option hobj :=
  match v with HVal _ => None | HRef a => nth_error h a end.
Definition truthy_h (h : heap) (v : hval) : bool :=
  match v with
  | HVal p => truthy p
  | HRef _ => match deref h v with
              | Some (ODict []) | Some (OList []) => false
              | _ => true end
  end.
Definition is_dict_h (h : heap) (v : hval) : bool :=
  match deref h v with Some (ODict _) => true | _ => false end.
Definition none_h (v : hval) : bool := match v with HVal VNone => true | _ => false end.
(** [==] of list items (simplification: objects by identity) *)
Definition heqb (v w : hval) : bool :=
  match v, w with
  | HVal p, HVal q => py_eqb p q
  | HRef a, HRef b => Nat.eqb a b
  | _, _ => false
  end.
Definition dict_at (h : heap) (a : addr) : dict hval :=
  match nth_error h a with Some (ODict d) => d | _ => [] end.

(** xoa/misc.py:552-583: one item; [outa] is the address of [outd] *)
Definition hmerge_item (o : mopts) (rec : list hval -> hm hval) (outa : addr)
    (kv : string * hval) : hm unit := fun h =>
  let (key, val) := kv in
  let outd := dict_at h outa in
  let store v := hwrite outa (ODict (dset outd key v)) in
  if skipnones o && none_h val then hret tt h
  else match dget outd key with
    | None => store val h
    | Some old =>
      if overwriteempty o && negb (truthy_h h old) then store val h
      else match deref h old, deref h val with
        | Some (ODict _), Some (ODict _) =>
          if mergesubdicts o then hbind (rec [old; val]) store h else hret tt h
        | Some (OList a), Some (OList b) =>
          if mergelists o then
            match old with
            | HRef la =>
              hbind (hwrite la (OList (a ++ b))) (fun _ =>
                if uniquify o then
                  hbind (halloc (OGen (gunique heqb (a ++ b)))) (fun g => store (HRef g))
                else hret tt) h
            | HVal _ => hret tt h
            end
          else hret tt h
        | _, _ =>
          match old, val with
          | HVal (VTuple a), HVal (VTuple b) =>
            if mergetuples o then
              if uniquify o then
                if forallb hashable (a ++ b) then store (HVal (VTuple (gunique py_eqb (a ++ b)))) h
                else (* += has stored the concatenation before the error *)
                  hbind (store (HVal (VTuple (a ++ b)))) (fun _ => hraise TypeError) h
              else store (HVal (VTuple (a ++ b))) h
            else hret tt h
          | _, _ => hret tt h
          end
        end
    end.

(** xoa/misc.py:482-603; the items of a dictionary are read when its turn comes.
    Same treatment of a true value that is not a dictionary as in DictMerge.v. *)
Definition hmerge_dict (o : mopts) (rec : list hval -> hm hval) (outa : addr) (d : hval) : hm unit :=
  fun h => match deref h d with
    | Some (ODict items) => hfor items (hmerge_item o rec outa) h
    | _ => hret tt h
    end.
Fixpoint hdict_merge (fuel : nat) (o : mopts) (dd : list hval) : hm hval :=
  match fuel with
  | O => hraise RecursionError
  | S fuel' => fun h =>
    let dd := List.filter (truthy_h h) dd in
    if forallb (is_dict_h h) dd then
      hbind (halloc (ODict [])) (fun outa =>
        hbind (hfor dd (hmerge_dict o (hdict_merge fuel' o) outa)) (fun _ =>
          hret (HRef outa))) h
    else
      if forallb (fun v => match deref h v with
           | Some (ODict d) => forallb (fun kv => skipnones o && none_h (snd kv)) d
           | _ => true end) dd
      then (Ok (HVal VNone), h) else (Raise TypeError, h)
  end.
