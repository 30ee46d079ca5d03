(** Model of the enumeration classes of xoa/misc.py: XEnumMeta (lines 33-115), DefaultEnumMeta
    (118-158) and IntEnumChoices (161-166).  The members are those of Misc.v. *)
From Verif Require Export Misc.
From Coq Require Export DecimalString.
Open Scope string_scope.

(** EnumMeta.__call__ *)
Definition enum_call (ms : enum_members) (a : enumarg) : res (string * Z) :=
  match a with
  | ECode z => match enum_by_value ms z with Some m => Ok m | None => Raise ValueError end
  | _ => Raise ValueError
  end.
(** DefaultEnumMeta.__call__, lines 148-151 *)
Definition default_call (ms : enum_members) (a : enumarg) : res (string * Z) :=
  match a with
  | ENone => match ms with m :: _ => Ok m | [] => Raise ValueError end
  | _ => enum_call ms a
  end.
(** Lines 70-73, [value in cls]: the operator takes the truth of what is returned, and a member
    is an integer *)
Definition enum_contains (ms : enum_members) (a : enumarg) : res bool :=
  match a with
  | EName s => Ok (existsb (fun nv => String.eqb (fst nv) s) ms)
  | _ => let* m := enum_call ms a in Ok (negb (Z.eqb (snd m) 0))
  end.
(** Lines 75-79, [groups.setdefault(number, []).append(name)] for each name; the keys are the
    members, that is their values *)
Fixpoint add_name (g : list (Z * list string)) (z : Z) (n : string) : list (Z * list string) :=
  match g with
  | [] => [(z, [n])]
  | (z', ns) :: g' => if Z.eqb z' z then (z', ns ++ [n])%list :: g' else (z', ns) :: add_name g' z n
  end.
Definition groups (ms : enum_members) : list (Z * list string) :=
  fold_left (fun g nv => add_name g (snd nv) (fst nv)) ms [].
(** [f"{z:d}"] of an integer *)
Definition show_int (z : Z) : string := NilZero.string_of_int (Z.to_int z).
(** [f"{number:d}"] of a member: when [str_overridden], as does IntEnumChoices, the interpreters
    before 3.12 format the name, and "d" is not a format of texts *)
Definition show_member (str_overridden py312 : bool) (z : Z) : res string :=
  if str_overridden && negb py312 then Raise ValueError else Ok (show_int z).
Definition quoted (n : string) : string := String """" (n ++ String """" "").
Fixpoint mapM {A B} (f : A -> res B) (l : list A) : res (list B) :=
  match l with [] => Ok [] | x :: l' => let* y := f x in let* r := mapM f l' in Ok (y :: r) end.
(** Lines 81-86 *)
Definition choice (so py : bool) (es : string) (g : Z * list string) : res string :=
  let* z := show_member so py (fst g) in
  Ok (es ++ join "|" (z :: map quoted (snd g)) ++ es).
Definition get_choices (so py : bool) (es : string) (ms : enum_members) : res (list string) :=
  mapM (choice so py es) (groups ms).
(** Lines 88-89 *)
Definition enum_str (so py : bool) (ms : enum_members) : res string :=
  let* l := get_choices so py "" ms in Ok (join ", " l).
(** Lines 94-107, [link_module] as a prefix *)
Definition get_rst (so py with_links : bool) (link_module : option string) (clsname : string) (ms : enum_members) : res string :=
  if with_links then
    let prefix := (match link_module with Some m => if String.eqb m "" then "" else m ++ "." | None => "" end) ++ clsname ++ "." in
    Ok (join ", " (map (fun g => ":attr:`" ++ join "|" (show_int (fst g) :: map quoted (snd g)) ++ "<" ++ prefix ++ hd "" (snd g) ++ ">`") (groups ms)))
  else let* l := get_choices so py "``" ms in Ok (join ", " l).

(** xoa/misc.py:358-377 is_iterable.  Objects by what they offer: generators have no length. *)
Inductive pyobj := PyStr | PyGen | PySized (* list, tuple, dict, array... *) | PyOther (* number, None... *).
Definition is_iterable (o : pyobj) (nostr nogen : bool) : bool :=
  if negb nogen && match o with PyGen => true | _ => false end then true
  else if negb (match o with PyStr | PySized => true | _ => false end) then false
  else if nostr then negb (match o with PyStr => true | _ => false end)
  else true.
