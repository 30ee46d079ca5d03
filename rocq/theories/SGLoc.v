(** Model of xoa/cf.py:92-553, class SGLocator. *)
From Verif Require Export PyRe.
Open Scope string_scope.

(** A format such as "{root}_{loc}": literal parts around the two fields.
    (Simplification: each field occurs once and the literal parts contain no special
    character of regular expressions or of str.format.) *)
Record fmt := mkfmt { pre : string; root_first : bool; mid : string; post : string }.
(** self.formats, lines 107-111 *)
Definition default_name_format := mkfmt "" true "_" "".
Definition standard_format := mkfmt "" true "_at_" "_location".
Definition long_format := mkfmt "" true " at " " location".

(** SGLocator(name_format, valid_locations); an empty list for None *)
Record sgloc := mksg { name_format : fmt; valid_locations : list string }.
Definition valid_attrs : list string := ["name"; "standard_name"; "long_name"].
Definition is_valid_attr (attr : string) : bool := existsb (String.eqb attr) valid_attrs.

Definition format_of (sg : sgloc) (attr : string) : fmt :=
  if String.eqb attr "name" then name_format sg
  else if String.eqb attr "standard_name" then standard_format else long_format.
(** lines 113-117: root_patterns *)
Definition root_class (attr : string) : ascii -> bool :=
  if String.eqb attr "long_name" then is_word_sp else is_word.
(** lines 119 and 147-149: location_pattern *)
Definition loc_elem (sg : sgloc) : relem :=
  match valid_locations sg with [] => RPlus is_letter | l => RAlt l end.
(** lines 79-89: _compile_sg_match_ *)
Definition pattern (sg : sgloc) (attr : string) : list relem :=
  let f := format_of sg attr in
  let r := RPlus (root_class attr) in
  let l := loc_elem sg in
  if root_first f then [RLit (pre f); r; RLit (mid f); l; RLit (post f)]
  else [RLit (pre f); l; RLit (mid f); r; RLit (post f)].
(** [self.formats[attr].format(root=root, loc=loc)] *)
Definition apply_format (f : fmt) (root loc : string) : string :=
  if root_first f then pre f ++ root ++ mid f ++ loc ++ post f
  else pre f ++ loc ++ mid f ++ root ++ post f.

(** lines 153-188: parse_attr *)
Definition parse_attr (sg : sgloc) (attr value : string) : res (string * option string) :=
  if is_valid_attr attr then
    Ok (match re_match (pattern sg attr) value with
        | Some [a; b] =>
          if root_first (format_of sg attr) then (a, Some (lower b)) else (b, Some (lower a))
        | _ => (value, None)
        end)
  else Raise KeyError.

(** Values of attributes *)
Inductive aval := VStr (s : string) | VList (l : list string) | VNone | VOther (n : nat).
Definition attrs := dict aval.
(** A data array: name and attributes *)
Record darr := mkdarr { da_name : option string; da_attrs : attrs }.
(** [re.match] of something that is not a string *)
Definition parse_val (sg : sgloc) (attr : string) (v : aval) : res (string * option string) :=
  match v with VStr s => parse_attr sg attr s | _ => Raise TypeError end.

(** lines 190-242: get_location ([if da.name:] and [if loc_:] test non-empty strings; a
    parsed location is never empty unless "" is a valid location) *)
Definition truthy (l : option string) : bool :=
  match l with Some s => nonempty s | None => false end.
Definition check_loc (loc loc' : option string) : res (option string) :=
  match loc' with
  | Some l' =>
    if nonempty l' then
      match loc with
      | Some l => if nonempty l && negb (String.eqb l' l) then Raise XoaCFError else Ok loc'
      | None => Ok loc'
      end
    else Ok loc
  | None => Ok loc
  end.
Definition get_location (sg : sgloc) (da : darr) : res (option string) :=
  let* loc := match da_name da with
              | Some n => if nonempty n then let* p := parse_attr sg "name" n in Ok (snd p) else Ok None
              | None => Ok None
              end in
  let step attr loc :=
    match dget (da_attrs da) attr with
    | Some v => let* p := parse_val sg attr v in check_loc loc (snd p)
    | None => Ok loc
    end in
  let* loc := step "standard_name" loc in
  step "long_name" loc.

(** lines 244-272: match_attr; [loc]: None or a string, False, a list *)
Inductive mloc := MAny | MFalse | MStr (s : string) | MList (l : list string).
Definition match_attr (sg : sgloc) (attr value root : string) (loc : mloc) : res (option bool) :=
  if negb (is_valid_attr attr) then Ok None else
  let* p := parse_attr sg attr (lower value) in
  if negb (String.eqb (lower (fst p)) (lower root)) then Ok (Some false) else
  match loc with
  | MAny => Ok (Some true)
  | MFalse => Ok (Some (match snd p with None => true | _ => false end))
  | MStr s =>
    if String.eqb s "any" then Ok (Some true)
    else if negb (nonempty s) then Ok (Some (match snd p with None => true | _ => false end))
    else match snd p with Some l => Ok (Some (contains s l)) | None => Raise TypeError end
  | MList [] => Ok (Some (match snd p with None => true | _ => false end))
  | MList l => Ok (Some (match snd p with Some v => existsb (String.eqb v) l | None => false end))
  end.

(** The [loc] argument of the formatting methods *)
Inductive larg := LNone | LTrue | LFalse | LStr (s : string).
(** lines 307-313 *)
Definition std_root (attr root : string) : string :=
  if String.eqb attr "long_name" then replace_char "_" " " (capitalize root)
  else let root := replace_char " " "_" root in
       if String.eqb attr "standard_name" then lower root else root.
(** lines 331-335 *)
Definition std_loc (attr loc : string) : string :=
  if String.eqb attr "long_name" then upper loc
  else if String.eqb attr "standard_name" then lower loc else loc.
(** lines 304-339: format_attr of a string *)
Definition format_str (sg : sgloc) (attr value : string) (loc : larg) (standardize : bool) : res string :=
  if negb (is_valid_attr attr) then Ok value else
  let* p := parse_attr sg attr value in
  let '(root, ploc) := p in
  let root := if standardize then std_root attr root else root in
  let* loc :=
    match loc with
    | LStr s =>
      if nonempty s then
        match valid_locations sg with
        | [] => Ok (Some s)
        | l => if existsb (String.eqb (lower s)) l then Ok (Some s) else Raise XoaCFError
        end
      else Ok None
    | LTrue => match valid_locations sg with [] => Ok ploc | _ => Raise AttributeError end
    | LFalse => Ok None
    | LNone => Ok ploc
    end in
  match loc with
  | Some l => if nonempty l
              then Ok (apply_format (format_of sg attr) root (if standardize then std_loc attr l else l))
              else Ok root
  | None => Ok root
  end.
Definition format_attr (sg : sgloc) (attr : string) (value : aval) (loc : larg) (standardize : bool) : res aval :=
  match value with
  | VNone => Ok VNone
  | VStr s => let* r := format_str sg attr s loc standardize in Ok (VStr r)
  | _ => if is_valid_attr attr then Raise TypeError else Ok value
  end.

(** lines 341-382: format_attrs *)
Fixpoint map_res {A B} (f : A -> res B) (l : list A) : res (list B) :=
  match l with
  | [] => Ok []
  | x :: l' => let* y := f x in let* ys := map_res f l' in Ok (y :: ys)
  end.
Definition format_entry (sg : sgloc) (loc : larg) (standardize : bool) (kv : string * aval) : res (string * aval) :=
  let '(attr, value) := kv in
  if is_valid_attr attr && negb (String.eqb attr "name") then
    let* v := match value with
              | VList l => let* l' := map_res (fun s => format_str sg attr s loc standardize) l in Ok (VList l')
              | _ => format_attr sg attr value loc standardize
              end in
    Ok (attr, v)
  else Ok (attr, value).
Definition format_attrs (sg : sgloc) (a : attrs) (loc : larg) (standardize : bool) : res attrs :=
  map_res (format_entry sg loc standardize) a.

(** lines 384-430: merge_attr *)
Definition is_any (loc : larg) : bool :=
  match loc with LNone => true | LStr s => String.eqb s "any" | _ => false end.
Definition merge_attr (sg : sgloc) (attr : string) (value0 value1 : aval) (loc : larg) (standardize : bool) : res aval :=
  if negb (is_valid_attr attr) then Raise AssertionError else
  match value0, value1 with
  | VNone, VNone => Ok VNone
  | VNone, _ => format_attr sg attr value1 loc standardize
  | _, VNone => format_attr sg attr value0 loc standardize
  | _, _ =>
    let* loc :=
      if is_any loc then
        let* p0 := parse_val sg attr value0 in
        let* p1 := parse_val sg attr value1 in
        Ok (match snd p1, snd p0 with
            | Some l1, _ => LStr l1 | None, Some l0 => LStr l0 | None, None => loc end)
      else Ok loc in
    format_attr sg attr value1 loc standardize
  end.

(** lines 432-497: patch_attrs *)
Fixpoint first_match (sg : sgloc) (attr : string) (cur : aval) (l : list string) : res bool :=
  match l with
  | [] => Ok false
  | v :: l' =>
    match cur with
    | VStr s => let* b := match_attr sg attr s v MAny in
                match b with Some true => Ok true | _ => first_match sg attr cur l' end
    | _ => Raise AttributeError                       (* value.lower() *)
    end
  end.
Definition get_aval (a : attrs) (attr : string) : aval :=
  match dget a attr with Some v => v | None => VNone end.
Definition patch_entry (sg : sgloc) (loc : larg) (standardize replace : bool) (a : attrs) (kv : string * aval) : res attrs :=
  let '(attr, value) := kv in
  match value with
  | VNone => Ok a
  | _ =>
    if dmem a attr && negb replace then Ok a
    else if is_valid_attr attr then
      let* value :=
        match value with
        | VList l =>
          let first := match l with s :: _ => Ok (VStr s) | [] => Raise IndexError end in
          match dget a attr with
          | Some cur => let* b := first_match sg attr cur l in if b then Ok cur else first
          | None => first
          end
        | v => Ok v
        end in
      let* v := merge_attr sg attr (get_aval a attr) value loc standardize in
      Ok (match v with VNone => a | _ => dset a attr v end)
    else Ok (dset a attr value)
  end.
Definition patch_attrs (sg : sgloc) (a patch : attrs) (loc : larg) (standardize replace : bool) : res attrs :=
  let* a := match a with [] => Ok [] | _ => format_attrs sg a loc standardize end in
  fold_left (fun acc kv => let* a := acc in patch_entry sg loc standardize replace a kv) patch (Ok a).

(** lines 499-553: format_dataarray; a substitute name and attributes *)
Definition name_val (n : option string) : aval := match n with Some s => VStr s | None => VNone end.
Definition format_dataarray (sg : sgloc) (da : darr) (loc : larg) (standardize : bool)
    (name : option string) (patch : attrs) (rename replace_attrs : bool) : res darr :=
  let* a := match patch with
            | [] => format_attrs sg (da_attrs da) loc standardize
            | _ => patch_attrs sg (da_attrs da) patch loc standardize replace_attrs
            end in
  let* n := if rename || match da_name da with None => true | _ => false end
            then let* v := merge_attr sg "name" (name_val (da_name da)) (name_val name) loc true in
                 Ok (match v with VStr s => Some s | _ => None end)
            else Ok (da_name da) in
  Ok (mkdarr n (dupdate (da_attrs da) a)).
