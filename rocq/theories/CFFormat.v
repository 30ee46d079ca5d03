(** Model of the formatting of arrays and datasets with CF specifications:
    xoa/cf.py:885-1102 and 1710-1930. *)
From Verif Require Export FormulaTerms.
From Verif Require Export CFSearch.
Open Scope string_scope.

(** Attribute values of the specifications as Python values *)
Definition ref_val (r : refs) : aval :=
  match r with RefList l => VList l | RefStr s => VStr s | RefNone => VNone end.

(** lines 1710-1777: get_attrs.  [select]: an empty list for None.  Also returns the [exclude]
    list after the call, which [exclude.extend] changes in place. *)
Definition declared_val (multi : bool) (key : string) (r : refs) : option aval :=
  match r with
  | RefList [] => None
  | RefList (s :: l) =>
    if negb multi || negb (existsb (String.eqb key) ["standard_name"; "long_name"])
    then Some (VStr s) else Some (VList (s :: l))
  | _ => Some (ref_val r)
  end.
Definition spec_attrs (multi : bool) (d : dict refs) : attrs :=
  fold_left (fun a kv => match declared_val multi (fst kv) (snd kv) with
                         | Some v => dset a (fst kv) v | None => a end) d [].
Definition get_attrs (sg : sgloc) (cs : catspecs) (name : string) (select : list string)
    (exclude : option (list string)) (errors : errs) (loc : larg) (multi standardize : bool)
    (extra : attrs) : res (attrs * option (list string)) :=
  match dget cs name with
  | None => match errors with ERaise => Raise XoaCFError | _ => Ok ([], exclude) end
  | Some sp =>
    let excl := (match exclude with Some l => l | None => [] end ++ dkeys extra)%list in
    let keys := List.filter (fun k => negb (existsb (String.eqb k) excl)) (dkeys (s_attrs sp)) in
    let _keys := match select with
                 | [] => keys
                 | _ => List.filter (fun k => existsb (String.eqb k) select) keys
                 end in                                    (* never used: lines 1752-1755 *)
    let a := dupdate (spec_attrs multi (s_attrs sp)) extra in
    let* a := format_attrs sg a loc standardize in
    Ok (a, match exclude with Some _ => Some excl | None => None end)
  end.

(** lines 1779-1803: get_name of a CF name; [self[name]["name"]] of an unknown name is
    [None["name"]] *)
Definition get_name (sg : sgloc) (cs : catspecs) (name : string) (specialize : bool) (loc : larg)
    : res string :=
  let* name := if specialize
               then match dget cs name with
                    | None => Raise TypeError
                    | Some sp => Ok (match s_names sp with n :: _ => n | [] => name end)
                    end
               else Ok name in
  format_str sg "name" name loc true.

Inductive attrs_arg := AttrsTrue | AttrsFalse | AttrsDict (a : attrs).
(** lines 1857-1872: the part common to [rename=True] and [rename=False] of format_dataarray: the
    formatted array and the new name; None when there is no match *)
Definition format_core (sg : sgloc) (cs : catspecs) (da : darr) (name : option string) (loc : larg)
    (rename : bool) (at_ : attrs_arg) (standardize specialize replace_attrs : bool)
    : res (option (darr * string)) :=
  let* name := match name with Some n => Ok (Some n) | None => match_any sg cs da (MStr "any") end in
  match name with
  | None => Ok None
  | Some n =>
    if negb (dmem cs n) then Raise AssertionError else
    let* new_name := get_name sg cs n specialize LNone in
    let* patch := match at_ with
                  | AttrsTrue => let* r := get_attrs sg cs n [] None EWarn LNone true false [] in Ok (fst r)
                  | AttrsFalse => Ok []
                  | AttrsDict a => Ok a
                  end in
    let* new_da := format_dataarray sg da loc standardize (Some new_name) patch rename replace_attrs in
    Ok (Some (new_da, new_name))
  end.
(** lines 1884-1886, [rename=False]: the array after the call (it is changed in place when
    [copy=False]) and the returned name *)
Definition format_name (sg : sgloc) (cs : catspecs) (da : darr) (name : option string) (loc : larg)
    (at_ : attrs_arg) (standardize specialize replace_attrs : bool) : res (darr * option string) :=
  let* r := format_core sg cs da name loc false at_ standardize specialize replace_attrs in
  match r with
  | None => Ok (da, None)
  | Some (new_da, new_name) =>
    let* v := merge_attr sg "name" (name_val (da_name da)) (VStr new_name) loc true in
    Ok (new_da, match v with VStr s => Some s | _ => None end)
  end.

(** ** Arrays with coordinates *)
Record fvar := mkfvar { v_attrs : attrs; v_dims : list (option string) }.
Record farr := mkfarr { f_da : darr; f_dims : list (option string); f_coords : list (option string * fvar) }.

(** xarray: [DataArray.rename(dict)] and [Dataset.rename(dict)].  Every key must be a variable or
    a dimension; variables and dimensions are renamed together; two variables cannot end with
    the same name.  (Simplification: no check of the names of dimensions.) *)
Definition new_of (d : list (option string * option string)) (n : option string) : option string :=
  match oget d n with Some m => m | None => n end.
Definition rename_var (d : list (option string * option string)) (v : fvar) : fvar :=
  mkfvar (v_attrs v) (map (new_of d) (v_dims v)).
Fixpoint odistinct (l : list (option string)) : bool :=
  match l with [] => true | x :: l' => negb (existsb (oeqb x) l') && odistinct l' end.
Definition rename_vars (d : list (option string * option string)) (vs : list (option string * fvar))
    : list (option string * fvar) :=
  map (fun kv => (new_of d (fst kv), rename_var d (snd kv))) vs.
Definition xr_rename (d : list (option string * option string)) (x : farr) : res farr :=
  if negb (forallb (fun kv => existsb (oeqb (fst kv)) (map fst (f_coords x) ++ f_dims x)%list) d)
  then Raise ValueError else
  let cs := rename_vars d (f_coords x) in
  if odistinct (map fst cs) then Ok (mkfarr (f_da x) (map (new_of d) (f_dims x)) cs)
  else Raise ValueError.

(** lines 1805-1900: format_dataarray of a category with [rename=True].  (The argument is not
    changed: [copy] is forced to True.) *)
Definition cat_format (sg : sgloc) (cs : catspecs) (x : farr) (name : option string) (loc : larg)
    (at_ : attrs_arg) (standardize specialize rename_dim replace_attrs : bool) : res farr :=
  let* r := format_core sg cs (f_da x) name loc true at_ standardize specialize replace_attrs in
  match r with
  | None => Ok x
  | Some (new_da, _) =>
    let y := mkfarr new_da (f_dims x) (f_coords x) in
    match da_name (f_da x), f_dims x with
    | Some old, [d] => if rename_dim && oeqb (Some old) d then xr_rename [(Some old, da_name new_da)] y else Ok y
    | _, _ => Ok y
    end
  end.
(** lines 1902-1930: rename_dataarray *)
Definition rename_dataarray (sg : sgloc) (cs : catspecs) (x : farr) (name : option string)
    (specialize : bool) (loc : larg) (standardize rename_dim : bool) : res farr :=
  cat_format sg cs x name loc AttrsFalse standardize specialize rename_dim false.

(** lines 1013-1024: the loop on the coordinates.  The key [cda.name] is read after the call. *)
Fixpoint coords_loop (sg : sgloc) (ccs : catspecs) (loc : larg) (standardize replace_attrs : bool)
    (cmap : dict string) (todo : list (option string * fvar))
    (rargs : list (option string * option string))
    : res (list (option string * fvar) * list (option string * option string)) :=
  match todo with
  | [] => Ok ([], rargs)
  | (cname, v) :: todo' =>
    let* r := format_name sg ccs (mkdarr cname (v_attrs v))
                (match cname with Some c => dget cmap c | None => None end)
                loc AttrsTrue standardize false replace_attrs in
    let* s := coords_loop sg ccs loc standardize replace_attrs cmap todo'
                (oset rargs (da_name (fst r)) (snd r)) in
    Ok ((cname, mkfvar (da_attrs (fst r)) (v_dims v)) :: fst s, snd s)
  end.

(** lines 938-1034: format_data_var.  The first component is the array worked on (the argument
    itself when [copy=False]) after the call. *)
Inductive fret := RArr (x : farr) | RName (n : option string).
Definition format_data_var (sg : sgloc) (vcs ccs : catspecs) (x : farr) (name : option string)
    (rename specialize : bool) (at_ : attrs_arg) (replace_attrs format_coords : bool)
    (cmap : dict string) (loc : larg) (standardize : bool) : res (farr * fret) :=
  let* r := format_name sg vcs (f_da x) name loc at_ standardize specialize replace_attrs in
  let '(da1, new_name) := r in
  let da1 := if rename && truthy new_name then mkdarr new_name (da_attrs da1) else da1 in
  let* c := if format_coords
            then coords_loop sg ccs loc standardize replace_attrs cmap (f_coords x) []
            else Ok (f_coords x, []) in
  let x1 := mkfarr da1 (f_dims x) (fst c) in
  let* y := if rename && match snd c with [] => false | _ => true end
            then xr_rename (snd c) x1 else Ok x1 in
  if negb rename && match name with None => true | _ => false end
  then Ok (x1, RName new_name) else Ok (x1, RArr y).
(** The caller's array after the call *)
Definition after {A} (copy : bool) (x : A) (r : A * fret) : A := if copy then x else fst r.

(** lines 1036-1073: format_dataset *)
Record fds := mkfds { d_vars : list (option string * fvar); d_coords : list (option string * fvar) }.
Definition ds_rename (d : list (option string * option string)) (x : fds) : res fds :=
  let all := (d_vars x ++ d_coords x)%list in
  if negb (forallb (fun kv => existsb (oeqb (fst kv)) (map fst all ++ List.concat (map (fun kv => v_dims (snd kv)) all))%list) d)
  then Raise ValueError else
  let vs := rename_vars d (d_vars x) in
  let cs := rename_vars d (d_coords x) in
  if odistinct (map fst (vs ++ cs)%list) then Ok (mkfds vs cs) else Raise ValueError.
(** lines 1047-1053 *)
Fixpoint ds_vars_loop (sg : sgloc) (vcs : catspecs) (loc : larg) (rename replace_attrs : bool)
    (todo : list (option string * fvar)) (rargs : list (option string * option string))
    : res (list (option string * fvar) * list (option string * option string)) :=
  match todo with
  | [] => Ok ([], rargs)
  | (n, v) :: todo' =>
    let* r := format_name sg vcs (mkdarr n (v_attrs v)) None loc AttrsTrue true false replace_attrs in
    let* s := ds_vars_loop sg vcs loc rename replace_attrs todo'
                (if rename && truthy (snd r) then oset rargs (da_name (fst r)) (snd r) else rargs) in
    Ok ((n, mkfvar (da_attrs (fst r)) (v_dims v)) :: fst s, snd s)
  end.
(** lines 1055-1071 ([standardize=True] whatever the argument, and [coords] is not used) *)
Fixpoint ds_coords_loop (sg : sgloc) (ccs : catspecs) (loc : larg) (rename replace_attrs : bool)
    (todo : list (option string * fvar)) (rargs : list (option string * option string))
    : res (list (option string * fvar) * list (option string * option string)) :=
  match todo with
  | [] => Ok ([], rargs)
  | (n, v) :: todo' =>
    let* r := format_name sg ccs (mkdarr n (v_attrs v)) None loc AttrsTrue true false replace_attrs in
    let* s := ds_coords_loop sg ccs loc rename replace_attrs todo'
                (if rename then oset rargs (da_name (fst r)) (snd r) else rargs) in
    Ok ((n, mkfvar (da_attrs (fst r)) (v_dims v)) :: fst s, snd s)
  end.
Definition format_dataset (sg : sgloc) (vcs ccs : catspecs) (x : fds) (loc : larg)
    (rename standardize format_coords : bool) (cmap : dict string) (replace_attrs : bool)
    : res (fds * fds) :=
  let* v := ds_vars_loop sg vcs loc rename replace_attrs (d_vars x) [] in
  let* c := if format_coords then ds_coords_loop sg ccs loc rename replace_attrs (d_coords x) (snd v)
            else Ok (d_coords x, snd v) in
  let x1 := mkfds (fst v) (fst c) in
  let* y := if rename && match snd c with [] => false | _ => true end
            then ds_rename (snd c) x1 else Ok x1 in
  Ok (x1, y).

(** lines 1091-1105: fill_attrs of an array and of a dataset, with the default [copy=True]: what is
    returned, and the caller's object *)
Definition fill_attrs_array (sg : sgloc) (vcs ccs : catspecs) (x : farr) (copy : bool) : res (farr * fret) :=
  let* r := format_data_var sg vcs ccs x None false false AttrsTrue false true [] LNone true in
  Ok (after copy x r, snd r).
Definition fill_attrs_dataset (sg : sgloc) (vcs ccs : catspecs) (x : fds) (copy : bool) : res (fds * fds) :=
  let* r := format_dataset sg vcs ccs x LNone false true true [] false in
  Ok ((if copy then x else fst r), snd r).
