(** Model of the matching and of the searches of CF specifications: xoa/cf.py:1181-1407,
    1557-1705 and 1945-2254. *)
From Verif Require Export Misc.
From Verif Require Export SGLoc.
Open Scope string_scope.

(** References of an attribute in the specifications: a list, a string (axis) or None *)
Inductive refs := RefList (l : list string) | RefStr (s : string) | RefNone.
(** What is used of the specifications of an entry (C28) *)
Record spec := mkspec { s_order : string; s_names : list string; s_attrs : dict refs }.
Definition catspecs := dict spec.
(** [for ref in refs] *)
Fixpoint chars (s : string) : list string :=
  match s with EmptyString => [] | String c s' => String c "" :: chars s' end.
Definition iter_refs (r : refs) : res (list string) :=
  match r with RefList l => Ok l | RefStr s => Ok (chars s) | RefNone => Raise TypeError end.

(** xoa/cf.py:1557-1575 _get_ordered_match_specs_ *)
Definition match_keys : list string := ["name"; "standard_name"; "long_name"; "axis"; "units"].
Definition has_letter (c : string) (attr : string) : bool := startswith attr c.
Definition add_spec (name : string) (sp : spec) (c : string) (ms : dict refs) (attr : string) : dict refs :=
  if has_letter c attr then
    if String.eqb attr "name" then dset ms "name" (RefList (name :: s_names sp))
    else match dget (s_attrs sp) attr with Some r => dset ms attr r | None => ms end
  else ms.
Definition ordered_match_specs (name : string) (sp : spec) : dict refs :=
  fold_left (fun ms c => fold_left (add_spec name sp c) match_keys ms) (chars (s_order sp)) [].

(** xoa/cf.py:1612-1619: one value, one reference *)
Definition match_value (sg : sgloc) (attr v ref : string) (loc : mloc) : res bool :=
  let* b := if is_valid_attr attr then match_attr sg attr v ref loc else Ok None in
  match b with
  | Some true => Ok true
  | _ => Ok (match_string (Some v) (One (CStr ref)) true None)
  end.
Fixpoint match_refs (sg : sgloc) (attr v : string) (l : list string) (loc : mloc) : res bool :=
  match l with
  | [] => Ok false
  | r :: l' => let* b := match_value sg attr v r loc in if b then Ok true else match_refs sg attr v l' loc
  end.
(** [getattr(da, attr, None)].  (Simplification: xarray also looks for a coordinate with this
    name.) *)
Definition da_get (da : darr) (attr : string) : aval :=
  if String.eqb attr "name" then match da_name da with Some n => VStr n | None => VNone end
  else get_aval (da_attrs da) attr.
(** lines 1605-1619 *)
Fixpoint match_specs (sg : sgloc) (da : darr) (ms : dict refs) (loc : mloc) : res bool :=
  match ms with
  | [] => Ok false
  | (attr, r) :: ms' =>
    let* b := match da_get da attr with
              | VNone => Ok false
              | VStr v => let* l := iter_refs r in match_refs sg attr v l loc
              | _ => let* l := iter_refs r in       (* a value without strip nor lower *)
                     match l with [] => Ok false | _ => Raise AttributeError end
              end in
    if b then Ok true else match_specs sg da ms' loc
  end.
(** lines 1576-1625: match of a name, or of any *)
Definition match_name (sg : sgloc) (cs : catspecs) (da : darr) (name : string) (loc : mloc) : res bool :=
  match dget cs name with
  | None => Raise XoaCFError
  | Some sp => match_specs sg da (ordered_match_specs name sp) loc
  end.
Fixpoint match_any (sg : sgloc) (todo : catspecs) (da : darr) (loc : mloc) : res (option string) :=
  match todo with
  | [] => Ok None
  | (name, sp) :: todo' =>
    let* b := match_specs sg da (ordered_match_specs name sp) loc in
    if b then Ok (Some name) else match_any sg todo' da loc
  end.

(** xoa/cf.py:1627-1705 search.  [objs]: the values of [dsa.data_vars] or [dsa.coords]; their
    names are keys.  The state: the found items with their CF name, and the sticky [name]. *)
Inductive errs := ERaise | EWarn | EIgnore.
Fixpoint scan (sg : sgloc) (cs : catspecs) (loc : mloc) (arg : option (dict refs))
    (objs : list darr) (name : option string) (found : list (darr * string))
    : res (option string * list (darr * string)) :=
  match objs with
  | [] => Ok (name, found)
  | obj :: objs' =>
    let* m := match arg with
              | Some ms => let* b := match_specs sg obj ms loc in
                           Ok (if b then name else None)
              | None => match_any sg cs obj loc
              end in
    match m with
    | None => scan sg cs loc arg objs' name found
    | Some m =>
      if existsb (fun f => match da_name (fst f), da_name obj with
                           | Some a, Some b => String.eqb a b
                           | None, None => true
                           | _, _ => false end) found
      then scan sg cs loc arg objs' name found
      else
        let n := match name with Some n => n | None => m end in
        scan sg cs loc arg objs' (Some n) (found ++ [(obj, n)])%list
    end
  end.
Fixpoint scan_all (sg : sgloc) (cs : catspecs) (loc : mloc) (args : list (option (dict refs)))
    (objs : list darr) (name : option string) (found : list (darr * string))
    : res (list (darr * string)) :=
  match args with
  | [] => Ok found
  | a :: args' =>
    let* r := scan sg cs loc a objs name found in
    scan_all sg cs loc args' objs (fst r) (snd r)
  end.
(** lines 1665-1690; [None] when the name is unknown and [errors] is not "raise" *)
Definition search_all (sg : sgloc) (cs : catspecs) (objs : list darr) (name : option string)
    (loc : mloc) (errors : errs) : res (option (list (darr * string))) :=
  match name with
  | Some n =>
    match dget cs n with
    | None => match errors with ERaise => Raise XoaCFError | _ => Ok None end
    | Some sp =>
      let* f := scan_all sg cs loc (map (fun kv => Some [kv]) (ordered_match_specs n sp)) objs name [] in
      Ok (Some f)
    end
  | None => let* f := scan_all sg cs loc [None] objs None [] in Ok (Some f)
  end.
(** lines 1691-1705: [single=True] *)
Definition search_single (sg : sgloc) (cs : catspecs) (objs : list darr) (name : option string)
    (loc : mloc) (errors : errs) : res (option (darr * string)) :=
  let* f := search_all sg cs objs name loc errors in
  match f with
  | None => Ok None
  | Some found =>
    match errors, found with
    | ERaise, _ :: _ :: _ => Raise XoaCFError
    | ERaise, [] => Raise XoaCFError
    | _, x :: _ => Ok (Some x)
    | _, [] => Ok None
    end
  end.

(** ** CFSpecs.search, lines 1350-1395, single: the categories in turn, [errors="ignore"] *)
Fixpoint search_cats (sg : sgloc) (cats : list (catspecs * list darr)) (name : option string)
    (loc : mloc) (errors : errs) : res (option (darr * string)) :=
  match cats with
  | [] => match errors with ERaise => Raise XoaCFError | _ => Ok None end
  | (cs, objs) :: cats' =>
    let* r := search_single sg cs objs name loc EIgnore in
    match r with Some x => Ok (Some x) | None => search_cats sg cats' name loc errors end
  end.
(** lines 698-701 and 1370-1376: the categories that are scanned.  [is_dataset]: whether the
    object has data_vars.  A list of categories is not used. *)
Inductive category := DataVars | Coords.
Inductive cats_arg := CatNone | CatOne (c : category) | CatList (l : list category).
Definition used_categories (is_dataset : bool) (arg : cats_arg) : list category :=
  match arg with
  | CatNone | CatList [] => if is_dataset then [DataVars; Coords] else [Coords; DataVars]
  | CatOne c => [c]
  | CatList (_ :: _) => [DataVars; Coords]
  end.
(** [specs c]: the entries of the category and the items of the object that it scans
    (lines 1660-1664) *)
Definition specs_search (sg : sgloc) (specs : category -> catspecs * list darr) (is_dataset : bool) (arg : cats_arg)
    (name : option string) (loc : mloc) (errors : errs) : res (option (darr * string)) :=
  search_cats sg (map specs (used_categories is_dataset arg)) name loc errors.

(** ** Dimensions.  An array with its dimensions and coordinates. *)
Record cda := mkcda { c_da : darr; c_dims : list string }.
Record xda := mkxda { x_da : darr; x_dims : list string; x_coords : dict cda }.

(** xoa/cf.py:1945-1975 get_axis ([lower=True]) *)
Definition get_axis (sg : sgloc) (cs : catspecs) (da : darr) : res (option string) :=
  match dget (da_attrs da) "axis" with
  | Some (VStr s) => Ok (Some (lower s))
  | Some VNone => Ok None
  | Some _ => Raise AttributeError
  | None =>
    let* m := match_any sg cs da MAny in
    match m with
    | None => Ok None
    | Some n =>
      match dget cs n with
      | None => Raise KeyError
      | Some sp => match dget (s_attrs sp) "axis" with
                   | None => Raise KeyError
                   | Some RefNone => Ok None
                   | Some (RefStr s) => Ok (Some (lower s))
                   | Some (RefList _) => Raise AttributeError
                   end
      end
    end
  end.

(** xoa/cf.py:2011-2029 get_dim_type *)
Definition known_type (dims : dict (list string)) (root : string) : option string :=
  match List.find (fun kv : string * list string => existsb (String.eqb (lower root)) (snd kv)) dims with
  | Some (t, _) => Some t
  | None => None
  end.
Definition get_dim_type (sg : sgloc) (cs : catspecs) (dims : dict (list string))
    (dim : string) (da : option xda) : res (option string) :=
  let* p := parse_attr sg "name" dim in
  let root := fst p in
  match known_type dims root with
  | Some t => Ok (Some t)
  | None =>
    match da with
    | None => Ok None
    | Some a =>
      if negb (existsb (String.eqb root) (x_dims a)) then Raise XoaCFError else
      match dget (x_coords a) root with
      | Some c => get_axis sg cs (c_da c)
      | None => let* ax := get_axis sg cs (x_da a) in
                Ok (match ax with Some s => if nonempty s then Some s else None | None => None end)
      end
    end
  end.

(** xoa/cf.py:2086-2121 search_dim with a [dim_type]; [loc]: None for "any" or an empty one *)
Definition skip_loc (loc ploc : option string) : bool :=
  match loc, ploc with
  | Some l, Some p => negb (String.eqb l "any") && nonempty p && nonempty l && negb (String.eqb l p)
  | _, _ => false
  end.
Fixpoint search_dim_loop (sg : sgloc) (cs : catspecs) (dims : dict (list string)) (a : xda)
    (t : string) (loc : option string) (todo : list string) : res (option string) :=
  match todo with
  | [] => Ok None
  | dim :: todo' =>
    let* p := parse_attr sg "name" dim in
    if skip_loc loc (snd p) then search_dim_loop sg cs dims a t loc todo'
    else
      let* ty := get_dim_type sg cs dims dim (Some a) in
      match ty with
      | Some ty => if nonempty ty && String.eqb ty t then Ok (Some dim) else search_dim_loop sg cs dims a t loc todo'
      | None => search_dim_loop sg cs dims a t loc todo'
      end
  end.
Definition search_dim (sg : sgloc) (cs : catspecs) (dims : dict (list string)) (a : xda)
    (dim_type : string) (loc : option string) : res (option string) :=
  search_dim_loop sg cs dims a (lower dim_type) loc (x_dims a).

(** search_dim without [dim_type]; [last]: the variable [this_dim_type] (None if unbound) *)
Fixpoint search_dim0_loop (sg : sgloc) (cs : catspecs) (dims : dict (list string)) (a : xda)
    (t : option string) (loc : option string) (todo : list string) (last : option (option string))
    : res (option (string * string) * option (option string)) :=
  match todo with
  | [] => Ok (None, last)
  | dim :: todo' =>
    let* p := parse_attr sg "name" dim in
    if skip_loc loc (snd p) then search_dim0_loop sg cs dims a t loc todo' last
    else
      let* ty := get_dim_type sg cs dims dim (Some a) in
      match t, ty with
      | Some t', Some ty' =>
        if nonempty t' && nonempty ty' && String.eqb ty' t' then Ok (Some (dim, t'), Some ty)
        else search_dim0_loop sg cs dims a t loc todo' (Some ty)
      | _, _ => search_dim0_loop sg cs dims a t loc todo' (Some ty)
      end
  end.
Definition search_dim0 (sg : sgloc) (cs : catspecs) (dims : dict (list string)) (a : xda)
    (loc : option string) : res (option (string * option string)) :=
  let* t := get_axis sg cs (x_da a) in
  let* r := search_dim0_loop sg cs dims a t loc (x_dims a) None in
  match fst r with
  | Some (d, t) => Ok (Some (d, Some t))
  | None =>
    match x_dims a with
    | [dim] => match snd r with
               | Some ty => Ok (Some (dim, ty))
               | None => Raise UnboundLocalError
               end
    | _ => Ok None
    end
  end.

(** xoa/cf.py:2123-2177 search_from_dim; a stable sort by decreasing number of dimensions *)
Fixpoint insert_ndim (c : cda) (l : list cda) : list cda :=
  match l with
  | [] => [c]
  | x :: l' => if (List.length (c_dims x) <=? List.length (c_dims c))%nat then c :: l else x :: insert_ndim c l'
  end.
Fixpoint sort_ndim (l : list cda) : list cda :=
  match l with [] => [] | c :: l' => insert_ndim c (sort_ndim l') end.
Fixpoint first_axis (sg : sgloc) (cs : catspecs) (dim t : string) (l : list cda) : res (option cda) :=
  match l with
  | [] => Ok None
  | c :: l' =>
    if existsb (String.eqb dim) (c_dims c) then
      let* ax := get_axis sg cs (c_da c) in
      match ax with
      | Some s => if nonempty s && String.eqb s t then Ok (Some c) else first_axis sg cs dim t l'
      | None => first_axis sg cs dim t l'
      end
    else first_axis sg cs dim t l'
  end.
Definition search_from_dim (sg : sgloc) (cs : catspecs) (dims : dict (list string)) (a : xda) (dim : string)
    : res (option cda) :=
  if negb (existsb (String.eqb dim) (x_dims a)) then Raise XoaError else
  let other := existsb (fun kv : string * cda => negb (String.eqb (fst kv) dim) && existsb (String.eqb dim) (c_dims (snd kv))) (x_coords a) in
  match (if other then None else dget (x_coords a) dim) with
  | Some c => Ok (Some c)
  | None =>
    let* t := get_dim_type sg cs dims dim (Some a) in
    match t with
    | None => Ok None
    | Some t => first_axis sg cs dim t (sort_ndim (map snd (x_coords a)))
    end
  end.

(** xoa/cf.py:2179-2240 get_dims *)
Fixpoint scan_types (sg : sgloc) (cs : catspecs) (dims : dict (list string)) (a : xda)
    (types : list string) (scanned : dict (option string)) : res (dict (option string)) :=
  match types with
  | [] => Ok scanned
  | t :: types' =>
    let* d := search_dim sg cs dims a t None in
    scan_types sg cs dims a types' (dset scanned t d)
  end.
(** [positions[::-1]] is given reversed; [i] is the index *)
Fixpoint positional (a : xda) (not_found : list string) (rpos : list string) (i : nat)
    (scanned : dict (option string)) : res (dict (option string)) :=
  match rpos with
  | [] => Ok scanned
  | t :: rpos' =>
    if existsb (String.eqb t) not_found then
      match nth_error (rev (x_dims a)) i with
      | None => Raise IndexError
      | Some d => positional a not_found rpos' (S i) (dset scanned t (Some d))
      end
    else positional a not_found rpos' (S i) scanned
  end.
Definition unfound (d : dict (option string)) : list string :=
  map fst (List.filter (fun kv : string * option string => match snd kv with None => true | _ => false end) d).
Definition get_dims (sg : sgloc) (cs : catspecs) (dims : dict (list string)) (a : xda)
    (types : list string) (allow_positional : bool) (positions : list string) (errors : errs)
    : res (list (option string)) :=
  if match errors with ERaise => (List.length (x_dims a) <? List.length types)%nat | _ => false end then Raise XoaError else
  let* scanned := scan_types sg cs dims a types [] in
  let* scanned := if allow_positional then positional a (unfound scanned) (rev positions) 0 scanned else Ok scanned in
  match errors, unfound scanned with
  | ERaise, _ :: _ => Raise XoaError
  | _, _ => Ok (map snd scanned)
  end.
