(** Model of the loading of CF specifications, xoa/cf.py:573-682 and 752-785, with its
    in-memory cache.
    Simplifications: of a configuration, only the section [dims] and, in the section [coords],
    the attribute [axis] and the list [name] of the entries are represented; inheritance is not
    (see CFInherit.v).  Lists are objects with an address, since [dict_merge] (called with
    mergelists=True) and the post processing extend them in place; the dictionaries are
    represented by value. *)
From Verif Require Export PyDict.
Open Scope nat_scope.
Open Scope string_scope.

Definition addr := nat.
Definition lheap := list (list string).
Definition rd (h : lheap) (a : addr) : list string := nth a h [].
Fixpoint wr (h : lheap) (a : addr) (l : list string) : lheap :=
  match h, a with
  | [], _ => []
  | _ :: r, O => l :: r
  | x :: r, S a' => x :: wr r a' l
  end.

(** A validated configuration, as read from its source *)
Record src := mksrc { s_dims : dict (unit * list string); s_coords : dict (string * list string) }.
(** A loaded configuration: lists are references.  For a coordinate: its axis ("" if none) and
    its names. *)
Record cfg := mkcfg { c_dims : dict (unit * addr); c_coords : dict (string * addr) }.
Definition empty_src := mksrc [] [].

(** [cfgm.load(cfg).dict()], line 629: new lists *)
Fixpoint alloc_sec {A} (l : dict (A * list string)) (h : lheap) : dict (A * addr) * lheap :=
  match l with
  | [] => ([], h)
  | (k, (x, v)) :: l' =>
    let (r, h') := alloc_sec l' (h ++ [v])%list in ((k, (x, List.length h)) :: r, h')
  end.
Definition alloc_src (s : src) (h : lheap) : cfg * lheap :=
  let (d, h1) := alloc_sec (s_dims s) h in
  let (c, h2) := alloc_sec (s_coords s) h1 in
  (mkcfg d c, h2).

(** A source: a file name, a tuple (cache key, file name), or something else (a dictionary,
    a multi-line string, other specifications) *)
Inductive ref := RName (n : string) | RTuple (k n : string) | RText (s : src).
Record state := mkst { st_heap : lheap; st_cache : dict cfg }.
Definition store (st : state) (k : string) (s : src) (cache : bool) : cfg * state :=
  let (c, h) := alloc_src s (st_heap st) in
  (c, mkst h (if cache then dset (st_cache st) k c else st_cache st)).

(** lines 589-637: _load_cfg_as_dict_; [disk] gives the current contents of the files.
    (A tuple without cache is taken for a list of lines by ConfigObj, whose parse error is
    a SyntaxError, here ValueError.) *)
Definition load_one (cache : bool) (disk : string -> res src) (st : state) (r : ref) : res (cfg * state) :=
  match r with
  | RText s => Ok (store st "" s false)
  | RName n =>
    match (if cache then dget (st_cache st) n else None) with
    | Some c => Ok (c, st)
    | None => let* s := disk n in Ok (store st n s cache)
    end
  | RTuple k n =>
    if cache then
      if dmem (st_cache st) k then
        match dget (st_cache st) n with Some c => Ok (c, st) | None => Raise KeyError end
      else let* s := disk n in Ok (store st k s true)
    else Raise ValueError
  end.
Fixpoint load_all (cache : bool) (disk : string -> res src) (st : state) (rs : list ref)
  : res (list cfg * state) :=
  match rs with
  | [] => Ok ([], st)
  | r :: rs' =>
    let* p := load_one cache disk st r in
    let* q := load_all cache disk (snd p) rs' in
    Ok (fst p :: fst q, snd q)
  end.

(** line 674: dict_merge with mergesubdicts, mergelists and overwriteempty, without uniquify
    (the option [unique=True] of _CF_DICT_MERGE_KWARGS, lines 54-62, does not exist).
    One entry of a section: [join] merges what is not a list. *)
Definition merge_entry {A} (join : A -> A -> A) (oh : dict (A * addr) * lheap) (e : string * (A * addr))
  : dict (A * addr) * lheap :=
  let (out, h) := oh in
  let '(k, (x, b)) := e in
  match dget out k with
  | None => (dset out k (x, b), h)
  | Some (x0, a) =>
    match rd h a with
    | [] => (dset out k (join x0 x, b), h)
    | l => (dset out k (join x0 x, a), wr h a (l ++ rd h b)%list)
    end
  end.
Definition merge_sec {A} (join : A -> A -> A) (out : dict (A * addr)) (d : dict (A * addr)) (h : lheap) :=
  fold_left (merge_entry join) d (out, h).
Definition join_unit (_ _ : unit) : unit := tt.
Definition join_axis (a b : string) : string := if a =? "" then b else a.
Definition merge_cfg (c : cfg) (d : cfg) (h : lheap) : cfg * lheap :=
  let (x, h1) := merge_sec join_unit (c_dims c) (c_dims d) h in
  let (y, h2) := merge_sec join_axis (c_coords c) (c_coords d) h1 in
  (mkcfg x y, h2).
Fixpoint merge_all (out : cfg) (cs : list cfg) (h : lheap) : cfg * lheap :=
  match cs with
  | [] => (out, h)
  | c :: cs' => let (o, h') := merge_cfg out c h in merge_all o cs' h'
  end.

(** lines 780-785: update of the valid dimensions *)
Fixpoint update_dims (dims : dict (unit * addr)) (coords : dict (string * addr)) (h : lheap) : res lheap :=
  match coords with
  | [] => Ok h
  | (name, (axis, b)) :: coords' =>
    if axis =? "" then update_dims dims coords' h
    else match dget dims (lower axis) with
         | None => Raise KeyError
         | Some (_, a) => update_dims dims coords' (wr h a (rd h a ++ name :: rd h b)%list)
         end
  end.

(** lines 639-681: load_cfg; [refs] is the list of all the sources (the given ones, then the
    user file if any, then the default file, or a single empty one).  The new content of the
    specifications does not depend on the previous one, which is not an argument. *)
Definition load_cfg (cache : bool) (disk : string -> res src) (refs : list ref) (st : state)
  : res (cfg * state) :=
  let* p := load_all cache disk st (match refs with [] => [RText empty_src] | _ => refs end) in
  let (c, h) := merge_all (mkcfg [] []) (fst p) (st_heap (snd p)) in
  let* h' := update_dims (c_dims c) (c_coords c) h in
  Ok (c, mkst h' (st_cache (snd p))).
Definition to_load (given : list ref) (user : option string) (default : bool) : list ref :=
  (given ++ match user with Some u => [RName u] | None => [] end ++
   if default then [RName "cf.cfg"] else [])%list.

(** lines 752-759, 1546-1555: set_specs and set_specs_from_cfg load the new entry with the user
    and default files *)
Record specs := mkspecs { sp_cfg : cfg; sp_user : option string; sp_default : bool }.
Definition set_specs (cache : bool) (disk : string -> res src) (sp : specs) (entry : src) (st : state)
  : res (specs * state) :=
  let* r := load_cfg cache disk (to_load [RText entry] (sp_user sp) (sp_default sp)) st in
  Ok (mkspecs (fst r) (sp_user sp) (sp_default sp), snd r).

(** What the user sees *)
Definition valid_dims (st : state) (c : cfg) (ax : string) : option (list string) :=
  match dget (c_dims c) ax with Some (_, a) => Some (rd (st_heap st) a) | None => None end.
Definition coord_view (st : state) (c : cfg) (name : string) : option (string * list string) :=
  match dget (c_coords c) name with Some (x, a) => Some (x, rd (st_heap st) a) | None => None end.
