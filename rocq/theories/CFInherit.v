(** Model of CFSpecs._post_process_ and _process_entry_ (xoa/cf.py:761-885), by value:
    the specifications are those freshly read from the configurations (simplification: the
    lists shared with the in-memory cache of configurations are in CFCache.v). *)
From Verif Require Export DictMerge PyRe.
Open Scope string_scope.

(** xoa/cf.py:54-62 _CF_DICT_MERGE_KWARGS.  [unique=True] and [skipempty=False] are not
    arguments of dict_merge (they fall in **kwargs and are ignored). *)
Definition cf_opts : mopts := mkopts true true true false false true.
(** The recursion limit is not reached by dict_merge: its depth is that of [b]. *)
Definition cf_merge (a b : dict pyval) : res (dict pyval) :=
  let* r := dict_merge (S (depth (VDict b))) cf_opts [VDict a; VDict b] in
  match r with VDict d => Ok d | _ => Raise TypeError end.

(** self._dict *)
Record cfdict := mkcf { data_vars : dict pyval; coords : dict pyval; dims : dict pyval }.
Definition cat_get (c : cfdict) (cat : string) : res (dict pyval) :=
  if String.eqb cat "data_vars" then Ok (data_vars c)
  else if String.eqb cat "coords" then Ok (coords c) else Raise KeyError.
Definition cat_set (c : cfdict) (cat : string) (d : dict pyval) : cfdict :=
  if String.eqb cat "data_vars" then mkcf d (coords c) (dims c)
  else if String.eqb cat "coords" then mkcf (data_vars c) d (dims c) else c.
(** [d[k]] *)
Definition getitem (d : dict pyval) (k : string) : res pyval :=
  match dget d k with Some v => Ok v | None => Raise KeyError end.
Definition as_dict (v : pyval) : res (dict pyval) :=
  match v with VDict d => Ok d | _ => Raise TypeError end.

(** xoa/cf.ini: keys of the sections [data_vars][__many__] and [coords][__many__] *)
Definition cat_keys (cat : string) : list string :=
  if String.eqb cat "data_vars"
  then ["name"; "domain"; "cmap"; "inherit"; "squeeze"; "search_order"; "attrs"; "select"]
  else ["name"; "domain"; "inherit"; "search_order"; "attrs"].
Definition str_mem (k : string) (l : list string) : bool := existsb (String.eqb k) l.

(** lines 822-829: a long name made of the standard name or of the name.
    ([name.title()] is not modelled: [capitalize] does not depend on the case.) *)
Definition nice (s : string) : string := capitalize (replace_char "_" " " s).
Definition fill_long_name (name : string) (specs : dict pyval) : res (dict pyval) :=
  let* a := getitem specs "attrs" in
  let* attrs := as_dict a in
  let* ln := getitem attrs "long_name" in
  if truthy ln then Ok specs else
  let* sn := getitem attrs "standard_name" in
  let* s := if truthy sn
            then match sn with VList (VStr s :: _) => Ok s | VTuple (VStr s :: _) => Ok s
                 | VStr (String c _) => Ok (String c "") | _ => Raise TypeError end
            else Ok name in
  match ln with
  | VList l => Ok (dset specs "attrs" (VDict (dset attrs "long_name" (VList (l ++ [VStr (nice s)])))))
  | _ => Raise AttributeError
  end.

(** lines 835-839: "category:name" or a name of the same category *)
Fixpoint split_colon (s : string) : string * option string :=
  match s with
  | EmptyString => (EmptyString, None)
  | String c s' =>
    if Ascii.eqb c ":" then (EmptyString, Some s')
    else let (a, b) := split_colon s' in (String c a, b)
  end.
Definition parent_of (cat s : string) : string * string :=
  match split_colon s with
  | (a, Some rest) => (a, fst (split_colon rest))
  | (a, None) => (cat, a)
  end.
(** lines 831-833: the parent, if any *)
Definition inherit_of (cat : string) (specs : dict pyval) : res (option (string * string)) :=
  match dget specs "inherit" with
  | None => Ok None
  | Some v => if truthy v then match v with VStr s => Ok (Some (parent_of cat s)) | _ => Raise TypeError end
              else Ok None
  end.
(** lines 857-862: keys of the other category *)
Definition drop_foreign (cat from_cat : string) (specs : dict pyval) : dict pyval :=
  if String.eqb cat from_cat then specs
  else List.filter (fun kv => negb (negb (str_mem (fst kv) (cat_keys cat)) && str_mem (fst kv) (cat_keys from_cat))) specs.

Definition item := (string * string * dict pyval)%type.
(** lines 788-885; the result is the new state and the items that are yielded.  [fuel] is
    Python's recursion limit.  (lines 872-877: [eval] of a dictionary fails and is ignored.) *)
Fixpoint process_entry (fuel : nat) (cat name : string) (st : cfdict) : res (cfdict * list item) :=
  match fuel with
  | O => Raise RecursionError
  | S fuel' =>
    let* entries := cat_get st cat in
    let* e := getitem entries name in
    let* specs := as_dict e in
    let* specs := fill_long_name name specs in
    let st := cat_set st cat (dset entries name (VDict specs)) in
    let* inh := inherit_of cat specs in
    match inh with
    | None =>
      let specs := dset specs "processed" (VBool true) in
      Ok (cat_set st cat (dset entries name (VDict specs)), [(cat, name, specs)])
    | Some (from_cat, from_name) =>
      if String.eqb from_cat cat && String.eqb name from_name then Raise AssertionError else
      let* r := process_entry fuel' from_cat from_name st in
      let '(st, items) := r in
      let* pentries := cat_get st from_cat in
      let* pe := getitem pentries from_name in
      let* parent := as_dict pe in
      let* specs := cf_merge specs parent in
      let specs := drop_foreign cat from_cat specs in
      let specs := dset specs "inherit" VNone in
      let specs := dset specs "processed" (VBool true) in
      let* entries := cat_get st cat in
      Ok (cat_set st cat (dset entries name (VDict specs)), (items ++ [(cat, name, specs)])%list)
    end
  end.

(** lines 768-781 *)
Fixpoint process_all (fuel : nat) (todo : list (string * string)) (st : cfdict) (items : list item)
    : res (cfdict * list item) :=
  match todo with
  | [] => Ok (st, items)
  | (cat, name) :: todo' =>
    let* r := process_entry fuel cat name st in
    let '(st, its) := r in
    process_all fuel todo' st (items ++ its)%list
  end.
Definition refill (cat : string) (items : list item) : dict pyval :=
  fold_left (fun d it => let '(c, n, s) := it in if String.eqb c cat then dset d n (VDict s) else d) items [].
(** lines 783-787: dimension names *)
Definition coord_dims (acc : res (dict pyval)) (kv : string * pyval) : res (dict pyval) :=
  let* dims := acc in
  let* specs := as_dict (snd kv) in
  let* a := getitem specs "attrs" in
  let* attrs := as_dict a in
  let* axis := getitem attrs "axis" in
  if truthy axis then
    match axis with
    | VStr s =>
      let* names := getitem specs "name" in
      match names with
      | VList l =>
        let* old := getitem dims (lower s) in
        match old with
        | VList d => Ok (dset dims (lower s) (VList (d ++ VStr (fst kv) :: l)))
        | _ => Raise AttributeError
        end
      | _ => Raise TypeError
      end
    | _ => Raise AttributeError
    end
  else Ok dims.
Definition post_process (fuel : nat) (st : cfdict) : res cfdict :=
  let todo := (map (pair "data_vars") (dkeys (data_vars st)) ++ map (pair "coords") (dkeys (coords st)))%list in
  let* r := process_all fuel todo st [] in
  let '(st, items) := r in
  let coords := refill "coords" items in
  let* dims := fold_left coord_dims coords (Ok (dims st)) in
  Ok (mkcf (refill "data_vars" items) coords dims).
