(** Model of the functions that get given coordinates, xoa/coords.py:29-160, of the matching and
    searching methods of CFSpecs over both categories, xoa/cf.py:1160-1207 and 1350-1395, and of
    its container methods, xoa/cf.py:712-721 and 1483-1540. *)
From Verif Require Export CFSearch.
Open Scope string_scope.

(** ** xoa/coords.py.  [specs c]: the entries of a category and the items that it scans;
    [ds]: whether the object is a dataset *)
Section getters.
  Variable sg : sgloc.
  Variable specs : category -> catspecs * list darr.
  Variable ds : bool.
  (** lines 29-84, get_lon, get_lat, get_depth, get_altitude: [errors] is not used and that of
      CFSpecs.search is "warn" (cf.py:1351) *)
  Definition get_named (n : string) (errors : errs) : res (option (darr * string)) :=
    specs_search sg specs ds CatNone (Some n) MAny EWarn.
  Definition get_lon := get_named "lon".
  Definition get_lat := get_named "lat".
  Definition get_depth := get_named "depth".
  Definition get_altitude := get_named "altitude".
  (** lines 87-99 and 129-141, get_level and get_time: that of _CFCatSpecs_.search is "raise" *)
  Definition get_coord (n : string) : res (option (darr * string)) :=
    search_single sg (fst (specs Coords)) (snd (specs Coords)) (Some n) MAny ERaise.
  Definition get_level (errors : errs) := get_coord "level".
  Definition get_time := get_coord "time".
  (** lines 102-126; [misc.ERRORS["errors"]], misc.py:210-216 and 259-264 *)
  Definition ERRORS : Choices := Choices_init [CvStr "ignore"; CvStr "warn"; CvStr "raise"] true.
  Definition get_vertical (errors : errs) : res (option (darr * string)) :=
    let* h := specs_search sg specs ds CatNone (Some "depth") MAny EIgnore in
    match h with
    | Some x => Ok (Some x)
    | None =>
      let* h := specs_search sg specs ds CatNone (Some "altitude") MAny EIgnore in
      match h with
      | Some x => Ok (Some x)
      | None => let* e := choices_getitem ERRORS (CvStr "errors") in
                if cval_eqb e (CvStr "raise") then Raise XoaCFError else Ok None
      end
    end.
  (** lines 144-157; CFSpecs.search_coord, cf.py:1210-1258, "warn" *)
  Definition get_cf_coords (names : list string) (errors : errs) : res (list (option (darr * string))) :=
    map_res (fun n => search_single sg (fst (specs Coords)) (snd (specs Coords)) (Some n) MAny EWarn) names.
End getters.

(** ** xoa/cf.py:1160-1207: get_category and match *)
Definition get_category (a : xda) : category :=
  match da_name (x_da a) with
  | Some n => if existsb (String.eqb n) (x_dims a) || dmem (x_coords a) n then Coords else DataVars
  | None => DataVars
  end.
Definition match_order (c : category) : list category :=
  match c with DataVars => [DataVars; Coords] | Coords => [Coords; DataVars] end.
Fixpoint match_cats (sg : sgloc) (specs : category -> catspecs) (da : darr) (loc : mloc) (l : list category)
    : res (option (category * string)) :=
  match l with
  | [] => Ok None
  | c :: l' =>
    let* m := match_any sg (specs c) da loc in
    match m with
    | Some n => if nonempty n then Ok (Some (c, n)) else match_cats sg specs da loc l'
    | None => match_cats sg specs da loc l'
    end
  end.
Definition specs_match (sg : sgloc) (specs : category -> catspecs) (a : xda) (loc : mloc) : res (option (category * string)) :=
  match_cats sg specs (x_da a) loc (match_order (get_category a)).

(** ** CFSpecs.search with [single=False], cf.py:1377-1388.  [get]: what is returned for a found
    item; [same]: the comparison of two of them, [a is b or a == b] *)
Section multi.
  Context {A : Type}.
  Variable get : darr * string -> A.
  Variable same : A -> A -> res bool.
  Fixpoint is_in (r : A) (found : list A) : res bool :=
    match found with
    | [] => Ok false
    | x :: l => let* b := same x r in if b : bool then Ok true else is_in r l
    end.
  Fixpoint new_ones (l found : list A) : res (list A) :=
    match l with
    | [] => Ok []
    | r :: l' => let* b := is_in r found in let* n := new_ones l' found in Ok (if b : bool then n else r :: n)
    end.
  Fixpoint search_multi (sg : sgloc) (cats : list (catspecs * list darr)) (name : option string) (loc : mloc)
      (found : list A) : res (list A) :=
    match cats with
    | [] => Ok found
    | (cs, objs) :: cats' =>
      let* r := search_all sg cs objs name loc EIgnore in
      match r with
      | None => Raise TypeError                        (* [for r in None] *)
      | Some l => let* n := new_ones (map get l) found in search_multi sg cats' name loc (found ++ n)%list
      end
    end.
End multi.

(** ** Containers: cf.py:712-721 and 1483-1540.  What is found under a name: a category, an entry
    of a category, or a section of the configuration (dims, sglocator, ...) *)
Inductive thing := TCat (c : category) | TEntry (c : category) (n : nat) | TSection (n : nat).
Definition cat_named (s : string) : option category :=
  if String.eqb s "data_vars" then Some DataVars else if String.eqb s "coords" then Some Coords else None.
Definition specs_getitem (dv co secs : dict nat) (s : string) : res thing :=
  match cat_named s with
  | Some c => Ok (TCat c)
  | None =>
    match dget dv s with
    | Some n => Ok (TEntry DataVars n)
    | None =>
      match dget co s with
      | Some n => Ok (TEntry Coords n)
      | None => match dget secs s with Some n => Ok (TSection n) | None => Raise KeyError end
      end
    end
  end.
Definition specs_contains (s : string) : bool := match cat_named s with Some _ => true | None => false end.
(** lines 1483-1540: [errors] is "warn" in __getitem__ *)
Definition get_specs (d : dict nat) (name : string) (errors : errs) : res (option nat) :=
  match dget d name with
  | Some n => Ok (Some n)
  | None => match errors with ERaise => Raise XoaCFError | _ => Ok None end
  end.
