(** Model of the accessors: xoa/accessors.py, xoa/__init__.py:508-535 (register_accessors), and of
    CFSpecs.get_category and CFSpecs.match: xoa/cf.py:1161-1207.

    Not modelled: the accessors of xarray themselves, that make one accessor per object, and
    [__getitem__] and [__call__], which are [__getattr__] with any name, and C48. *)
From Verif Require Export CFFormat.
Open Scope string_scope.

(** Specifications: the locator, the entries of both categories, the dimensions *)
Record specs := mkspecs { sp_sg : sgloc; sp_cat : category -> catspecs; sp_dims : dict (list string) }.

(** cf.py:1161-1178 *)
Definition get_category (a : xda) : category :=
  match da_name (x_da a) with
  | Some n => if existsb (String.eqb n) (x_dims a) || dmem (x_coords a) n then Coords else DataVars
  | None => DataVars
  end.
(** cf.py:1181-1207 *)
Fixpoint match_cats (s : specs) (da : darr) (loc : mloc) (cats : list category) : res (option (category * string)) :=
  match cats with
  | [] => Ok None
  | c :: cats' =>
    let* m := match_any (sp_sg s) (sp_cat s c) da loc in
    match m with
    | Some n => if nonempty n then Ok (Some (c, n)) else match_cats s da loc cats'
    | None => match_cats s da loc cats'
    end
  end.
Definition specs_match (s : specs) (a : xda) (loc : mloc) : res (option (category * string)) :=
  match_cats s (x_da a) loc (match get_category a with DataVars => [DataVars; Coords] | Coords => [Coords; DataVars] end).

(** ** The accessor of an array: lines 40-103, 106-144 and 155-180.  The fields are those of the
    instance; [ac_dims]: None as long as [_dims] is not set. *)
Record acc := mkacc { ac_specs : specs; ac_match : option (option (category * string)); ac_attrs : option attrs;
  ac_sub : category -> option specs; ac_dims : option (dict (option string)) }.
Definition new_acc (s : specs) : acc := mkacc s None None (fun _ => None) None.
(** A property that raises AttributeError: Python then calls [__getattr__], which reads the
    properties [name] and [attrs]: an endless recursion. *)
Definition prop {A} (r : res A) : res A := match r with Raise AttributeError => Raise RecursionError | _ => r end.
(** Computations on the accessor: it keeps what was stored before an exception *)
Definition M (A : Type) := acc -> res A * acc.
Definition ret {A} (x : A) : M A := fun c => (Ok x, c).
Definition lift {A} (f : acc -> res A) : M A := fun c => (f c, c).
Definition mbind {A B} (m : M A) (f : A -> M B) : M B := fun c =>
  match m c with (Ok x, c') => f x c' | (Raise e, c') => (Raise e, c') end.
Notation "'let!' x := m 'in' f" := (mbind m (fun x => f)) (at level 200, x binder, m at level 100, f at level 200).
Definition modify (f : acc -> acc) : M unit := fun c => (Ok tt, f c).
(** lines 157-163 *)
Definition acc_match (a : xda) : M (option (category * string)) := fun c =>
  match ac_match c with
  | Some m => (Ok m, c)
  | None => match prop (specs_match (ac_specs c) a (MStr "any")) with
            | Ok m => (Ok m, mkacc (ac_specs c) (Some m) (ac_attrs c) (ac_sub c) (ac_dims c))
            | Raise e => (Raise e, c)
            end
  end.
Definition acc_name (a : xda) : M (option string) := let! m := acc_match a in ret (option_map snd m).
(** lines 165-175 *)
Definition acc_attrs (a : xda) : M attrs := fun c =>
  match ac_attrs c with
  | Some at_ => (Ok at_, c)
  | None =>
    (let! m := acc_match a in
     let! at_ := lift (fun c => let s := ac_specs c in
                 match m with
                 | Some (cat, n) =>
                   prop (let* g := get_attrs (sp_sg s) (sp_cat s cat) n [] None EWarn LNone true true [] in
                         patch_attrs (sp_sg s) (da_attrs (x_da a)) (fst g) LNone true false)
                 | None => Ok []
                 end) in
     let! _ := modify (fun c => mkacc (ac_specs c) (ac_match c) (Some at_) (ac_sub c) (ac_dims c)) in
     ret at_) c
  end.
(** The items of [da.coords] *)
Definition coord_items (a : xda) : list darr := map (fun kv => c_da (snd kv)) (x_coords a).
(** lines 57-63 and 71-75: search in a category, with a warning *)
Inductive gval := GNone | GAttr (v : aval) | GItem (d : darr).
Definition gitem (r : option (darr * string)) : gval := match r with Some (d, _) => GItem d | None => GNone end.
Definition name_arg (n : string) : option string := if nonempty n then Some n else None.
Definition acc_search (a : xda) (attr : string) : M gval := lift (fun c =>
  let* s := search_single (sp_sg (ac_specs c)) (sp_cat (ac_specs c) Coords) (coord_items a) (name_arg attr) (MStr "any") EWarn in
  Ok (gitem s)).
(** lines 177-180: any attribute that the instance does not have *)
Definition acc_getattr (a : xda) (attr : string) : M gval :=
  let! n := acc_name a in
  if truthy n then
    let! at_ := acc_attrs a in
    match dget at_ attr with
    | Some v => ret (GAttr v)
    | None => acc_search a attr
    end
  else acc_search a attr.
(** [v[key]]: a mapping only when it is an array ([item]) *)
Definition subscript (item : darr -> string -> res gval) (v : gval) (key : string) : res gval :=
  match v with GItem d => item d key | _ => Raise TypeError end.
Definition dim_val (d : option string) : gval := match d with Some s => GAttr (VStr s) | None => GNone end.
(** [hasattr] *)
Definition hasattr (m : M gval) : M bool := fun c =>
  match m c with (Ok _, c') => (Ok true, c') | (Raise AttributeError, c') => (Ok false, c') | (Raise e, c') => (Raise e, c') end.
(** lines 117-124: [hasattr(self, "_dims")] calls [__getattr__] *)
Definition acc_get_dim (item : darr -> string -> res gval) (a : xda) (dim_type : string) : M gval := fun c =>
  let t := lower dim_type in
  match ac_dims c with
  | Some ds => (match dget ds t with Some d => Ok (dim_val d) | None => Raise KeyError end, c)
  | None =>
    (let! h := hasattr (acc_getattr a "_dims") in
     if h : bool then
       let! v := acc_getattr a "_dims" in
       lift (fun _ => subscript item v t)
     else
       let! d := lift (fun c => search_dim (sp_sg (ac_specs c)) (sp_cat (ac_specs c) Coords) (sp_dims (ac_specs c)) a t None) in
       let! _ := modify (fun c => mkacc (ac_specs c) (ac_match c) (ac_attrs c) (ac_sub c) (Some [(t, d)])) in
       ret (dim_val d)) c
  end.
(** lines 109-115.  XoaError is caught. *)
Definition acc_dim (a : xda) (c : acc) : res (option string) :=
  match search_dim0 (sp_sg (ac_specs c)) (sp_cat (ac_specs c) Coords) (sp_dims (ac_specs c)) a None with
  | Ok r => Ok (option_map fst r)
  | Raise XoaError | Raise XoaCFError => Ok None
  | Raise e => Raise e
  end.
(** lines 212-219: [da.xoa.cf]; what is returned when there is a new accessor is not a gval *)
Inductive cfval := NewAccessor | Val (v : gval).
Definition xoa_cf (a : xda) : M cfval :=
  let! h := hasattr (acc_getattr a "_cf") in
  if h : bool then let! v := acc_getattr a "_cf" in ret (Val v)
  else let! _ := acc_getattr a "_ds" in ret NewAccessor.
(** lines 51-55 *)
Definition acc_set_specs (c : acc) (s : specs) : acc := mkacc s (ac_match c) (ac_attrs c) (ac_sub c) (ac_dims c).
(** lines 89-103: the specifications of a sub-accessor *)
Definition acc_sub_specs (c : acc) (cat : category) : specs * acc :=
  match ac_sub c cat with
  | Some s => (s, c)
  | None => (ac_specs c, mkacc (ac_specs c) (ac_match c) (ac_attrs c)
                           (fun k => match k, cat with DataVars, DataVars | Coords, Coords => Some (ac_specs c) | _, _ => ac_sub c k end) (ac_dims c))
  end.

(** ** The accessor of a dataset: lines 151-152 and 222-236.  [items]: the values of the data
    variables and of the coordinates. *)
Definition ds_getattr (s : specs) (items : category -> list darr) (attr : string) : res gval :=
  let* r := specs_search (sp_sg s) (fun c => (sp_cat s c, items c)) true CatNone (name_arg attr) (MStr "any") EWarn in
  Ok (gitem r).
(** [ds.xoa.cf] and [ds.xoa.decode_sigma] *)
Definition ds_lazy (s : specs) (items : category -> list darr) (attr : string) : res cfval :=
  match ds_getattr s items attr with
  | Raise AttributeError => let* _ := ds_getattr s items "_ds" in Ok NewAccessor
  | Raise e => Raise e
  | Ok _ => let* v := ds_getattr s items attr in Ok (Val v)
  end.

(** ** Histories: the user changes the array in place or the specifications, and reads *)
Inductive aop := SetSpecs (s : specs) | Change (a : xda) | Name | Attrs | Getattr (n : string) | Sub (c : category).
Definition astep (w : xda * acc) (o : aop) : xda * acc :=
  let '(a, c) := w in
  match o with
  | SetSpecs s => (a, acc_set_specs c s)
  | Change a' => (a', c)
  | Name => (a, snd (acc_name a c))
  | Attrs => (a, snd (acc_attrs a c))
  | Getattr n => (a, snd (acc_getattr a n c))
  | Sub k => (a, snd (acc_sub_specs c k))
  end.
Definition arun (w : xda * acc) (l : list aop) : xda * acc := fold_left astep l w.

(** ** register_accessors, __init__.py:508-535 and accessors.py:239-272 *)
Inductive barg := BTrue | BFalse | BName (s : string).
Inductive akind := XoaAcc | CFAcc | SigmaAcc.
Record registry := mkreg { r_arrays : dict akind; r_datasets : dict akind }.
Definition on (b : barg) : bool := match b with BTrue => true | BFalse => false | BName s => nonempty s end.
Definition named (b : barg) (default : string) : string := match b with BName s => s | _ => default end.
Definition register_accessors (xoa cf sigma : barg) (r : registry) : registry :=
  let r := if on xoa then mkreg (dset (r_arrays r) (named cf "xoa") XoaAcc) (dset (r_datasets r) (named cf "xoa") XoaAcc) else r in
  let r := if on cf then mkreg (dset (r_arrays r) (named cf "cfd") CFAcc) (dset (r_datasets r) (named cf "cfd") CFAcc) else r in
  if on sigma then mkreg (r_arrays r) (dset (r_datasets r) (named sigma "decode_sigma") SigmaAcc) else r.

(** ** are_similar and search_similar: cf.py:2257-2319.  [cfname]: the property [cf.name] of an
    array, None when no accessor is called "cf" (the default is "cfd"). *)
Definition same_attr (d0 d1 : darr) (attr : string) : res bool :=
  match dget (da_attrs d0) attr, dget (da_attrs d1) attr with
  | Some (VStr s0), Some (VStr s1) => Ok (String.eqb (lower s0) (lower s1))
  | Some _, Some _ => Raise AttributeError
  | _, _ => Ok false
  end.
Definition cf_name_of (cfname : option (darr -> res (option string))) (d : darr) : res (option string) :=
  match cfname with Some f => f d | None => Raise AttributeError end.
Definition are_similar (cfname : option (darr -> res (option string))) (d0 d1 : darr) : res bool :=
  let* b := same_attr d0 d1 "standard_name" in
  if b then Ok true else
  let* n0 := cf_name_of cfname d0 in
  let* b := if truthy n0 then
              let* n1 := cf_name_of cfname d1 in
              Ok (truthy n1 && oeqb n0 n1)
            else Ok false in
  if b then Ok true else
  if truthy (da_name d0) && oeqb (da_name d0) (da_name d1) then Ok true else
  same_attr d0 d1 "long_name".
Fixpoint first_similar (cfname : option (darr -> res (option string))) (d : darr) (l : list darr) : res (option darr) :=
  match l with
  | [] => Ok None
  | x :: l' => let* b := are_similar cfname x d in if b then Ok (Some x) else first_similar cfname d l'
  end.
(** [dsa] is a dataset, or not: the items that are scanned are those of [da], which is an array and
    has no data_vars *)
Definition search_similar (cfname : option (darr -> res (option string))) (dsa_is_dataset : bool) (dsa_items : list darr) (a : xda)
    : res (option darr) :=
  if dsa_is_dataset then Raise AttributeError else first_similar cfname (x_da a) (coord_items a).
