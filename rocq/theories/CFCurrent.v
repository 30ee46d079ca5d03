(** Model of the current CF specifications: xoa/cf.py:2322-2360 and 2367-2455 (set_cf_specs,
    reset_cache, get_cf_specs). *)
From Verif Require Export PyDict.
Open Scope string_scope.

(** Content of a CFSpecs object: the entries of both categories (a number stands for the
    specifications of an entry).  Objects are not modified here; C28 tells how they are built. *)
Record content := mkcontent { k_data_vars : dict nat; k_coords : dict nat }.
(** The pickle file, with its modification time: a CFSpecs object, or anything else (truncated,
    other class, ...) *)
Inductive pickled := PSpecs (c : content) | PBad.
Record world := mkworld {
  fresh : nat -> content;      (* what the n-th call of CFSpecs() builds (it may change, see C45) *)
  cfg_time : nat;              (* modification time of the default configuration file *)
}.
(** Python state: the CFSpecs objects created so far, [_CACHE["specs"]], the cache file, whether
    the cache directory can be written, the clock *)
Record state := mkst { objs : list content; cur : option nat; file : option (nat * pickled);
  writable : bool; clock : nat }.
Definition new_obj (st : state) (c : content) : state * nat :=
  (mkst (objs st ++ [c])%list (cur st) (file st) (writable st) (clock st), List.length (objs st)).
Definition set_cur (st : state) (o : option nat) : state :=
  mkst (objs st) o (file st) (writable st) (clock st).
Definition set_file (st : state) (f : option (nat * pickled)) : state :=
  mkst (objs st) (cur st) f (writable st) (clock st).

(** xoa/cf.py:2325-2330: set_cf_specs.__init__.  The argument: a dict that CFSpecs accepts (with
    the content it builds) or refuses, a CFSpecs object, or something else *)
Inductive source := SDict (c : content) | SBadDict (e : exn) | SObj (i : nat) | SOther.
Definition set_init (src : source) (st : state) : state * res (option nat * nat) :=
  match src with
  | SDict c => let '(st', i) := new_obj st c in (set_cur st' (Some i), Ok (cur st, i))
  | SBadDict e => (st, Raise e)
  | SObj i => if (i <? List.length (objs st))%nat then (set_cur st (Some i), Ok (cur st, i))
              else (st, Raise AssertionError)          (* no such object *)
  | SOther => (st, Raise AssertionError)
  end.
(** lines 2335-2339: __exit__ *)
Definition set_exit (old : option nat) (st : state) : state * res unit :=
  match old with
  | None => match cur st with Some _ => (set_cur st None, Ok tt) | None => (st, Raise KeyError) end
  | Some _ => (set_cur st old, Ok tt)
  end.
(** lines 2342-2359: reset_cache *)
Definition reset_cache (disk memory : bool) (st : state) : state :=
  let st := if disk then set_file st None else st in
  if memory then set_cur st None else st.

(** lines 2367-2455: get_cf_specs; the argument [cache] after lines 2390-2396 *)
Inductive cmode := CIgnore | CRw | CRead | CWrite | CClean | CInvalid.
(** lines 2402-2414: reading the cache file; [cache in ("read", "w")] *)
Definition try_disk (w : world) (mode : cmode) (st : state) : state :=
  match mode with
  | CRead =>
    match file st with
    | Some (t, p) =>
      if (cfg_time w <? t)%nat then
        match p with
        | PSpecs c => let '(st', i) := new_obj st c in set_cur st' (Some i)
        | PBad => st                                    (* exception: a warning *)
        end
      else st
    | None => st
    end
  | _ => st
  end.
(** lines 2416-2431: computing and writing.  (Simplification: the clock does not move.) *)
Definition compute (w : world) (mode : cmode) (st : state) : state :=
  match cur st with
  | Some _ => st
  | None =>
    let c := fresh w (List.length (objs st)) in
    let '(st', i) := new_obj st c in
    let st' := set_cur st' (Some i) in
    match mode with
    | CWrite | CRw => if writable st' then set_file st' (Some (clock st', PSpecs c)) else st'
    | _ => st'
    end
  end.
Definition ensure (w : world) (mode : cmode) (st : state) : state :=
  let st := match cur st with Some _ => st | None => compute w mode (try_disk w mode st) end in
  match mode with CClean => reset_cache true false st | _ => st end.
(** What is returned: the object, its category, an entry, or None.  (Simplification: a category
    is one of the two documented ones.) *)
Inductive category := DataVars | Coords.
Inductive answer := ASpecs (i : nat) | ACat (i : nat) (c : category) | AEntry (n : nat) | ANone.
Definition cat_of (c : content) (k : category) : dict nat :=
  match k with DataVars => k_data_vars c | Coords => k_coords c end.
Fixpoint scan_cats (l : list (dict nat)) (name : string) : answer :=
  match l with
  | [] => ANone
  | d :: l' => match dget d name with Some n => AEntry n | None => scan_cats l' name end
  end.
Definition get_cf_specs (w : world) (name : option string) (cat : option category) (mode : cmode) (st : state)
    : state * res answer :=
  match mode with
  | CInvalid => (st, Raise AssertionError)
  | _ =>
    let st := ensure w mode st in
    match cur st with
    | None => (st, Raise KeyError)
    | Some i =>
      let c := nth i (objs st) (mkcontent [] []) in
      (st, Ok (match cat, name with
               | Some k, None => ACat i k
               | Some k, Some n => scan_cats [cat_of c k] n
               | None, None => ASpecs i
               | None, Some n => scan_cats [k_data_vars c; k_coords c] n
               end))
    end
  end.

(** Programs of a session.  [Elsewhere]: another process writes or removes the cache file,
    permissions change, the clock moves *)
Inductive prog :=
| Stop
| Throw (e : exn)
| Get (name : option string) (cat : option category) (mode : cmode) (k : res answer -> prog)
| SetSpecs (src : source) (k : res unit -> prog)
| Reset (disk memory : bool) (k : prog)
| Elsewhere (f : option (nat * pickled)) (wr : bool) (t : nat) (k : prog)
| With (src : source) (body : nat -> prog) (k : res unit -> prog).
Definition as_unit {A} (r : res A) : res unit := match r with Ok _ => Ok tt | Raise e => Raise e end.
(** [with set_cf_specs(src) as specs: body] *)
Definition with_specs (src : source) (body : nat -> state -> state * res unit) (st : state) : state * res unit :=
  match set_init src st with
  | (st, Raise e) => (st, Raise e)
  | (st, Ok (old, i)) =>
    let '(st, r) := body i st in
    let '(st, r') := set_exit old st in
    (st, match r' with Raise e => Raise e | Ok _ => r end)
  end.
Fixpoint run (w : world) (p : prog) (st : state) : state * res unit :=
  match p with
  | Stop => (st, Ok tt)
  | Throw e => (st, Raise e)
  | Get n c m k => let '(st, r) := get_cf_specs w n c m st in run w (k r) st
  | SetSpecs s k => let '(st, r) := set_init s st in run w (k (as_unit r)) st
  | Reset d m k => run w k (reset_cache d m st)
  | Elsewhere f wr t k => run w k (mkst (objs st) (cur st) f wr t)
  | With s body k =>
    let '(st, r) := with_specs s (fun i => run w (body i)) st in run w (k r) st
  end.
(** A new session; files are those of former ones *)
Definition session (f : option (nat * pickled)) (wr : bool) (t : nat) : state := mkst [] None f wr t.
