(** Model of xoa/sigma.py:408-640: formula terms and search of the sigma terms. *)
From Verif Require Export SGLoc.
Open Scope string_scope.

(** *** [re.compile(p).split(s)] for the patterns below, which never match the empty string.
    A matcher answers the text matched at a position (and what follows it), given the
    previous character. *)
Definition matcher := option ascii -> string -> option (string * string).
Fixpoint last_of (prev : option ascii) (x : string) : option ascii :=
  match x with EmptyString => prev | String c x' => last_of (Some c) x' end.
Definition head_of (s : string) : option ascii := match s with EmptyString => None | String c _ => Some c end.
Fixpoint re_split (m : matcher) (fuel : nat) (prev : option ascii) (cur s : string) : list string :=
  match fuel with
  | O => [cur ++ s]
  | S fuel =>
    match m prev s with
    | Some (x, r) => cur :: re_split m fuel (last_of prev x) "" r
    | None =>
      match s with
      | EmptyString => [cur]
      | String c s' => re_split m fuel (Some c) (cur ++ String c "") s'
      end
    end
  end.
Definition split_with (m : matcher) (s : string) : list string :=
  re_split m (S (String.length s)) None "" s.

(** [\b]: exactly one of the two neighbours is a word character *)
Definition wordy (o : option ascii) : bool := match o with Some c => is_word c | None => false end.
Definition bound (prev : option ascii) (s : string) : bool := xorb (wordy prev) (wordy (head_of s)).
(** line 430: [\b\s+\b], the longest run of spaces first *)
Definition m_terms : matcher := fun prev s =>
  if bound prev s then
    find (fun xr => bound (last_of prev (fst xr)) (snd xr)) (splits is_space s)
  else None.
(** [\s*] *)
Definition splits0 (s : string) : list (string * string) := (splits is_space s ++ [("", s)])%list.
(** line 432: [\s*:\s*] *)
Definition starts_colon (s : string) : bool :=
  match s with String c _ => Ascii.eqb c ":"%char | EmptyString => false end.
Definition m_item : matcher := fun _ s =>
  match find (fun xr => starts_colon (snd xr)) (splits0 s) with
  | Some (x, String c s1) =>
    match splits0 s1 with
    | (y, r) :: _ => Some (x ++ String c y, r)
    | [] => None
    end
  | _ => None
  end.

(** lines 435-462: decode_formula_terms *)
Fixpoint decode_items (items : list string) (terms : dict string) : res (dict string) :=
  match items with
  | [] => Ok terms
  | it :: items' =>
    match split_with m_item it with
    | [k; v] => decode_items items' (dset terms k v)
    | _ => Raise XoaSigmaError
    end
  end.
Definition decode_formula_terms (attr : string) : res (dict string) :=
  decode_items (split_with m_terms attr) [].

(** lines 33-41 *)
Definition FORMULA_TERMS_TO_CF_NAMES : dict string :=
  [("c", "cs"); ("s", "sig"); ("eta", "ssh"); ("depth", "bathy"); ("depth_c", "hc");
   ("a", "thetas"); ("b", "thetab")].
(** lines 44-50: a comma is missing, the two literals are concatenated *)
Definition SIGMA_COORDINATE_TYPES : list string :=
  ["atmosphere_sigma_coordinate"; "ocean_sigma_coordinate";
   "ocean_s_coordinate" ++ "ocean_s_coordinate_g1"; "ocean_s_coordinate_g2"].

(** lines 408-427: _ds_search_ci_ in a dataset whose data variables are [vars];
    [getattr(ds, "coord")] raises (no such attribute; an array called "coord" has no keys) *)
Definition ds_search_ci (vars : list string) (name : string) : res string :=
  match find (fun nm => String.eqb (lower nm) (lower name)) vars with
  | Some nm => Ok nm
  | None => Raise AttributeError
  end.

(** A sigma array found by [cfspecs.search(ds, "sig", loc=loc, single=False)]:
    its name and its string attributes *)
Record sigarr := mksig { s_name : string; s_attrs : dict string }.

(** lines 535-548: the loop on the formula terms of one array *)
Fixpoint sub_terms (vars : list string) (fts : dict string) (sub : dict string) : res (dict string) :=
  match fts with
  | [] => Ok sub
  | (fname, fvname) :: fts' =>
    let* vname := ds_search_ci vars fvname in
    match dget FORMULA_TERMS_TO_CF_NAMES (lower fname) with
    | Some cf_name => sub_terms vars fts' (dset sub vname cf_name)
    | None => Raise XoaSigmaError
    end
  end.
(** lines 513-550: one array *)
Definition one_sig (sg : sgloc) (vars : list string) (s : sigarr) : res (option string * dict string) :=
  match dget (s_attrs s) "standard_name" with
  | None => Raise XoaSigmaError
  | Some sn =>
    let* p := parse_attr sg "standard_name" sn in
    if existsb (String.eqb (fst p)) SIGMA_COORDINATE_TYPES then
      match dget (s_attrs s) "formula_terms" with
      | None => Raise XoaSigmaError
      | Some ft =>
        let* fts := decode_formula_terms ft in
        let* sub := sub_terms vars fts (dset [(s_name s, "sig")] "type" (fst p)) in
        Ok (snd p, sub)
      end
    else Raise XoaSigmaError
  end.
(** [terms[loc] = subterms] for keys that are locations or None *)
Definition oeqb (a b : option string) : bool :=
  match a, b with Some x, Some y => String.eqb x y | None, None => true | _, _ => false end.
Fixpoint oset {V} (d : list (option string * V)) (k : option string) (v : V) : list (option string * V) :=
  match d with
  | [] => [(k, v)]
  | (k', v') :: d' => if oeqb k k' then (k', v) :: d' else (k', v') :: oset d' k v
  end.
Fixpoint oget {V} (d : list (option string * V)) (k : option string) : option V :=
  match d with [] => None | (k', v) :: d' => if oeqb k k' then Some v else oget d' k end.
Fixpoint sig_loop (sg : sgloc) (vars : list string) (sigs : list sigarr)
    (terms : list (option string * dict string)) : res (list (option string * dict string)) :=
  match sigs with
  | [] => Ok terms
  | s :: sigs' => let* r := one_sig sg vars s in sig_loop sg vars sigs' (oset terms (fst r) (snd r))
  end.
(** lines 465-554: get_sigma_terms for [loc=None]; the arrays [sigs] are those found by the search *)
Definition get_sigma_terms (sg : sgloc) (vars : list string) (sigs : list sigarr) :=
  sig_loop sg vars sigs [].

(** Signatures of the functions of the module, lines 57, 96, 165, 238, 324: required and
    optional arguments, without [cache] *)
Definition sigma_functions : list (string * (list string * list string)) :=
  [("atmosphere_sigma_coordinate", (["sig"; "ps"; "ptop"], []));
   ("ocean_sigma_coordinate", (["sig"; "ssh"; "bathy"], []));
   ("ocean_s_coordinate", (["sig"; "ssh"; "bathy"; "hc"; "thetas"; "thetab"], ["cs"; "cs_type"]));
   ("ocean_s_coordinate_g1", (["sig"; "ssh"; "bathy"; "hc"], ["thetas"; "thetab"; "cs"; "cs_type"]));
   ("ocean_s_coordinate_g2", (["sig"; "ssh"; "bathy"; "hc"], ["thetas"; "thetab"; "cs"; "cs_type"]))].

(** lines 610-620: one location: the name of the function and its keyword arguments, as
    (argument, variable of the dataset), or the exception of the lookup of the variable
    ([ds[vname]], [has] tells whether there is one), of [getattr] or of the call *)
Fixpoint make_kwargs (has : string -> bool) (terms kw : dict string) : res (dict string) :=
  match terms with
  | [] => Ok kw
  | (vname, cf_name) :: terms' =>
    if has vname then make_kwargs has terms' (dset kw cf_name vname) else Raise KeyError
  end.
Definition one_call (has : string -> bool) (terms : dict string) : res (string * dict string) :=
  match dget terms "type" with
  | None => Raise KeyError
  | Some ty =>
    let* kw := make_kwargs has (ddel terms "type") [] in
    match dget sigma_functions ty with
    | None => Raise AttributeError
    | Some (req, opt) =>
      if forallb (dmem kw) req && forallb (fun k => existsb (String.eqb k) (req ++ opt)%list) (dkeys kw)
      then Ok (ty, kw) else Raise TypeError
    end
  end.
Fixpoint all_calls (has : string -> bool) (all : list (option string * dict string))
  : res (list (option string * (string * dict string))) :=
  match all with
  | [] => Ok []
  | (loc, terms) :: all' =>
    let* c := one_call has terms in
    let* r := all_calls has all' in
    Ok ((loc, c) :: r)
  end.
(** lines 590-620: decode_cf_sigma up to the calls of the formulas; [None]: the dataset is
    returned as it is.  (Simplification: all the calls are listed before the results are
    formatted and stored.) *)
Inductive on_error := EIgnore | EWarn | ERaise.
Definition decode_cf_sigma (sg : sgloc) (vars coords : list string) (sigs : list sigarr) (errors : on_error)
  : res (option (list (option string * (string * dict string)))) :=
  match get_sigma_terms sg vars sigs with
  | Raise XoaSigmaError => match errors with ERaise => Raise XoaSigmaError | _ => Ok None end
  | Raise e => Raise e
  | Ok all =>
    let* calls := all_calls (fun v => existsb (String.eqb v) (vars ++ coords)) all in
    Ok (Some calls)
  end.
