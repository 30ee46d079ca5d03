(** Model of CFCoordSpecs.get_dim_types, xoa/cf.py:2031-2063, of get_dim_types and reorder,
    xoa/coords.py:464-530, and of grid2loc, xoa/regrid.py:139-190. *)
From Verif Require Export CFGetters.
Open Scope string_scope.

(** ** Calls: how Python binds the arguments to the parameters of a function.  A parameter: its
    name and whether it has a default value. *)
Definition bind_args {V} (params : list (string * bool)) (pos : list V) (kw : dict V) : res (dict V) :=
  if (List.length params <? List.length pos)%nat then Raise TypeError else
  let bound := combine (map fst params) pos in
  if existsb (fun k => negb (existsb (String.eqb k) (map fst params)) || dmem bound k) (dkeys kw) then Raise TypeError else
  if forallb (fun p : string * bool => snd p || dmem bound (fst p) || dmem kw (fst p)) params then Ok (bound ++ kw)%list else Raise TypeError.

(** ** cf.py:2055-2063; [self] is bound *)
Fixpoint dim_types_loop (sg : sgloc) (cs : catspecs) (dims : dict (list string)) (a : xda) (unknown : option string)
    (todo : list string) (acc : dict (option string)) : res (dict (option string)) :=
  match todo with
  | [] => Ok acc
  | d :: todo' =>
    let* t := get_dim_type sg cs dims d (Some a) in
    let t := match t with None => unknown | t => t end in
    dim_types_loop sg cs dims a unknown todo' (dset acc d t)
  end.
Definition get_dim_types_dict sg cs dims a unknown := dim_types_loop sg cs dims a unknown (x_dims a) [].
Definition get_dim_types_tuple sg cs dims a unknown : res (list (option string)) :=
  let* d := get_dim_types_dict sg cs dims a unknown in Ok (map snd d).
(** The parameters of the method, lines 2031 *)
Definition get_dim_types_params : list (string * bool) := [("da", false); ("unknown", true); ("asdict", true)].

(** ** coords.py:464-487.  The arguments: a tuple of dimensions or an array *)
Inductive dimsarg := DDims (l : list string) | DArr (a : xda).
Inductive pyarg := ADims (l : list string) | AArr (a : xda) | ANone | AUnknown (u : option string) | ABool (b : bool).
Section calls.
  Variable sg : sgloc.
  Variable cs : catspecs.
  Variable known : dict (list string).
  (** The method, called with bound arguments *)
  Definition method (b : dict pyarg) : res (dict (option string)) :=
    match dget b "da" with
    | Some (AArr a) => get_dim_types_dict sg cs known a (match dget b "unknown" with Some (AUnknown u) => u | _ => None end)
    | _ => Raise AttributeError
    end.
  Definition coords_get_dim_types (x : dimsarg) (unknown : option string) (asdict : bool) : res (dict (option string)) :=
    let (da, ds) := match x with DArr a => (AArr a, x_dims a) | DDims l => (ANone, l) end in
    let* b := bind_args get_dim_types_params [ADims ds] [("da", da); ("unknown", AUnknown unknown); ("asdict", ABool asdict)] in
    method b.
  (** coords.py:490-530: the order is a text (or is made one); [transp] is the final transposition *)
  Fixpoint order_loop (da : xda) (types : dict (option string)) (order : list ascii) (i ndim : nat) (to : list string) : res (list string) :=
    match order with
    | [] => Ok to
    | o :: order' =>
      if (i + 1 =? ndim)%nat then Ok to else
      match List.find (fun d => match dget types d with Some (Some t) => String.eqb t (String o "") | _ => false end) (x_dims da) with
      | Some d => order_loop da types order' (i + 1) ndim (d :: to)
      | None => Raise XoaError
      end
    end.
  Definition reorder (transp : list string -> res xda) (da : xda) (order : string) : res xda :=
    let* types := coords_get_dim_types (DArr da) None true in
    let* to := order_loop da types (rev (list_ascii_of_string order)) 0 (List.length types) [] in
    transp to.
End calls.

(** ** regrid.py:165-190.  [da] and [loc]: the entries and items of each category for both arguments
    and whether they are datasets.  [get_time] of coords.py:129 has one parameter. *)
Definition get_time_params : list (string * bool) := [("da", false)].
Definition call_get_time (sg : sgloc) (x : (category -> catspecs * list darr) * bool) (errors : errs) : res (option (darr * string)) :=
  let* b := bind_args get_time_params [tt] [("errors", tt)] in
  get_time sg (fst x).
Definition grid2loc (sg : sgloc) (da loc : (category -> catspecs * list darr) * bool) (compat : errs) (finish : string -> res xda) : res xda :=
  let* glon := get_lon sg (fst da) (snd da) ERaise in
  let* glat := get_lat sg (fst da) (snd da) ERaise in
  let* lons := get_lon sg (fst loc) (snd loc) ERaise in
  let* lats := get_lat sg (fst loc) (snd loc) ERaise in
  let* deps := get_vertical sg (fst loc) (snd loc) EIgnore in
  let* gdep := match deps with Some _ => get_vertical sg (fst da) (snd da) compat | None => Ok None end in
  let order := match gdep with Some _ => "zyx" | None => "yx" end in
  let* times := call_get_time sg loc EIgnore in
  let* gtime := match times with Some _ => call_get_time sg da compat | None => Ok None end in
  finish (match gtime with Some _ => "t" ++ order | None => order end).
