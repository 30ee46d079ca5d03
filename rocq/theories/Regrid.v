(** Model of the dispatch of xoa/regrid.py:regrid1d, on the arrays prepared by
    DimFlusher1D (see Flusher.v for that class). *)
From Verif Require Export Grid.
Open Scope nat_scope.

(** xoa/regrid.py:32-46 *)
Definition regrid1d_methods : enum_members :=
  [("linear", 1); ("interp", 1); ("nearest", 0); ("cubic", 2); ("hermit", 3);
   ("hermitian", 3); ("cellave", -1)]%Z%string.
(** xoa/regrid.py:49-61 *)
Definition extrap_modes : enum_members :=
  [("no", 0); ("none", 0); ("above", 1); ("below", -1); ("both", 2); ("all", 2);
   ("yes", 2)]%Z%string.

(** [m == s] for a member [m] of an IntEnum and a string: an integer is never equal
    to a string *)
Definition member_eq_str (m : string * Z) (s : string) : bool := false.

(** xoa/interp.py:395-425 extrap1d with the test [extrap == s] made explicit *)
Definition extrap1d_by (eqs : string -> bool) (vari : arr) : res arr :=
  if eqs "no"%string then Ok vari
  else map_res (fun r =>
    let* (iybot, iytop) := get_iminmax r in
    if (iybot =? -1)%Z then Ok r
    else
      let* r :=
        if (eqs "both"%string || eqs "bottom"%string)%bool then
          let* x := pyget r iybot in Ok (fill_before r iybot x)
        else Ok r in
      if (eqs "both"%string || eqs "top"%string)%bool then
        let* x := pyget r iytop in Ok (fill_from r (iytop + 1) x)
      else Ok r) vari.

(** [getattr(interp, func_name)( **func_kwargs )]: the functions of xoa/interp.py
    that take [vari, yi, yo] or [vari, yib, yob], with the default values of their
    other arguments; [kw] are [bias] and [tension] when given *)
Definition call_interp (func_name : string) (vari y1 y2 : arr) (kw : option (fl * fl)) : res arr :=
  if String.eqb func_name "linear1d" then
    match kw with None => linear1d vari y1 y2 | Some _ => Raise TypeError end
  else if String.eqb func_name "nearest1d" then
    match kw with None => nearest1d vari y1 y2 | Some _ => Raise TypeError end
  else if String.eqb func_name "cubic1d" then
    match kw with None => cubic1d vari y1 y2 | Some _ => Raise TypeError end
  else if String.eqb func_name "hermit1d" then
    match kw with
    | None => hermit1d vari y1 y2 f0 f0
    | Some (b, t) => hermit1d vari y1 y2 b t end
  else if String.eqb func_name "cellave1d" then
    match kw with None => cellave1d vari y1 y2 false "no" | Some _ => Raise TypeError end
  else Raise AttributeError.

(** xoa/regrid.py:100-131 regrid1d between the array manager and the final
    reshaping.  [conserv], [bias] and [tension] are the arguments of the user. *)
Definition regrid1d_data (junk : nat -> nat -> fl) (vari yi yo : arr)
    (method : enumarg) (conserv : bool) (extrap : enumarg) (bias tension : fl) : res arr :=
  let* m := enum_getitem regrid1d_methods method in
  let func_name := (fst m ++ "1d")%string in
  let* ys :=
    if (snd m <? 0)%Z then
      let* yib := get_edges_rows store_float junk yi in
      let* yob := get_edges_rows store_float junk yo in
      Ok (yib, yob)
    else Ok (yi, yo) in
  let kw := if member_eq_str m "hermit" then Some (bias, tension) else None in
  let* varo := call_interp func_name vari (fst ys) (snd ys) kw in
  let* e := enum_getitem extrap_modes extrap in
  if (snd e =? 0)%Z then Ok varo else extrap1d_by (member_eq_str e) varo.
