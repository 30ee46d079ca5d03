(** xoa/regrid.py:regrid1d once more, for any arithmetic (the record [fops] of InterpG.v): the definitions of
    Regrid.v and RegridND.v, word for word.  With the exact rationals they ARE those (RegridNDGSame.v); with
    binary64 numbers they are what regrid1d computes on float64 arrays. *)
From Verif Require Export InterpG RegridND.
Open Scope nat_scope.

Section Regrid.
Variable o : fops.
Local Notation fl := (fnum o).
Local Notation f0 := (n_const o 0).
(** xoa/grid.py:26-88 get_edges_1d on a 1D array of this arithmetic *)
Variable edges_1d : (nat -> fl) -> list fl -> res (list fl).

(** xoa/interp.py:395-425 extrap1d with the test [extrap == s] made explicit (as in Regrid.v) *)
Definition extrap1d_by_g (eqs : string -> bool) (vari : arr_g o) : res (arr_g o) :=
  if eqs "no"%string then Ok vari
  else map_res (fun r =>
    let* (iybot, iytop) := get_iminmax_g o r in
    if (iybot =? -1)%Z then Ok r
    else
      let* r :=
        if (eqs "both"%string || eqs "bottom"%string)%bool then
          let* x := pyget r iybot in Ok (fill_before r iybot x)
        else Ok r in
      if (eqs "both"%string || eqs "top"%string)%bool then
        let* x := pyget r iytop in Ok (fill_from r (iytop + 1) x)
      else Ok r) vari.

(** [getattr(interp, func_name)( **func_kwargs )] (as in Regrid.v) *)
Definition call_interp_g (func_name : string) (vari y1 y2 : arr_g o) (kw : option (fl * fl)) : res (arr_g o) :=
  if String.eqb func_name "linear1d" then
    match kw with None => linear1d_g o vari y1 y2 | Some _ => Raise TypeError end
  else if String.eqb func_name "nearest1d" then
    match kw with None => nearest1d_g o vari y1 y2 | Some _ => Raise TypeError end
  else if String.eqb func_name "cubic1d" then
    match kw with None => cubic1d_g o vari y1 y2 | Some _ => Raise TypeError end
  else if String.eqb func_name "hermit1d" then
    match kw with
    | None => hermit1d_g o vari y1 y2 f0 f0
    | Some (b, t) => hermit1d_g o vari y1 y2 b t end
  else if String.eqb func_name "cellave1d" then
    match kw with None => cellave1d_g o vari y1 y2 false "no" | Some _ => Raise TypeError end
  else Raise AttributeError.

(** xoa/grid.py:26-88 get_edges_1d along the last axis of a 2D array (as in Grid.v) *)
Definition get_edges_rows_g (junk : nat -> nat -> fl) (a : arr_g o) : res (arr_g o) :=
  map_res (fun ir => edges_1d (junk (fst ir)) (snd ir)) (combine (seq 0 (List.length a)) a).

(** xoa/regrid.py:100-131 regrid1d between the array manager and the final reshaping (as in Regrid.v) *)
Definition regrid1d_data_g (junk : nat -> nat -> fl) (vari yi yo : arr_g o)
    (method : enumarg) (conserv : bool) (extrap : enumarg) (bias tension : fl) : res (arr_g o) :=
  let* m := enum_getitem regrid1d_methods method in
  let func_name := (fst m ++ "1d")%string in
  let* ys :=
    if (snd m <? 0)%Z then
      let* yib := get_edges_rows_g junk yi in
      let* yob := get_edges_rows_g junk yo in
      Ok (yib, yob)
    else Ok (yi, yo) in
  let kw := if member_eq_str m "hermit" then Some (bias, tension) else None in
  let* varo := call_interp_g func_name vari (fst ys) (snd ys) kw in
  let* e := enum_getitem extrap_modes extrap in
  if (snd e =? 0)%Z then Ok varo else extrap1d_by_g (member_eq_str e) varo.

(** xoa/regrid.py:64-134 (as in RegridND.v) *)
Definition regrid1d_g (junk : nat -> nat -> fl) (a ci co : da fl) (dim0 dim1 : string)
    (method : enumarg) (conserv : bool) (extrap : enumarg) (bias tension : fl) : res (da fl) :=
  let* f := flush a ci co dim0 dim1 in
  let* d := flush_data f in
  let '(x, y, z) := d in
  let* out := regrid1d_data_g junk x y z method conserv extrap bias tension in
  get_back (n_nan o) f out.
End Regrid.
