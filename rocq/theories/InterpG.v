(** The 1D kernels of xoa/interp.py, once more, for any arithmetic: the numbers and their operations
    are a parameter.  The definitions are those of Interp.v, word for word: with the exact
    rationals of PyBase as numbers they ARE those of Interp.v (InterpGSame.v, by
    computation).  With the binary64 numbers of IEEE 754 (Float64.v) they are what the compiled code
    computes: numba does not reorder nor contract floating point operations, except in the functions
    declared with fastmath=True, of which only extrap1d is here; it does no arithmetic. *)
From Verif Require Export Interp.
Open Scope Z_scope.

Record fops := mkops {
  fnum : Type; n_nan : fnum; n_isnan : fnum -> bool;
  n_add : fnum -> fnum -> fnum; n_sub : fnum -> fnum -> fnum; n_mul : fnum -> fnum -> fnum;
  n_div : fnum -> fnum -> res fnum;
  n_ltb : fnum -> fnum -> bool; n_leb : fnum -> fnum -> bool; n_eqb : fnum -> fnum -> bool;
  n_const : Q -> fnum }.

Section Kernels.
Variable o : fops.
Local Notation fl := (fnum o).
Local Notation nan := (n_nan o).
Local Notation isnan := (n_isnan o).
Local Notation fadd := (n_add o).
Local Notation fsub := (n_sub o).
Local Notation fmul := (n_mul o).
Local Notation fdiv := (n_div o).
Local Notation fltb := (n_ltb o).
Local Notation fleb := (n_leb o).
Local Notation feqb := (n_eqb o).
Local Notation f0 := (n_const o 0).

Definition arr_g := list (list fl).

(** [a.shape]: number of rows, number of columns (0 columns if no row). *)
Definition nrows_g (a : arr_g) : Z := Z.of_nat (List.length a).
Definition ncols_g (a : arr_g) : Z :=
  match a with [] => 0 | r :: _ => Z.of_nat (List.length r) end.

(** [a[i, j]] and [a[i, j] = x] *)
Definition get2_g (a : arr_g) (i j : Z) : res fl :=
  let* r := pyget a i in pyget r j.
Definition set2_g (a : arr_g) (i j : Z) (x : fl) : res arr_g :=
  let* r := pyget a i in
  let* r' := pyset r j x in
  pyset a i r'.

(** [np.full((n, m), x)] *)
Definition full2_g (n m : Z) (x : fl) : arr_g :=
  List.repeat (List.repeat x (Z.to_nat m)) (Z.to_nat n).

(** [min(n-1, ix % n)]; [ix % 0] raises.  xoa/interp.py:87-89 (and the same
    three lines in every kernel) *)
Definition row_index_g (n ix : Z) : res Z :=
  if n =? 0 then Raise ZeroDivisionError else Ok (Z.min (n - 1) (ix mod n)).

(** xoa/interp.py:42-49, loop body of get_iminmax *)
Definition iminmax_step_g (d : list fl) (n i : Z) (st : Z * Z) : ctl (Z * Z) :=
  let '(imin, imax) := st in
  get* x := pyget d i in
  let imin := if (imin <? 0) && negb (isnan x) then i else imin in
  get* y := pyget d (n - 1 - i) in
  let imax := if (imax <? 0) && negb (isnan y) then n - 1 - i else imax in
  if (imax >? 0) && (imin >? 0) then Break (imin, imax) else Next (imin, imax).

(** xoa/interp.py:26-50 get_iminmax *)
Definition get_iminmax_g (d : list fl) : res (Z * Z) :=
  let n := Z.of_nat (List.length d) in
  for_each (pyrange 0 n) (iminmax_step_g d n) (-1, -1).

(** xoa/interp.py:107-120, body of the innermost loop of nearest1d.
    The state is ([iyomin], row [ix] of [varo]). *)
Definition nearest_step_g (v yi yo : list fl) (iyi iyo : Z)
    (st : Z * list fl) : ctl (Z * list fl) :=
  let '(iyomin, out) := st in
  get* y := pyget yo iyo in
  get* y0 := pyget yi iyi in
  get* y1 := pyget yi (iyi + 1) in
  let dy0 := fsub y y0 in
  let dy1 := fsub y1 y in
  if fltb dy1 f0 then Break (iyomin, out)
  else if fltb dy0 f0 then Next (iyo + 1, out)
  else if fleb dy0 dy1 then
    get* x := pyget v iyi in
    get* out' := pyset out iyo x in Next (iyomin, out')
  else
    get* x := pyget v (iyi + 1) in
    get* out' := pyset out iyo x in Next (iyomin, out').

(** xoa/interp.py:176-193, body of the innermost loop of linear1d *)
Definition linear_step_g (v yi yo : list fl) (iyi iyo : Z)
    (st : Z * list fl) : ctl (Z * list fl) :=
  let '(iyomin, out) := st in
  get* y := pyget yo iyo in
  get* y0 := pyget yi iyi in
  get* y1 := pyget yi (iyi + 1) in
  let dy0 := fsub y y0 in
  let dy1 := fsub y1 y in
  if fltb dy1 f0 then Break (iyomin, out)
  else if fltb dy0 f0 then Next (iyo + 1, out)
  else if fleb f0 dy0 && fleb f0 dy1 then
    get* v0 := pyget v iyi in
    get* v1 := pyget v (iyi + 1) in
    get* x := fdiv (fadd (fmul v0 dy1) (fmul v1 dy0)) (fadd dy0 dy1) in
    get* out' := pyset out iyo x in Next (iyomin, out')
  else Next (iyomin, out).

(** [mu**2], [mu**3] *)
Definition fsq_g (x : fl) : fl := fmul x x.
Definition fcub_g (x : fl) : fl := fmul x (fmul x x).
Definition fc_g (q : Q) : fl := n_const o q.

(** xoa/interp.py:270-277 (and 361-368): the two outer values.  The first
    branch reads row [ix] of [vari], not row [ixi]. *)
Definition outer_values_g (vari : arr_g) (ix ixi iyi iyimin iyimax : Z) : res (fl * fl) :=
  let* vc0 :=
    if iyi =? iyimin then
      let* a := get2_g vari ix iyi in
      let* b := get2_g vari ix (iyi + 1) in
      Ok (fsub (fmul (fc_g 2) a) b)
    else get2_g vari ixi (iyi - 1) in
  let* vc1 :=
    if iyi =? iyimax - 1 then
      let* a := get2_g vari ixi (iyi + 1) in
      let* b := get2_g vari ixi iyi in
      Ok (fsub (fmul (fc_g 2) a) b)
    else get2_g vari ixi (iyi + 2) in
  Ok (vc0, vc1).

(** xoa/interp.py:280-287, the cubic polynomial ([varo] updates in order) *)
Definition cubic_formula_g (mu vc0 v0 v1 vc1 : fl) : fl :=
  let t := fadd (fsub (fsub vc1 v1) vc0) v0 in
  let t2 := fadd (fmul (fcub_g mu) t) (fmul (fsq_g mu) (fsub (fsub vc0 v0) t)) in
  let t3 := fadd t2 (fmul mu (fsub v1 vc0)) in
  fadd t3 v0.

(** xoa/interp.py:371-388, the Hermite polynomial *)
Definition hermit_formula_g (bias tension mu vc0 v0 v1 vc1 : fl) : fl :=
  let half x := fmul x (fc_g (1 # 2)) in
  let a0 := fadd (fsub (fmul (fc_g 2) (fcub_g mu)) (fmul (fc_g 3) (fsq_g mu))) (fc_g 1) in
  let a1 := fadd (fsub (fcub_g mu) (fmul (fc_g 2) (fsq_g mu))) mu in
  let a2 := fsub (fcub_g mu) (fsq_g mu) in
  let a3 := fadd (fmul (fc_g (-2)) (fcub_g mu)) (fmul (fc_g 3) (fsq_g mu)) in
  let wp := fmul (fadd (fc_g 1) bias) (fsub (fc_g 1) tension) in
  let wm := fmul (fsub (fc_g 1) bias) (fsub (fc_g 1) tension) in
  let r0 := fmul a0 v0 in
  let r1 := fadd r0 (fmul a1 (fadd (half (fmul (fsub v0 vc0) wp))
                                   (half (fmul (fsub v1 v0) wm)))) in
  let r2 := fadd r1 (fmul a2 (fadd (half (fmul (fsub v1 v0) wp))
                                   (half (fmul (fsub vc1 v1) wm)))) in
  fadd r2 (fmul a3 v1).

(** xoa/interp.py:254-287 and 345-388, body of the innermost loop of cubic1d
    and hermit1d, which differ by the final polynomial only. *)
Definition poly_step_g (poly : fl -> fl -> fl -> fl -> fl -> fl)
    (vari : arr_g) (ix ixi iyimin iyimax : Z) (yi yo : list fl) (iyi iyo : Z)
    (st : Z * list fl) : ctl (Z * list fl) :=
  let '(iyomin, out) := st in
  get* y := pyget yo iyo in
  get* y0 := pyget yi iyi in
  get* y1 := pyget yi (iyi + 1) in
  let dy0 := fsub y y0 in
  let dy1 := fsub y1 y in
  if fltb dy1 f0 then Break (iyomin, out)
  else if fleb f0 dy0 && fleb f0 dy1 then
    get* mu := fdiv dy0 (fadd dy0 dy1) in
    get* vcs := outer_values_g vari ix ixi iyi iyimin iyimax in
    get* v0 := get2_g vari ix iyi in
    get* v1 := get2_g vari ix (iyi + 1) in
    get* out' := pyset out iyo (poly mu (fst vcs) v0 v1 (snd vcs)) in
    Next (iyo, out')
  else Next (iyomin, out).

(** xoa/interp.py:94-105 (also 164-174, 242-252, 333-343): one iteration of
    the loop on input intervals.  [hi] is the end of the inner range. *)
Definition interval_step_g (step : Z -> Z -> Z * list fl -> ctl (Z * list fl))
    (yi yo : list fl) (iyomax hi iyi : Z) (st : Z * list fl) : ctl (Z * list fl) :=
  get* y1 := pyget yi (iyi + 1) in
  get* a := pyget yo (fst st) in
  if fltb y1 a then Next st
  else
    get* y0 := pyget yi iyi in
    get* b := pyget yo iyomax in
    if fltb b y0 then Break st
    else next_of (for_each (pyrange (fst st) hi) (step iyi) st).

(** Body of the parallel loop for one row: xoa/interp.py:91-120, nearest1d *)
Definition nearest_row_g (v yi yo out : list fl) : res (list fl) :=
  let* (iyimin, iyimax) := get_iminmax_g yi in
  let* (iyomin, iyomax) := get_iminmax_g yo in
  let* st := for_each (pyrange iyimin iyimax)
     (interval_step_g (nearest_step_g v yi yo) yi yo iyomax (iyomax + 1)) (iyomin, out) in
  Ok (snd st).

(** xoa/interp.py:161-193, linear1d *)
Definition linear_row_g (v yi yo out : list fl) : res (list fl) :=
  let* (iyimin, iyimax) := get_iminmax_g yi in
  let* (iyomin, iyomax) := get_iminmax_g yo in
  let* st := for_each (pyrange iyimin iyimax)
     (interval_step_g (linear_step_g v yi yo) yi yo iyomax (iyomax + 1)) (iyomin, out) in
  Ok (snd st).

(** xoa/interp.py:239-287 and 330-388: cubic1d and hermit1d *)
Definition poly_row_g (poly : fl -> fl -> fl -> fl -> fl -> fl)
    (vari : arr_g) (ix ixi : Z) (yi yo out : list fl) : res (list fl) :=
  let* (iyimin, iyimax) := get_iminmax_g yi in
  let* (iyomin, iyomax) := get_iminmax_g yo in
  let* st := for_each (pyrange iyimin iyimax)
     (interval_step_g (poly_step_g poly vari ix ixi iyimin iyimax yi yo)
        yi yo iyomax (Z.of_nat (List.length yo))) (iyomin, out) in
  Ok (snd st).

(** xoa/interp.py:73-122 (also 145-205, 226-289, 315-391): shapes, output
    initialised with NaN, and the parallel loop on rows, run in the order
    [order] of its iterations.  [row ix ixi yi_row yo_row out_row] computes the
    new row [ix] of [varo]; each iteration only touches that row. *)
Definition rows_kernel_g (row : Z -> Z -> list fl -> list fl -> list fl -> res (list fl))
    (vari yi yo : arr_g) (order : list Z) : res arr_g :=
  let nxi := nrows_g vari in
  let nxiy := nrows_g yi in
  let nxo := nrows_g yo in
  let nx := Z.max nxi nxo in
  for_each order
    (fun ix varo =>
       get* ixi := row_index_g nxi ix in
       get* ixiy := row_index_g nxiy ix in
       get* ixoy := row_index_g nxo ix in
       get* ryi := pyget yi ixiy in
       get* ryo := pyget yo ixoy in
       get* ro := pyget varo ix in
       get* ro' := row ix ixi ryi ryo ro in
       next_of (pyset varo ix ro'))
    (full2_g nx (ncols_g yo) nan).

(** The order of a sequential run: [range(max(nxi, nxo))] *)
Definition seq_order_g (vari yo : arr_g) : list Z :=
  pyrange 0 (Z.max (nrows_g vari) (nrows_g yo)).

(** The kernels with an explicit schedule [order] of their prange loop. *)
Definition nearest1d_sched_g (vari yi yo : arr_g) : list Z -> res arr_g :=
  rows_kernel_g (fun _ ixi ryi ryo ro =>
                 let* v := pyget vari ixi in nearest_row_g v ryi ryo ro) vari yi yo.
Definition linear1d_sched_g (vari yi yo : arr_g) : list Z -> res arr_g :=
  rows_kernel_g (fun _ ixi ryi ryo ro =>
                 let* v := pyget vari ixi in linear_row_g v ryi ryo ro) vari yi yo.
Definition cubic1d_sched_g (vari yi yo : arr_g) : list Z -> res arr_g :=
  rows_kernel_g (fun ix ixi => poly_row_g cubic_formula_g vari ix ixi) vari yi yo.
Definition hermit1d_sched_g (bias tension : fl) (vari yi yo : arr_g) : list Z -> res arr_g :=
  rows_kernel_g (fun ix ixi => poly_row_g (hermit_formula_g bias tension) vari ix ixi) vari yi yo.

(** xoa/interp.py:54-122 nearest1d *)
Definition nearest1d_g (vari yi yo : arr_g) : res arr_g :=
  nearest1d_sched_g vari yi yo (seq_order_g vari yo).
(** xoa/interp.py:126-205 linear1d ([bias], [tension] are not used by it) *)
Definition linear1d_g (vari yi yo : arr_g) : res arr_g :=
  linear1d_sched_g vari yi yo (seq_order_g vari yo).
(** xoa/interp.py:209-292 cubic1d *)
Definition cubic1d_g (vari yi yo : arr_g) : res arr_g :=
  cubic1d_sched_g vari yi yo (seq_order_g vari yo).
(** xoa/interp.py:296-391 hermit1d *)
Definition hermit1d_g (vari yi yo : arr_g) (bias tension : fl) : res arr_g :=
  hermit1d_sched_g bias tension vari yi yo (seq_order_g vari yo).

(** xoa/interp.py:417-423, one row of extrap1d *)
Definition extrap_row_g (extrap : string) (r : list fl) : res (list fl) :=
  let* (iybot, iytop) := get_iminmax_g r in
  if iybot =? -1 then Ok r
  else
    let* r :=
      if (String.eqb extrap "both" || String.eqb extrap "bottom")%bool then
        let* x := pyget r iybot in Ok (fill_before r iybot x)
      else Ok r in
    if (String.eqb extrap "both" || String.eqb extrap "top")%bool then
      let* x := pyget r iytop in Ok (fill_from r (iytop + 1) x)
    else Ok r.

(** xoa/interp.py:395-425 extrap1d.  Rows are independent: iteration [ix] reads
    and writes row [ix] only. *)
Definition extrap1d_g (vari : arr_g) (extrap : string) : res arr_g :=
  if String.eqb extrap "no" then Ok vari else map_res (extrap_row_g extrap) vari.

(** Python's [min(a, b)] and [max(a, b)] *)
Definition fmin_g (a b : fl) : fl := if fltb b a then b else a.
Definition fmax_g (a b : fl) : fl := if fltb a b then b else a.

(** xoa/interp.py:475-506, body of the loop on input cells of cellave1d.
    State: [iyi0], [wo], [varo].  [extrap] spells "bellow" as the code does. *)
Definition cellave_in_step_g (vari yib yob : arr_g) (conserv : bool) (extrap : string)
    (ix ixi ixiy ixoy nyi iyo iyi : Z) (st : Z * fl * arr_g) : ctl (Z * fl * arr_g) :=
  let '(iyi0, wo, varo) := st in
  get* yib0 := get2_g yib ixiy iyi in
  get* yib1 := get2_g yib ixiy (iyi + 1) in
  get* o0 := get2_g yob ixoy iyo in
  get* o1 := get2_g yob ixoy (iyo + 1) in
  let yib0 :=
    if ((String.eqb extrap "bellow" || String.eqb extrap "both")
        && (iyi =? 0) && fltb o0 yib0)%bool then o0 else yib0 in
  let yib1 :=
    if ((String.eqb extrap "above" || String.eqb extrap "both")
        && (iyi =? nyi - 1) && fltb yib1 o1)%bool then o1 else yib1 in
  if fltb o1 yib0 then Break st
  else if fltb yib1 o0 then Next (iyi + 1, wo, varo)
  else
    let dyio := fsub (fmin_g yib1 o1) (fmax_g yib0 o0) in
    get* dyio :=
      if (conserv && negb (feqb yib0 yib1))%bool then fdiv dyio (fsub o1 o0)
      else Ok dyio in
    get* x := get2_g vari ixi iyi in
    get* wv :=
      (if isnan x then Ok (wo, varo)
       else
         let* a := get2_g varo ixi iyo in
         let* b := get2_g vari ix iyi in
         let* varo' := set2_g varo ixi iyo (fadd a (fmul b dyio)) in
         Ok (fadd wo dyio, varo')) in
    let st' := (iyi0, fst wv, snd wv) in
    if fleb o1 yib1 then Break st' else Next st'.

(** xoa/interp.py:466-514, body of the loop on output cells.  State: [iyi0],
    [varo]. *)
Definition cellave_out_step_g (vari yib yob : arr_g) (conserv : bool) (extrap : string)
    (ix ixi ixiy ixoy nyi iyo : Z) (st : Z * arr_g) : ctl (Z * arr_g) :=
  let '(iyi0, varo) := st in
  get* o0 := get2_g yob ixoy iyo in
  get* o1 := get2_g yob ixoy (iyo + 1) in
  if feqb o0 o1 then Next st
  else
    get* st2 := for_each (pyrange iyi0 nyi)
                  (cellave_in_step_g vari yib yob conserv extrap ix ixi ixiy ixoy nyi iyo)
                  (iyi0, f0, varo) in
    let '(iyi0, wo, varo) := st2 in
    if conserv then Next (iyi0, varo)
    else if negb (feqb wo f0) then
      get* a := get2_g varo ix iyo in
      get* q := fdiv a wo in
      get* varo' := set2_g varo ix iyo q in Next (iyi0, varo')
    else
      get* varo' := set2_g varo ix iyo nan in Next (iyi0, varo').

(** xoa/interp.py:429-516 cellave1d (declared [parallel=False]: sequential) *)
Definition cellave1d_g (vari yib yob : arr_g) (conserv : bool) (extrap : string) : res arr_g :=
  let nxi := nrows_g vari in
  let nyi := ncols_g vari in
  let nxiy := nrows_g yib in
  let nxo := nrows_g yob in
  let nyob := ncols_g yob in
  let nx := Z.max nxi nxo in
  let nyo := nyob - 1 in
  for_each (pyrange 0 nx)
    (fun ix varo =>
       get* ixi := row_index_g nxi ix in
       get* ixiy := row_index_g nxiy ix in
       get* ixoy := row_index_g nxo ix in
       get* st := for_each (pyrange 0 nyo)
                    (cellave_out_step_g vari yib yob conserv extrap ix ixi ixiy ixoy nyi)
                    (0, varo) in
       Next (snd st))
    (full2_g nx nyo f0).

End Kernels.
