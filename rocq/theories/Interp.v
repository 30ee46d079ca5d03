(** Model of the 1D kernels of xoa/interp.py.

    2D arrays are lists of rows.  Floats are [fl] (exact rationals or NaN). *)
From Verif Require Export PyBase.
Open Scope Z_scope.

Definition arr := list (list fl).

(** [a.shape]: number of rows, number of columns (0 columns if no row). *)
Definition nrows (a : arr) : Z := Z.of_nat (List.length a).
Definition ncols (a : arr) : Z :=
  match a with [] => 0 | r :: _ => Z.of_nat (List.length r) end.

(** [a[i, j]] and [a[i, j] = x] *)
Definition get2 (a : arr) (i j : Z) : res fl :=
  let* r := pyget a i in pyget r j.
Definition set2 (a : arr) (i j : Z) (x : fl) : res arr :=
  let* r := pyget a i in
  let* r' := pyset r j x in
  pyset a i r'.

(** [np.full((n, m), x)] *)
Definition full2 (n m : Z) (x : fl) : arr :=
  List.repeat (List.repeat x (Z.to_nat m)) (Z.to_nat n).

(** [min(n-1, ix % n)]; [ix % 0] raises.  xoa/interp.py:87-89 (and the same
    three lines in every kernel) *)
Definition row_index (n ix : Z) : res Z :=
  if n =? 0 then Raise ZeroDivisionError else Ok (Z.min (n - 1) (ix mod n)).

(** xoa/interp.py:42-49, loop body of get_iminmax *)
Definition iminmax_step (d : list fl) (n i : Z) (st : Z * Z) : ctl (Z * Z) :=
  let '(imin, imax) := st in
  get* x := pyget d i in
  let imin := if (imin <? 0) && negb (isnan x) then i else imin in
  get* y := pyget d (n - 1 - i) in
  let imax := if (imax <? 0) && negb (isnan y) then n - 1 - i else imax in
  if (imax >? 0) && (imin >? 0) then Break (imin, imax) else Next (imin, imax).

(** xoa/interp.py:26-50 get_iminmax *)
Definition get_iminmax (d : list fl) : res (Z * Z) :=
  let n := Z.of_nat (List.length d) in
  for_each (pyrange 0 n) (iminmax_step d n) (-1, -1).

(** xoa/interp.py:107-120, body of the innermost loop of nearest1d.
    The state is ([iyomin], row [ix] of [varo]). *)
Definition nearest_step (v yi yo : list fl) (iyi iyo : Z)
    (st : Z * list fl) : ctl (Z * list fl) :=
  let '(iyomin, out) := st in
  get* y := pyget yo iyo in
  get* y0 := pyget yi iyi in
  get* y1 := pyget yi (iyi + 1) in
  let dy0 := fsub y y0 in
  let dy1 := fsub y1 y in
  if fltb dy1 f0 then Break (iyomin, out)
  else if fltb dy0 f0 then Next (iyo + 1, out)
  else if fleb dy0 dy1 then
    get* x := pyget v iyi in
    get* out' := pyset out iyo x in Next (iyomin, out')
  else
    get* x := pyget v (iyi + 1) in
    get* out' := pyset out iyo x in Next (iyomin, out').

(** xoa/interp.py:176-193, body of the innermost loop of linear1d *)
Definition linear_step (v yi yo : list fl) (iyi iyo : Z)
    (st : Z * list fl) : ctl (Z * list fl) :=
  let '(iyomin, out) := st in
  get* y := pyget yo iyo in
  get* y0 := pyget yi iyi in
  get* y1 := pyget yi (iyi + 1) in
  let dy0 := fsub y y0 in
  let dy1 := fsub y1 y in
  if fltb dy1 f0 then Break (iyomin, out)
  else if fltb dy0 f0 then Next (iyo + 1, out)
  else if fleb f0 dy0 && fleb f0 dy1 then
    get* v0 := pyget v iyi in
    get* v1 := pyget v (iyi + 1) in
    get* x := fdiv (fadd (fmul v0 dy1) (fmul v1 dy0)) (fadd dy0 dy1) in
    get* out' := pyset out iyo x in Next (iyomin, out')
  else Next (iyomin, out).

(** [mu**2], [mu**3] *)
Definition fsq (x : fl) : fl := fmul x x.
Definition fcub (x : fl) : fl := fmul x (fmul x x).
Definition fc (q : Q) : fl := Some q.

(** xoa/interp.py:270-277 (and 361-368): the two outer values.  The first
    branch reads row [ix] of [vari], not row [ixi]. *)
Definition outer_values (vari : arr) (ix ixi iyi iyimin iyimax : Z) : res (fl * fl) :=
  let* vc0 :=
    if iyi =? iyimin then
      let* a := get2 vari ix iyi in
      let* b := get2 vari ix (iyi + 1) in
      Ok (fsub (fmul (fc 2) a) b)
    else get2 vari ixi (iyi - 1) in
  let* vc1 :=
    if iyi =? iyimax - 1 then
      let* a := get2 vari ixi (iyi + 1) in
      let* b := get2 vari ixi iyi in
      Ok (fsub (fmul (fc 2) a) b)
    else get2 vari ixi (iyi + 2) in
  Ok (vc0, vc1).

(** xoa/interp.py:280-287, the cubic polynomial ([varo] updates in order) *)
Definition cubic_formula (mu vc0 v0 v1 vc1 : fl) : fl :=
  let t := fadd (fsub (fsub vc1 v1) vc0) v0 in
  let t2 := fadd (fmul (fcub mu) t) (fmul (fsq mu) (fsub (fsub vc0 v0) t)) in
  let t3 := fadd t2 (fmul mu (fsub v1 vc0)) in
  fadd t3 v0.

(** xoa/interp.py:371-388, the Hermite polynomial *)
Definition hermit_formula (bias tension mu vc0 v0 v1 vc1 : fl) : fl :=
  let half x := fmul x (fc (1 # 2)) in
  let a0 := fadd (fsub (fmul (fc 2) (fcub mu)) (fmul (fc 3) (fsq mu))) (fc 1) in
  let a1 := fadd (fsub (fcub mu) (fmul (fc 2) (fsq mu))) mu in
  let a2 := fsub (fcub mu) (fsq mu) in
  let a3 := fadd (fmul (fc (-2)) (fcub mu)) (fmul (fc 3) (fsq mu)) in
  let wp := fmul (fadd (fc 1) bias) (fsub (fc 1) tension) in
  let wm := fmul (fsub (fc 1) bias) (fsub (fc 1) tension) in
  let r0 := fmul a0 v0 in
  let r1 := fadd r0 (fmul a1 (fadd (half (fmul (fsub v0 vc0) wp))
                                   (half (fmul (fsub v1 v0) wm)))) in
  let r2 := fadd r1 (fmul a2 (fadd (half (fmul (fsub v1 v0) wp))
                                   (half (fmul (fsub vc1 v1) wm)))) in
  fadd r2 (fmul a3 v1).

(** xoa/interp.py:254-287 and 345-388, body of the innermost loop of cubic1d
    and hermit1d, which differ by the final polynomial only. *)
Definition poly_step (poly : fl -> fl -> fl -> fl -> fl -> fl)
    (vari : arr) (ix ixi iyimin iyimax : Z) (yi yo : list fl) (iyi iyo : Z)
    (st : Z * list fl) : ctl (Z * list fl) :=
  let '(iyomin, out) := st in
  get* y := pyget yo iyo in
  get* y0 := pyget yi iyi in
  get* y1 := pyget yi (iyi + 1) in
  let dy0 := fsub y y0 in
  let dy1 := fsub y1 y in
  if fltb dy1 f0 then Break (iyomin, out)
  else if fleb f0 dy0 && fleb f0 dy1 then
    get* mu := fdiv dy0 (fadd dy0 dy1) in
    get* vcs := outer_values vari ix ixi iyi iyimin iyimax in
    get* v0 := get2 vari ix iyi in
    get* v1 := get2 vari ix (iyi + 1) in
    get* out' := pyset out iyo (poly mu (fst vcs) v0 v1 (snd vcs)) in
    Next (iyo, out')
  else Next (iyomin, out).

(** xoa/interp.py:94-105 (also 164-174, 242-252, 333-343): one iteration of
    the loop on input intervals.  [hi] is the end of the inner range. *)
Definition interval_step (step : Z -> Z -> Z * list fl -> ctl (Z * list fl))
    (yi yo : list fl) (iyomax hi iyi : Z) (st : Z * list fl) : ctl (Z * list fl) :=
  get* y1 := pyget yi (iyi + 1) in
  get* a := pyget yo (fst st) in
  if fltb y1 a then Next st
  else
    get* y0 := pyget yi iyi in
    get* b := pyget yo iyomax in
    if fltb b y0 then Break st
    else next_of (for_each (pyrange (fst st) hi) (step iyi) st).

(** Body of the parallel loop for one row: xoa/interp.py:91-120, nearest1d *)
Definition nearest_row (v yi yo out : list fl) : res (list fl) :=
  let* (iyimin, iyimax) := get_iminmax yi in
  let* (iyomin, iyomax) := get_iminmax yo in
  let* st := for_each (pyrange iyimin iyimax)
     (interval_step (nearest_step v yi yo) yi yo iyomax (iyomax + 1)) (iyomin, out) in
  Ok (snd st).

(** xoa/interp.py:161-193, linear1d *)
Definition linear_row (v yi yo out : list fl) : res (list fl) :=
  let* (iyimin, iyimax) := get_iminmax yi in
  let* (iyomin, iyomax) := get_iminmax yo in
  let* st := for_each (pyrange iyimin iyimax)
     (interval_step (linear_step v yi yo) yi yo iyomax (iyomax + 1)) (iyomin, out) in
  Ok (snd st).

(** xoa/interp.py:239-287 and 330-388: cubic1d and hermit1d *)
Definition poly_row (poly : fl -> fl -> fl -> fl -> fl -> fl)
    (vari : arr) (ix ixi : Z) (yi yo out : list fl) : res (list fl) :=
  let* (iyimin, iyimax) := get_iminmax yi in
  let* (iyomin, iyomax) := get_iminmax yo in
  let* st := for_each (pyrange iyimin iyimax)
     (interval_step (poly_step poly vari ix ixi iyimin iyimax yi yo)
        yi yo iyomax (Z.of_nat (List.length yo))) (iyomin, out) in
  Ok (snd st).

(** xoa/interp.py:73-122 (also 145-205, 226-289, 315-391): shapes, output
    initialised with NaN, and the parallel loop on rows, run in the order
    [order] of its iterations.  [row ix ixi yi_row yo_row out_row] computes the
    new row [ix] of [varo]; each iteration only touches that row. *)
Definition rows_kernel (row : Z -> Z -> list fl -> list fl -> list fl -> res (list fl))
    (vari yi yo : arr) (order : list Z) : res arr :=
  let nxi := nrows vari in
  let nxiy := nrows yi in
  let nxo := nrows yo in
  let nx := Z.max nxi nxo in
  for_each order
    (fun ix varo =>
       get* ixi := row_index nxi ix in
       get* ixiy := row_index nxiy ix in
       get* ixoy := row_index nxo ix in
       get* ryi := pyget yi ixiy in
       get* ryo := pyget yo ixoy in
       get* ro := pyget varo ix in
       get* ro' := row ix ixi ryi ryo ro in
       next_of (pyset varo ix ro'))
    (full2 nx (ncols yo) nan).

(** The order of a sequential run: [range(max(nxi, nxo))] *)
Definition seq_order (vari yo : arr) : list Z :=
  pyrange 0 (Z.max (nrows vari) (nrows yo)).

(** The kernels with an explicit schedule [order] of their prange loop. *)
Definition nearest1d_sched (vari yi yo : arr) : list Z -> res arr :=
  rows_kernel (fun _ ixi ryi ryo ro =>
                 let* v := pyget vari ixi in nearest_row v ryi ryo ro) vari yi yo.
Definition linear1d_sched (vari yi yo : arr) : list Z -> res arr :=
  rows_kernel (fun _ ixi ryi ryo ro =>
                 let* v := pyget vari ixi in linear_row v ryi ryo ro) vari yi yo.
Definition cubic1d_sched (vari yi yo : arr) : list Z -> res arr :=
  rows_kernel (fun ix ixi => poly_row cubic_formula vari ix ixi) vari yi yo.
Definition hermit1d_sched (bias tension : fl) (vari yi yo : arr) : list Z -> res arr :=
  rows_kernel (fun ix ixi => poly_row (hermit_formula bias tension) vari ix ixi) vari yi yo.

(** xoa/interp.py:54-122 nearest1d *)
Definition nearest1d (vari yi yo : arr) : res arr :=
  nearest1d_sched vari yi yo (seq_order vari yo).
(** xoa/interp.py:126-205 linear1d ([bias], [tension] are not used by it) *)
Definition linear1d (vari yi yo : arr) : res arr :=
  linear1d_sched vari yi yo (seq_order vari yo).
(** xoa/interp.py:209-292 cubic1d *)
Definition cubic1d (vari yi yo : arr) : res arr :=
  cubic1d_sched vari yi yo (seq_order vari yo).
(** xoa/interp.py:296-391 hermit1d *)
Definition hermit1d (vari yi yo : arr) (bias tension : fl) : res arr :=
  hermit1d_sched bias tension vari yi yo (seq_order vari yo).

(** [a[:k] = x] and [a[k:] = x] for 0 <= k *)
Definition fill_before {A} (l : list A) (k : Z) (x : A) : list A :=
  List.repeat x (Nat.min (Z.to_nat k) (List.length l)) ++ skipn (Z.to_nat k) l.
Definition fill_from {A} (l : list A) (k : Z) (x : A) : list A :=
  firstn (Z.to_nat k) l ++ List.repeat x (List.length l - Z.to_nat k)%nat.

(** xoa/interp.py:417-423, one row of extrap1d *)
Definition extrap_row (extrap : string) (r : list fl) : res (list fl) :=
  let* (iybot, iytop) := get_iminmax r in
  if iybot =? -1 then Ok r
  else
    let* r :=
      if (String.eqb extrap "both" || String.eqb extrap "bottom")%bool then
        let* x := pyget r iybot in Ok (fill_before r iybot x)
      else Ok r in
    if (String.eqb extrap "both" || String.eqb extrap "top")%bool then
      let* x := pyget r iytop in Ok (fill_from r (iytop + 1) x)
    else Ok r.

Fixpoint map_res {A B} (f : A -> res B) (l : list A) : res (list B) :=
  match l with
  | [] => Ok []
  | x :: l' => let* y := f x in let* l2 := map_res f l' in Ok (y :: l2)
  end.

(** xoa/interp.py:395-425 extrap1d.  Rows are independent: iteration [ix] reads
    and writes row [ix] only. *)
Definition extrap1d (vari : arr) (extrap : string) : res arr :=
  if String.eqb extrap "no" then Ok vari else map_res (extrap_row extrap) vari.

(** Python's [min(a, b)] and [max(a, b)] *)
Definition fmin (a b : fl) : fl := if fltb b a then b else a.
Definition fmax (a b : fl) : fl := if fltb a b then b else a.

(** xoa/interp.py:475-506, body of the loop on input cells of cellave1d.
    State: [iyi0], [wo], [varo].  [extrap] spells "bellow" as the code does. *)
Definition cellave_in_step (vari yib yob : arr) (conserv : bool) (extrap : string)
    (ix ixi ixiy ixoy nyi iyo iyi : Z) (st : Z * fl * arr) : ctl (Z * fl * arr) :=
  let '(iyi0, wo, varo) := st in
  get* yib0 := get2 yib ixiy iyi in
  get* yib1 := get2 yib ixiy (iyi + 1) in
  get* o0 := get2 yob ixoy iyo in
  get* o1 := get2 yob ixoy (iyo + 1) in
  let yib0 :=
    if ((String.eqb extrap "bellow" || String.eqb extrap "both")
        && (iyi =? 0) && fltb o0 yib0)%bool then o0 else yib0 in
  let yib1 :=
    if ((String.eqb extrap "above" || String.eqb extrap "both")
        && (iyi =? nyi - 1) && fltb yib1 o1)%bool then o1 else yib1 in
  if fltb o1 yib0 then Break st
  else if fltb yib1 o0 then Next (iyi + 1, wo, varo)
  else
    let dyio := fsub (fmin yib1 o1) (fmax yib0 o0) in
    get* dyio :=
      if (conserv && negb (feqb yib0 yib1))%bool then fdiv dyio (fsub o1 o0)
      else Ok dyio in
    get* x := get2 vari ixi iyi in
    get* wv :=
      (if isnan x then Ok (wo, varo)
       else
         let* a := get2 varo ixi iyo in
         let* b := get2 vari ix iyi in
         let* varo' := set2 varo ixi iyo (fadd a (fmul b dyio)) in
         Ok (fadd wo dyio, varo')) in
    let st' := (iyi0, fst wv, snd wv) in
    if fleb o1 yib1 then Break st' else Next st'.

(** xoa/interp.py:466-514, body of the loop on output cells.  State: [iyi0],
    [varo]. *)
Definition cellave_out_step (vari yib yob : arr) (conserv : bool) (extrap : string)
    (ix ixi ixiy ixoy nyi iyo : Z) (st : Z * arr) : ctl (Z * arr) :=
  let '(iyi0, varo) := st in
  get* o0 := get2 yob ixoy iyo in
  get* o1 := get2 yob ixoy (iyo + 1) in
  if feqb o0 o1 then Next st
  else
    get* st2 := for_each (pyrange iyi0 nyi)
                  (cellave_in_step vari yib yob conserv extrap ix ixi ixiy ixoy nyi iyo)
                  (iyi0, f0, varo) in
    let '(iyi0, wo, varo) := st2 in
    if conserv then Next (iyi0, varo)
    else if negb (feqb wo f0) then
      get* a := get2 varo ix iyo in
      get* q := fdiv a wo in
      get* varo' := set2 varo ix iyo q in Next (iyi0, varo')
    else
      get* varo' := set2 varo ix iyo nan in Next (iyi0, varo').

(** xoa/interp.py:429-516 cellave1d (declared [parallel=False]: sequential) *)
Definition cellave1d (vari yib yob : arr) (conserv : bool) (extrap : string) : res arr :=
  let nxi := nrows vari in
  let nyi := ncols vari in
  let nxiy := nrows yib in
  let nxo := nrows yob in
  let nyob := ncols yob in
  let nx := Z.max nxi nxo in
  let nyo := nyob - 1 in
  for_each (pyrange 0 nx)
    (fun ix varo =>
       get* ixi := row_index nxi ix in
       get* ixiy := row_index nxiy ix in
       get* ixoy := row_index nxo ix in
       get* st := for_each (pyrange 0 nyo)
                    (cellave_out_step vari yib yob conserv extrap ix ixi ixiy ixoy nyi)
                    (0, varo) in
       Next (snd st))
    (full2 nx nyo f0).
