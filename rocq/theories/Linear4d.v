(** Model of linear4dto1dxx, xoa/interp.py:738-956: interpolation of a gridded variable (extra,
    time, vertical, y, x) to points.  The function is not compiled: numpy checks the indices, and a
    negative index counts from the end.

    The arithmetic is a parameter ([arith]): nothing is supposed about it, not even that the
    numbers are ordered, so what is proved holds for the doubles with their rounding, NaNs and
    infinities as well as for exact numbers.  Simplifications: the arrays hold floating point
    numbers (np.full(nan) fails on integers); the coordinates of the points and the times are 1D. *)
From Coq Require Import ZArith List Bool.
From Verif Require Import PyBase.
Import ListNotations.
Open Scope Z_scope.

Record arr (T : Type) := mkarr4 { a_shape : list nat; a_at : list Z -> T }.
Arguments mkarr4 {T}. Arguments a_shape {T}. Arguments a_at {T}.

Record arith := mkarith {
  F : Type;
  ge : F -> F -> bool;                       (* x >= y *)
  le : F -> F -> bool;                       (* x <= y *)
  same : F -> F -> bool;                     (* x == y *)
  add : F -> F -> F; sub : F -> F -> F; mul : F -> F -> F; div : F -> F -> F;
  ofZ : Z -> F;
  nan : F; isnan : F -> bool;
  wide : F -> bool;                          (* abs(a) > 180. *)
  amin : list F -> F; amax : list F -> F;    (* of a non empty array *)
  ssr : list F -> F -> nat;                  (* np.searchsorted(a, v, "right") *)
  relloc : arr F -> arr F -> F -> F -> F * F;  (* grid2relloc *)
  ltZ : F -> Z -> bool; gtZ : F -> Z -> bool;  (* p < n, p > n *)
  trunc : F -> option Z                      (* int(p); None: p is NaN *)
}.

Section Linear4d.
Context (o : arith).
Notation num := (F o).
Notation arr4 := (arr num).

(** ** numpy *)
(** one index along a dimension of size [n] *)
Definition wrap (n : nat) (i : Z) : res Z :=
  if (i <? - Z.of_nat n) || (Z.of_nat n <=? i) then Raise IndexError
  else Ok (if i <? 0 then i + Z.of_nat n else i).
Fixpoint wraps (sh : list nat) (ix : list Z) : res (list Z) :=
  match sh, ix with
  | [], [] => Ok []
  | n :: sh, i :: ix => let* i := wrap n i in let* r := wraps sh ix in Ok (i :: r)
  | _, _ => Raise IndexError
  end.
(** a[i, j, ...] *)
Definition item (a : arr4) (ix : list Z) : res num :=
  let* ix := wraps (a_shape a) ix in Ok (a_at a ix).
Fixpoint indices (sh : list nat) : list (list Z) :=
  match sh with
  | [] => [[]]
  | n :: sh => flat_map (fun i => map (cons (Z.of_nat i)) (indices sh)) (seq 0 n)
  end.
Definition elements (a : arr4) : list num := map (a_at a) (indices (a_shape a)).
(** a.min() fails on an empty array *)
Definition reduce (f : list num -> num) (a : arr4) : res num :=
  match elements a with [] => Raise ValueError | l => Ok (f l) end.
Definition shape2 (a : arr4) : res (nat * nat) :=
  match a_shape a with [n; m] => Ok (n, m) | _ => Raise ValueError end.
Definition shape5 (a : arr4) : res (nat * nat * nat * nat * nat) :=
  match a_shape a with [a; b; c; d; e] => Ok (a, b, c, d, e) | _ => Raise ValueError end.
(** A 1D array *)
Definition vec (l : list num) : arr4 := mkarr4 [List.length l] (fun ix => nth (Z.to_nat (hd 0 ix)) l (nan o)).
Definition item1 (l : list num) (i : Z) : res num := item (vec l) [i].

(** ** Python values that the code subscripts: an int, a float, a numpy scalar *)
Inductive scalar := SInt (i : Z) | SFloat (x : num) | SNumpy (x : num).
(** [v[...]]: TypeError for an int or a float, "IndexError: invalid index to scalar variable" for a
    numpy scalar *)
Definition subscript {A} (v : scalar) : res A :=
  match v with SInt _ | SFloat _ => Raise TypeError | SNumpy _ => Raise IndexError end.
(** a local variable, maybe not yet assigned *)
Definition bound_ (v : option scalar) : res scalar := match v with Some v => Ok v | None => Raise UnboundLocalError end.

Fixpoint for_ {S} (l : list nat) (body : nat -> S -> res S) (s : S) : res S :=
  match l with
  | [] => Ok s
  | i :: l => let* s := body i s in for_ l body s
  end.
Definition range (n : nat) : list nat := seq 0 n.

(** The weight (1-a) * (1-ii) + a * ii *)
Definition weight (a : num) (ii : Z) : num :=
  add o (mul o (sub o (ofZ o 1) a) (ofZ o (1 - ii))) (mul o a (ofZ o ii)).

(** A cell along a dimension: index, number of nodes, weight *)
Definition cell := (Z * Z * num)%type.

Section Call.
Context (xxi yyi zzi : arr4) (ti : list num) (vi : arr4) (xo yo zo to : list num).
Context (nyix nxiy nexz ntiz nzi nyiz nxiz nex nti nyi nxi : nat).
Context (ximin ximax yimin yimax zimin zimax timin timax : num).
Let curved := negb (nyix =? 1)%nat.

(** lines 798-802: the test of one dimension; [and] and [or] are lazy *)
Definition in_range (n : nat) (l : list num) (io : nat) (lo hi : num) : res bool :=
  if (n =? 1)%nat then Ok true
  else let* x := item1 l (Z.of_nat io) in
       if ge o x lo then Ok (le o x hi) else Ok false.
Definition skipped (io : nat) : res bool :=
  let* b := in_range nxi xo io ximin ximax in
  if negb b then Ok false else
  let* b := in_range nyi yo io yimin yimax in
  if negb b then Ok false else
  let* b := in_range nzi zo io zimin zimax in
  if negb b then Ok false else
  in_range nti to io timin timax.

(** lines 805-816: None when the point is outside the grid *)
Definition curved_cells (io : nat) : res (option (cell * cell)) :=
  let* x := item1 xo (Z.of_nat io) in
  let* y := item1 yo (Z.of_nat io) in
  let '(p, q) := relloc o xxi yyi x y in
  if ltZ o p 1 || gtZ o p (Z.of_nat nxi) || ltZ o q 1 || gtZ o q (Z.of_nat nyi) then Ok None else
  match trunc o p, trunc o q with
  | Some i, Some j => Ok (Some ((i, 2, sub o p (ofZ o i)), (j, 2, sub o q (ofZ o j))))
  | _, _ => Raise ValueError
  end.
(** lines 818-837 *)
Definition x_cell (io : nat) : res cell :=
  if (nxi =? 1)%nat then Ok (0, 1, ofZ o 0) else
  let n := Z.of_nat nxi in
  let* last := item xxi [0; n - 1] in
  let* x := item1 xo (Z.of_nat io) in
  if same o last x then Ok (n - 1, 0, ofZ o 0) else
  let row := map (fun c => a_at xxi [0; Z.of_nat c]) (seq 0 (nth 1 (a_shape xxi) 0%nat)) in
  let i := Z.of_nat (ssr o row x) - 1 in
  let* xi := item xxi [0; i] in
  let a := sub o x xi in
  let a := if wide o a then sub o a (ofZ o 180) else a in
  let* xj := item xxi [0; i + 1] in
  Ok (i, 2, div o a (sub o xj xi)).
(** lines 839-852 *)
Definition y_cell (io : nat) : res cell :=
  if (nyi =? 1)%nat then Ok (0, 1, ofZ o 0) else
  let n := Z.of_nat nyi in
  let* last := item yyi [n - 1; 0] in
  let* y := item1 yo (Z.of_nat io) in
  if same o last y then Ok (n - 1, 1, ofZ o 0) else
  let column := map (fun c => a_at yyi [Z.of_nat c; 0]) (seq 0 (nth 0 (a_shape yyi) 0%nat)) in
  let j := Z.of_nat (ssr o column y) - 1 in
  let* yj := item yyi [j; 0] in
  let* yj1 := item yyi [j + 1; 0] in
  Ok (j, 2, div o (sub o y yj) (sub o yj1 yj)).
(** lines 854-871 *)
Definition t_cell (io : nat) : res cell :=
  if (nti =? 1)%nat then Ok (0, 1, ofZ o 0) else
  let n := Z.of_nat nti in
  let* last := item1 ti (n - 1) in
  let* t := item1 to (Z.of_nat io) in
  if same o last t then Ok (n - 1, 1, ofZ o 0) else
  let l := Z.of_nat (ssr o ti t) - 1 in
  let* t1 := item1 ti (l + 1) in
  let* t0 := item1 ti l in
  if same o t1 t0 then Ok (l, 1, ofZ o 0) else Ok (l, 2, div o (sub o t t0) (sub o t1 t0)).

(** lines 874-933: the vertical.  [zi] starts as a Python float and becomes a numpy scalar with
    the first term; it is then subscripted.  [k], [c] and [npk] are not assigned before they are
    subscripted. *)
Definition add_term (zi : scalar) (z : num) (w : list num) : scalar :=
  let t := fold_left (mul o) w z in
  match zi with
  | SFloat x | SNumpy x => SNumpy (add o x t)
  | SInt i => SNumpy (add o (ofZ o i) t)
  end.
Definition local_zi (xc yc tc : cell) : res scalar :=
  let '(iz, npiz, az) := if (nxiz =? 1)%nat then (0, 1, ofZ o 0) else xc in
  let '(jz, npjz, bz) := if (nyiz =? 1)%nat then (0, 1, ofZ o 0) else yc in
  let '(lz, nplz, dz) := if (ntiz =? 1)%nat then (0, 1, ofZ o 0) else tc in
  for_ (range nex) (fun ie =>
  for_ (range (Z.to_nat nplz)) (fun ll =>
  for_ (range nzi) (fun kk =>
  for_ (range (Z.to_nat npjz)) (fun jj =>
  for_ (range (Z.to_nat npiz)) (fun ii zi =>
    let ll := Z.of_nat ll in let jj := Z.of_nat jj in let ii := Z.of_nat ii in
    let* z := item zzi [Z.of_nat ie; lz + ll; Z.of_nat kk; jz + jj; iz + ii] in
    Ok (add_term zi z [weight az ii; weight bz jj; weight dz ll])))))) (SFloat (ofZ o 0)).
(** k, c and npk after the block *)
Definition vertical (io : nat) (xc yc tc : cell) : res (option scalar * option scalar * option scalar) :=
  if (nzi =? 1)%nat then Ok (Some (SInt 0), Some (SFloat (ofZ o 0)), Some (SInt 1)) else
  let* zi := local_zi xc yc tc in
  for_ (range nex) (fun ie s =>
    let* last := subscript zi in               (* zi[ie, nzi-1] *)
    let* z := item1 zo (Z.of_nat io) in
    if same o last z then
      let* _ := bound_ (fst (fst s)) in Raise TypeError     (* k[ie] = ...: an int has no item *)
    else
      let* _ := subscript (A := num) zi in
      let* _ := bound_ (fst (fst s)) in Raise TypeError) (None, None, None).

(** lines 936-956: the sum over the cell.  [wr] writes in the local array, of shape (nex, no).
    (Simplification: the slice of the mask is read item by item.  As [k] is never an array, nothing
    after [k[iez+1]] is ever reached: see C76_never_writes.) *)
Definition wr (vo : Z -> nat -> num) (e : Z) (io : nat) (v : num) : res (Z -> nat -> num) :=
  let* e := wrap nex e in
  Ok (fun e' io' => if (e' =? e) && (io' =? io)%nat then v else vo e' io').
Definition interpolate (io : nat) (xc yc tc : cell) (k c npk : option scalar) (vo : Z -> nat -> num) : res (Z -> nat -> num) :=
  let '(i, npi, a) := xc in let '(j, npj, b) := yc in let '(l, npl, d) := tc in
  for_ (range (nex / nexz)) (fun ieb =>
    let ie0 := (Z.of_nat ieb - 1) * Z.of_nat nexz - 1 in
    for_ (range nexz) (fun iez vo =>
      let iez := Z.of_nat iez in
      let* k' := bound_ k in let* k0 := subscript k' in                  (* k[iez+1] *)
      let* npk' := bound_ npk in let* n0 := subscript npk' in            (* npk[iez+1] *)
      let* masked := for_ (range (Z.to_nat iez)) (fun de => for_ (range (Z.to_nat npl)) (fun ll =>
                     for_ (range (Z.to_nat n0)) (fun kk => for_ (range (Z.to_nat npj)) (fun jj =>
                     for_ (range (Z.to_nat npi)) (fun ii m =>
                       let* v := item vi [ie0 + Z.of_nat de; l + Z.of_nat ll; k0 + Z.of_nat kk; j + Z.of_nat jj; i + Z.of_nat ii] in
                       Ok (m || isnan o v)))))) false in
      if masked then Ok vo else
      let* vo := wr vo (ie0 + iez) io (ofZ o 0) in
      for_ (range (Z.to_nat npl)) (fun ll => for_ (range (Z.to_nat n0)) (fun kk =>
      for_ (range (Z.to_nat npj)) (fun jj => for_ (range (Z.to_nat npi)) (fun ii vo =>
        let ll := Z.of_nat ll in let kk := Z.of_nat kk in let jj := Z.of_nat jj in let ii := Z.of_nat ii in
        let* c' := bound_ c in let* c0 := subscript c' in
        let* v := item vi [ie0 + iez; l + ll; k0 + kk; j + jj; i + ii] in
        let* e := wrap nex (ie0 + iez) in
        wr vo (ie0 + iez) io (add o (vo e io)
          (fold_left (mul o) [weight a ii; weight b jj; weight c0 kk; weight d ll] v)))))) vo)) vo.

(** lines 797-956: one point *)
Definition point (io : nat) (vo : Z -> nat -> num) : res (Z -> nat -> num) :=
  let* s := skipped io in
  if s then Ok vo else
  let* xy := if curved then curved_cells io
             else let* x := x_cell io in let* y := y_cell io in Ok (Some (x, y)) in
  match xy with
  | None => Ok vo
  | Some (xc, yc) =>
    let* tc := t_cell io in
    let* v := vertical io xc yc tc in
    let '(k, c, npk) := v in
    interpolate io xc yc tc k c npk vo
  end.
End Call.

(** ** The call (lines 769-956).  The result is the local array [vo] at the end of the loop; what
    the caller gets is below. *)
Definition assert_ (b : bool) : res unit := if b then Ok tt else Raise AssertionError.
Definition body (xxi yyi zzi : arr4) (ti : list num) (vi : arr4) (xo yo zo to : list num) : res (Z -> nat -> num) :=
  let* s := shape2 xxi in let '(nyix, _) := s in
  let* s := shape2 yyi in let '(_, nxiy) := s in
  let* s := shape5 zzi in let '(nexz, ntiz, _, nyiz, nxiz) := s in
  let* s := shape5 vi in let '(nex, nti, nzi, nyi, nxi) := s in
  let no := List.length xo in
  let* ximin := reduce (amin o) vi in
  let* ximax := reduce (amax o) xxi in
  let* yimin := reduce (amin o) yyi in
  let* yimax := reduce (amax o) yyi in
  let* zimin := reduce (amin o) zzi in
  let* zimax := reduce (amax o) zzi in
  let* timin := reduce (amin o) (vec ti) in
  let* timax := reduce (amax o) (vec ti) in
  let curved := negb (nyix =? 1)%nat in
  let* _ := assert_ (negb curved || ((nxi =? nxiy)%nat && (nyi =? nyix)%nat)) in
  let* _ := assert_ ((nxiz =? 1)%nat || (nxiz =? nxi)%nat) in
  let* _ := assert_ ((nyiz =? 1)%nat || (nyiz =? nyi)%nat) in
  let* _ := assert_ ((ntiz =? 1)%nat || (ntiz =? nti)%nat) in
  for_ (range no) (point xxi yyi zzi ti vi xo yo zo to nyix nexz ntiz nzi nyiz nxiz nex nti nyi nxi
                     ximin ximax yimin yimax zimin zimax timin timax) (fun _ _ => nan o).
(** What the caller sees: there is no [return], so None; and the argument [vo], whose name is
    rebound at line 777 before any use *)
Definition linear4dto1dxx (xxi yyi zzi : arr4) (ti : list num) (vi : arr4) (xo yo zo to : list num) (vo : arr4) : res (option arr4 * arr4) :=
  let* _ := body xxi yyi zzi ti vi xo yo zo to in Ok (None, vo).
End Linear4d.
