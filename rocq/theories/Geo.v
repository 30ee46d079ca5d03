(** Model of the geometry of xoa/interp.py:520-735 (haversine, closest2d, cell2relloc,
    grid2relloc, grid2rellocs) on real numbers.
    Simplifications: coordinates are real numbers (no NaN, no rounding); the Python
    meaning of the functions is used (numba's compilation is not modelled): a division
    by zero raises ZeroDivisionError, the square root of a negative number raises
    ValueError (compiled, it is a NaN that no test accepts), an unset local raises
    UnboundLocalError. *)
From Verif Require Export PyBase.
From Coq Require Export Reals Lra.
Open Scope R_scope.

Definition rltb (x y : R) : bool := if Rlt_dec x y then true else false.
Definition rdiv (x y : R) : res R := if Req_EM_T y 0 then Raise ZeroDivisionError else Ok (x / y).
Definition rsqrt (x : R) : res R := if rltb x 0 then Raise ValueError else Ok (sqrt x).

(** xoa/interp.py:522-546 *)
Definition deg2rad : R := PI / 180.
Definition haversine (lon0 lat0 lon1 lat1 : R) : R :=
  let dist := (sin (deg2rad * (lat0 - lat1) * (1 / 2)))^2 in
  let dist := dist + cos (deg2rad * lat0) * cos (deg2rad * lat1) *
                     (sin (deg2rad * (lon0 - lon1) * (1 / 2)))^2 in
  2 * asin (sqrt dist).

(** A 2D array as a list of rows; [a[j, i]] *)
Definition rarr := list (list R).
Definition ny (a : rarr) : nat := List.length a.
Definition nx (a : rarr) : nat := match a with [] => O | r :: _ => List.length r end.
Definition aget (a : rarr) (j i : Z) : res R := let* r := pyget a j in pyget r i.

(** xoa/interp.py:550-580; state: [(i, j)] if set, and [mindist] *)
Definition closest_state := (option (Z * Z) * R)%type.
Definition closest_step (xxi yyi : rarr) (xo yo : R) (it jt : Z) (s : closest_state) : ctl closest_state :=
  get* x := aget xxi jt it in
  get* y := aget yyi jt it in
  let dist := haversine xo yo x y in
  if rltb dist (snd s) then Next (Some (it, jt), dist) else Next s.
Definition closest2d (xxi yyi : rarr) (xo yo : R) : res (Z * Z) :=
  let nyi := Z.of_nat (ny xxi) in
  let nxi := Z.of_nat (nx xxi) in
  let* s := for_each (pyrange 0 nxi) (fun it s =>
      next_of (for_each (pyrange 0 nyi) (fun jt s => closest_step xxi yyi xo yo it jt s) s))
    (None, PI) in
  match fst s with Some ij => Ok ij | None => Raise UnboundLocalError end.

(** [np.finfo(np.float64).eps] = 2^-52 *)
Definition eps : R := / 2 ^ 52.

(** xoa/interp.py:584-646 *)
Definition cell2relloc (x1 x2 x3 x4 y1 y2 y3 y4 x y : R) : res (R * R) :=
  let small := eps * 2 in
  let a := x4 - x1 in
  let b := x2 - x1 in
  let c := x3 - x4 - x2 + x1 in
  let d := y4 - y1 in
  let e := y2 - y1 in
  let f := y3 - y4 - y2 + y1 in
  let yy := y - y1 in
  let xx := x - x1 in
  let AA := c * d - a * f in
  let BB := - c * yy + b * d + xx * f - a * e in
  let CC := - yy * b + e * xx in
  let* (p1, p2) :=
    if rltb (Rabs AA) small then
      let* p1 := rdiv (- CC) BB in Ok (p1, p1)
    else
      let DD := BB ^ 2 - 4 * AA * CC in
      let* sDD := rsqrt DD in
      let* p1 := rdiv (- BB - sDD) (2 * AA) in
      let* p2 := rdiv (- BB + sDD) (2 * AA) in
      Ok (p1, p2) in
  let* q1 :=
    if rltb small (Rabs (b + c * p1)) then rdiv (xx - a * p1) (b + c * p1)
    else rdiv (yy - d * p1) (e + f * p1) in
  if rltb p1 0 || rltb 1 p1 || rltb q1 0 || rltb 1 q1 then
    let* q2 :=
      if rltb small (Rabs (b + c * p2)) then rdiv (xx - a * p2) (b + c * p2)
      else rdiv (yy - d * p2) (e + f * p2) in
    Ok (p2, q2)
  else Ok (p1, q1).

(** [x <= y] *)
Definition rleb (x y : R) : bool := if Rle_dec x y then true else false.

(** xoa/interp.py:650-701; the state is the value to return when it is known *)
Definition relloc_step (xxi yyi : rarr) (xo yo : R) (i j : Z) (s : option (R * R)) : ctl (option (R * R)) :=
  get* x1 := aget xxi j i in
  get* x2 := aget xxi (j + 1) i in
  get* x3 := aget xxi (j + 1) (i + 1) in
  get* x4 := aget xxi j (i + 1) in
  get* y1 := aget yyi j i in
  get* y2 := aget yyi (j + 1) i in
  get* y3 := aget yyi (j + 1) (i + 1) in
  get* y4 := aget yyi j (i + 1) in
  get* (a, b) := cell2relloc x1 x2 x3 x4 y1 y2 y3 y4 xo yo in
  if rleb (0 - eps) a && rleb a (1 + eps) && rleb (0 - eps) b && rleb b (1 + eps)
  then Break (Some (IZR i + a, IZR j + b)) else Next s.
Definition grid2relloc (xxi yyi : rarr) (xo yo : R) : res (R * R) :=
  let nyi := Z.of_nat (ny xxi) in
  let nxi := Z.of_nat (nx xxi) in
  let* (ic, jc) := closest2d xxi yyi xo yo in
  let* s := for_each (pyrange (Z.max (ic - 1) 0) (Z.min ic (nxi - 2))) (fun i s =>
      match for_each (pyrange (Z.max (jc - 1) 0) (Z.min jc (nyi - 2)))
              (fun j s => relloc_step xxi yyi xo yo i j s) s with
      | Ok (Some r) => Break (Some r)   (* the return statement *)
      | Ok None => Next None
      | Raise e => Fail e
      end) None in
  Ok (match s with Some r => r | None => (-1, -1) end).

(** xoa/interp.py:705-735: the loop on the points, [pp] and [qq] zipped *)
Fixpoint grid2rellocs (xxi yyi : rarr) (xo yo : list R) : res (list (R * R)) :=
  match xo, yo with
  | [], _ => Ok []
  | _ :: _, [] => Raise IndexError
  | x :: xo', y :: yo' =>
    let* r := grid2relloc xxi yyi x y in
    let* rs := grid2rellocs xxi yyi xo' yo' in
    Ok (r :: rs)
  end.
