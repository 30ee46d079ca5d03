(** get_edges_2d of xoa/grid.py:91-130 once more, for any arithmetic (the record [nops] of SigmaG.v): with the binary64
    numbers it is what numpy computes on a float64 DataArray.  As Grid2D.v; [quarter] and [c15] are the constants 0.25 and
    1.5; [absent] is never read (default of [nth]). *)
From Verif Require Export GridGProofs Labelled.
Open Scope nat_scope.
Section Edges.
Variable o : nops.
Local Notation T := (num_ o).
Variables (quarter c15 absent : T).
(** xoa/grid.py:107-110 [0.25 * (a + b + c + d)]; 113-118 [1.5 * a - 0.5 * b] *)
Definition mean4_g (a b c d : T) : T := o_mul o quarter (o_add o (o_add o (o_add o a b) c) d).
Definition extrap_g (a b : T) : T := o_sub o (o_mul o c15 a) (o_mul o (o_half o) b).
(** [edges[j0] += e], [edges[:, i0] += e] *)
Definition add_row_g (g : nat -> nat -> T) (j0 : nat) (e : list T) : nat -> nat -> T := fun j i =>
  if j =? j0 then o_add o (g j i) (nth i e absent) else g j i.
Definition add_col_g (g : nat -> nat -> T) (i0 : nat) (e : list T) : nat -> nat -> T := fun j i =>
  if i =? i0 then o_add o (g j i) (nth j e absent) else g j i.
(** xoa/grid.py:91-130 on a DataArray of floats; [junk], [junk1] as in Grid2D.v *)
Definition get_edges_2d_g (junk : nat -> nat -> T) (junk1 : nat -> nat -> T) (suffix : string) (a : da T) : res (da T) :=
  match shape a with
  | [ny; nx] =>
    let data j i := value a [j; i] in
    let edges : nat -> nat -> T := fun j i =>
      if (1 <=? j) && (j <? ny) && (1 <=? i) && (i <? nx)
      then mean4_g (data j i) (data (j - 1) i) (data j (i - 1)) (data (j - 1) (i - 1)) else junk j i in
    if ny <? 2 then Raise IndexError else                      (* data[0], data[1] *)
    let* e := get_edges_1d_g o (junk1 0) (map (fun i => extrap_g (data 0 i) (data 1 i)) (seq 0 nx)) in
    let edges := add_row_g edges 0 e in
    let* e := get_edges_1d_g o (junk1 1) (map (fun i => extrap_g (data (ny - 1) i) (data (ny - 2) i)) (seq 0 nx)) in
    let edges := add_row_g edges ny e in
    let* e := get_edges_1d_g o (junk1 2) (map (fun j => extrap_g (data j 0) (data j 1)) (seq 0 ny)) in
    let edges := add_col_g edges 0 e in
    let* e := get_edges_1d_g o (junk1 3) (map (fun j => extrap_g (data j (nx - 1)) (data j (nx - 2))) (seq 0 ny)) in
    let edges := add_col_g edges nx e in
    let edges : nat -> nat -> T := fun j i =>
      if ((j =? 0) || (j =? ny)) && ((i =? 0) || (i =? nx)) then o_mul o (edges j i) (o_half o) else edges j i in
    Ok (mkda (map (fun d => (d ++ suffix)%string) (dims a)) [S ny; S nx]
             (fun idx => edges (nth 0 idx 0) (nth 1 idx 0)))
  | _ => Raise ValueError
  end.
End Edges.
