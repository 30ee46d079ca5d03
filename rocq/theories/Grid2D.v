(** Model of xoa/grid.py:91-130, get_edges_2d. *)
From Verif Require Export Grid Labelled.
Open Scope nat_scope.

(** [0.25 * (a + b + c + d)], [1.5 * a - 0.5 * b] *)
Definition mean4 (a b c d : fl) : fl := fmul (Some (1 # 4)%Q) (fadd (fadd (fadd a b) c) d).
Definition extrap (a b : fl) : fl := fsub (fmul (Some (3 # 2)%Q) a) (fmul (Some (1 # 2)%Q) b).
(** A 2D array as a function of the row and of the column *)
Definition grid := nat -> nat -> fl.
(** [edges[j0] += e], [edges[:, i0] += e] *)
Definition add_row (g : grid) (j0 : nat) (e : list fl) : grid := fun j i =>
  if j =? j0 then fadd (g j i) (nth i e None) else g j i.
Definition add_col (g : grid) (i0 : nat) (e : list fl) : grid := fun j i =>
  if i =? i0 then fadd (g j i) (nth j e None) else g j i.
(** The result: a DataArray; an ndarray has no attribute [dims] (line 124).  [junk]: the content of
    np.empty; [junk1]: those of the calls to get_edges_1d.  An array of integers refuses [+=] of
    floats.  (Not modelled: the name.) *)
Definition get_edges_2d (is_xr is_float : bool) (junk : grid) (junk1 : nat -> nat -> fl) (suffix : string)
    (a : da fl) : res (da fl) :=
  match shape a with
  | [ny; nx] =>
    let data j i := value a [j; i] in
    let row j := map (data j) (seq 0 nx) in
    let edges : grid := fun j i =>
      if (1 <=? j) && (j <? ny) && (1 <=? i) && (i <? nx)
      then mean4 (data j i) (data (j - 1) i) (data j (i - 1)) (data (j - 1) (i - 1)) else junk j i in
    if ny <? 2 then Raise IndexError else                      (* data[0], data[1] *)
    let* e := get_edges_1d store_float (junk1 0) (map (fun i => extrap (data 0 i) (data 1 i)) (seq 0 nx)) in
    if negb is_float then Raise TypeError else
    let edges := add_row edges 0 e in
    let* e := get_edges_1d store_float (junk1 1) (map (fun i => extrap (data (ny - 1) i) (data (ny - 2) i)) (seq 0 nx)) in
    let edges := add_row edges ny e in
    let* e := get_edges_1d store_float (junk1 2) (map (fun j => extrap (data j 0) (data j 1)) (seq 0 ny)) in
    let edges := add_col edges 0 e in
    let* e := get_edges_1d store_float (junk1 3) (map (fun j => extrap (data j (nx - 1)) (data j (nx - 2))) (seq 0 ny)) in
    let edges := add_col edges nx e in
    let edges : grid := fun j i =>
      if ((j =? 0) || (j =? ny)) && ((i =? 0) || (i =? nx)) then fmul (edges j i) (Some (1 # 2)%Q) else edges j i in
    if negb is_xr then Raise AttributeError else
    Ok (mkda (map (fun d => (d ++ suffix)%string) (dims a)) [S ny; S nx]
             (fun idx => edges (nth 0 idx 0) (nth 1 idx 0)))
  | _ => Raise ValueError
  end.
