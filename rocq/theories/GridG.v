(** get_edges_1d of xoa/grid.py:26-88 once more, for any arithmetic (the record [nops] of SigmaG.v): with the
    binary64 numbers it is what numpy computes on a float64 array.  Regions and positions as in Grid.v. *)
From Verif Require Export SigmaG GridProofs.
Open Scope nat_scope.
Section Edges.
Variable o : nops.
Local Notation T := (num_ o).
(** xoa/grid.py:77-78 [a - (b - a) * .5] *)
Definition outer_edge_g (a b : T) : T := o_sub o a (o_mul o (o_sub o b a) (o_half o)).
(** xoa/grid.py:79 [0.5 * (a + b)] *)
Definition inner_edge_g (a b : T) : T := o_mul o (o_half o) (o_add o a b).
(** An operation element by element (as [vec2] of Grid.v) *)
Definition vec2_g (f : T -> T -> T) (a b : list T) : res (list T) :=
  if List.length a =? List.length b then Ok (zip_with f a b) else Raise ValueError.
(** xoa/grid.py:26-88 get_edges_1d of a 1D array of floats; [junk] is the content of [np.empty]; an nD array is
    processed in the same way for every 1D slice along [axis] *)
Definition get_edges_1d_g (junk : nat -> T) (data : list T) : res (list T) :=
  let* ss := get_axis_slices 1 (-1) [] in
  let edges := map junk (seq 0 (S (List.length data))) in
  let* s_first := region ss "first" in
  let* s_firstp1 := region ss "firstp1" in
  let* s_firsts := region ss "firsts" in
  let* s_lasts := region ss "lasts" in
  let* s_mid := region ss "mid" in
  let* s_last := region ss "last" in
  let* s_lastm1 := region ss "lastm1" in
  let* a := read_sel data s_first in
  let* b := read_sel data s_firstp1 in
  let* e := vec2_g outer_edge_g a b in
  let* edges := write_sel edges s_first e in
  let* c := read_sel data s_firsts in
  let* d := read_sel data s_lasts in
  let* e := vec2_g inner_edge_g c d in
  let* edges := write_sel edges s_mid e in
  let* a := read_sel data s_last in
  let* b := read_sel data s_lastm1 in
  let* e := vec2_g outer_edge_g a b in
  write_sel edges s_last e.
End Edges.
