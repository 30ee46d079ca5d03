(** Model of xoa/grid.py. *)
From Verif Require Export Misc Interp.
From Coq Require Export Qround.
Open Scope nat_scope.

(** Reading and writing a region of a 1D numpy array, given by a selector *)
Definition read_sel {A} (l : list A) (s : sel) : res (list A) :=
  let* ps := positions (List.length l) s in
  map_res (fun p => pyget l (Z.of_nat p)) ps.
Fixpoint upds {A} (l : list A) (ps : list nat) (xs : list A) : list A :=
  match ps, xs with
  | p :: ps', x :: xs' => upds (upd l p x) ps' xs'
  | _, _ => l
  end.
(** numpy broadcasts an assigned value of length 1, else lengths must agree *)
Definition write_sel {A} (l : list A) (s : sel) (xs : list A) : res (list A) :=
  let* ps := positions (List.length l) s in
  if List.length xs =? List.length ps then Ok (upds l ps xs)
  else match xs with
       | [x] => Ok (upds l ps (List.repeat x (List.length ps)))
       | _ => Raise ValueError
       end.
(** [a + b] and so on, element by element; broadcasting of length 1 excepted,
    lengths must agree *)
Fixpoint zip_with {A B C} (f : A -> B -> C) (a : list A) (b : list B) : list C :=
  match a, b with
  | x :: a', y :: b' => f x y :: zip_with f a' b'
  | _, _ => []
  end.
Definition vec2 (f : fl -> fl -> fl) (a b : list fl) : res (list fl) :=
  if List.length a =? List.length b then Ok (zip_with f a b) else Raise ValueError.

(** The selector of a region for a 1D array *)
Definition region (ss : dict selector) (name : string) : res sel :=
  match dget ss name with
  | Some (TupleSel [s]) | Some (ListSel [s]) => Ok s
  | _ => Raise KeyError
  end.

(** How a computed value is stored in an array of the type of the input: a float
    array stores it, an integer array truncates it toward zero (NaN cannot occur
    in an integer array) *)
Definition store_float (x : fl) : fl := x.
Definition store_int (x : fl) : fl :=
  match x with
  | Some q => Some (inject_Z (if Qle_bool 0 q then Qfloor q else Qceiling q))
  | None => None
  end.

Definition half : Q := 1 # 2.
(** xoa/grid.py:77-78 [a - (b - a) * .5] *)
Definition outer_edge (a b : fl) : fl := fsub a (fmul (fsub b a) (Some half)).
(** xoa/grid.py:79 [0.5 * (a + b)] *)
Definition inner_edge (a b : fl) : fl := fmul (Some half) (fadd a b).

(** xoa/grid.py:26-88 get_edges_1d of a 1D array.  [junk] is the content of
    [np.empty], [store] the conversion to the type of the input.  An nD array is
    processed in the same way for every 1D slice along [axis]. *)
Definition get_edges_1d (store : fl -> fl) (junk : nat -> fl) (data : list fl) : res (list fl) :=
  let* ss := get_axis_slices 1 (-1) [] in
  let edges := map junk (seq 0 (S (List.length data))) in
  let* s_first := region ss "first" in
  let* s_firstp1 := region ss "firstp1" in
  let* s_firsts := region ss "firsts" in
  let* s_lasts := region ss "lasts" in
  let* s_mid := region ss "mid" in
  let* s_last := region ss "last" in
  let* s_lastm1 := region ss "lastm1" in
  let* a := read_sel data s_first in
  let* b := read_sel data s_firstp1 in
  let* e := vec2 outer_edge a b in
  let* edges := write_sel edges s_first (map store e) in
  let* c := read_sel data s_firsts in
  let* d := read_sel data s_lasts in
  let* e := vec2 inner_edge c d in
  let* edges := write_sel edges s_mid (map store e) in
  let* a := read_sel data s_last in
  let* b := read_sel data s_lastm1 in
  let* e := vec2 outer_edge a b in
  write_sel edges s_last (map store e).

(** Along the last axis of a 2D array *)
Definition get_edges_rows (store : fl -> fl) (junk : nat -> nat -> fl) (a : arr) : res arr :=
  map_res (fun ir => get_edges_1d store (junk (fst ir)) (snd ir))
    (combine (seq 0 (List.length a)) a).
