(** Model of xoa/coords.py:transpose and DimFlusher1D. *)
From Verif Require Export Labelled.
Open Scope nat_scope.

(** xoa/coords.py:192-205 *)
Definition transpose_modes : enum_members :=
  [("classic", 0); ("basic", 0); ("xarray", 0); ("compat", -1); ("insert", 1); ("resize", 2)]%Z%string.

(** xoa/coords.py:208-302: transpose.  [req] is [tuple(dims)] with [None] for Ellipsis,
    [sizes] the sizes known from an array or a dictionary. *)
Definition spec_step {A} (a : da A) (mode : string) (sizes : option (dict nat))
    (d : option string) (s : list (option string) * dict nat) : list (option string) * dict nat :=
  let (odims, expand) := s in
  match d with
  | None => (odims ++ [None], expand)
  | Some n =>
    if mem n (dims a) then (odims ++ [Some n], expand)
    else if String.eqb mode "insert" then (odims ++ [Some n], dset expand n 1)
    else if String.eqb mode "resize" then
      let k := match sizes with
               | None => 1
               | Some ss => match dget ss n with Some k => k | None => 1 end
               end in
      (odims ++ [Some n], dset expand n k)
    else (odims, expand)
  end.
Definition subset_strict (l m : list string) : bool :=
  forallb (fun d => mem d m) l && negb (forallb (fun d => mem d l) m).
(** [set(odims) < set(da.dims)]; only used without Ellipsis *)
Definition transpose {A} (a : da A) (req : list (option string)) (sizes : option (dict nat))
    (mode : enumarg) : res (da A) :=
  let* m := enum_getitem transpose_modes mode in
  let mode := fst m in
  if String.eqb mode "classic" then xr_transpose a req
  else
    let (odims, expand) := fold_left (fun s d => spec_step a mode sizes d s) req ([], []) in
    let* b := match expand with [] => Ok a | _ => xr_expand_dims a expand end in
    let odims := if negb (0 <? nellipsis req) && subset_strict (names odims) (dims b)
                 then None :: odims else odims in
    xr_transpose b odims.

(** xoa/coords.py:308-461: DimFlusher1D once the working dimensions [dim0], [dim1] and the
    input coordinate are known (their search is in CFDims.v).  Arrays: data [a], input
    coordinate [ci] (a coordinate of [a], so a sub-array of it), output coordinate [co]. *)
Record flushed (A B : Type) := mkfl {
  fa : da A; fci : da B; fco : da B;      (* da_in, coord_in, coord_out before reshaping *)
  fcoord : da B;                          (* self.coord_out: coordinate of the result *)
  work_dims : list string; work_shape : list nat; final_dims : list string }.
Arguments mkfl {A B}.
Arguments fa {A B}. Arguments fci {A B}. Arguments fco {A B}. Arguments fcoord {A B}.
Arguments work_dims {A B}. Arguments work_shape {A B}. Arguments final_dims {A B}.

Definition others {A} (a : da A) (d : string) : list string :=
  List.filter (fun x => negb (String.eqb x d)) (dims a).
Definition subset (l m : list string) : bool := forallb (fun d => mem d m) l.
(** lines 371-381 and 396-443 *)
Definition flush {A B} (a : da A) (ci co : da B) (dim0 dim1 : string) : res (flushed A B) :=
  if negb (mem dim0 (dims a) && mem dim1 (dims co)) then Raise AssertionError
  else
  let odims0 := others a dim0 in
  let odims1 := others co dim1 in
  if negb (subset odims0 odims1) && negb (subset odims1 odims0) then Raise XoaError
  else
  let cdims := List.filter (fun d => mem d odims1 && negb (String.eqb d dim0)) odims0 in
  if negb (forallb (fun d => size a d =? size co d) cdims) then Raise AssertionError
  else
  let cdims0 := List.filter (fun d => mem d cdims) (dims a) in
  let dims01 := map (fun d => if String.eqb d dim0 then dim1 else d) (dims a) in
  let* coord := transpose co (None :: map Some dims01) None (EName "compat") in
  (* transpose: the coordinates of the array follow it *)
  let* a1 := xr_transpose a (None :: map Some (cdims0 ++ [dim0])) in
  let ci1 := permute ci (List.filter (fun d => mem d (dims ci)) (dims a1)) in
  let* co1 := xr_transpose co (None :: map Some (cdims0 ++ [dim1])) in
  (* broadcast *)
  let a2 := if subset_strict (removelast (dims a1)) (removelast (dims co1))
            then broadcast_like a1 co1 [dim0; dim1] else a1 in
  let ci2 := if 1 <? List.length (dims co1)   (* and a set is never in a set of strings *)
             then broadcast_like ci1 co1 [dim0; dim1] else ci1 in
  let co2 := if (1 <? List.length (dims co1)) &&
                subset_strict (removelast (dims co1)) (removelast (dims ci2))
             then broadcast_like co1 ci2 [dim0; dim1] else co1 in
  Ok (mkfl a2 ci2 co2 coord
        (removelast (dims a2) ++ [dim1]) (removelast (shape a2) ++ [size co2 dim1]) dims01).
(** lines 445-448: the three 2D arrays *)
Definition flush_data {A B} (f : flushed A B) : res (list (list A) * list (list B) * list (list B)) :=
  let* x := reshape2 (fa f) in
  let* y := reshape2 (fci f) in
  let* z := reshape2 (fco f) in
  Ok (x, y, z).
(** lines 450-461: get_back (coordinates and attributes are not modelled) *)
Definition get_back {A B C} (junk : C) (f : flushed A B) (rows : list (list C)) : res (da C) :=
  let* o := from_rows junk rows (work_dims f) (work_shape f) in
  xr_transpose o (None :: map Some (final_dims f)).
