(** Labelled arrays: the part of xarray.DataArray (dimensions, sizes, values) and of
    numpy (row-major reshape) that xoa/coords.py uses.  Nothing here models xoa. *)
From Verif Require Export Misc.
Open Scope nat_scope.

(** An array: its dimensions, its shape in the same order, and its values as a function
    of the list of positions, in the same order *)
Record da (A : Type) := mkda {
  dims : list string;
  shape : list nat;
  value : list nat -> A }.
Arguments mkda {A} _ _ _.
Arguments dims {A} _.
Arguments shape {A} _.
Arguments value {A} _ _.

Definition mem (d : string) (l : list string) : bool := existsb (String.eqb d) l.
(** The position given to dimension [d] by an index list in the order of [ds] *)
Definition pos (ds : list string) (idx : list nat) (d : string) : nat :=
  match dget (combine ds idx) d with Some k => k | None => 0 end.
(** [da.sizes[d]] *)
Definition size {A} (a : da A) (d : string) : nat := pos (dims a) (shape a) d.

(** xarray.core.utils.infix_dims: [None] is Ellipsis *)
Definition nellipsis (req : list (option string)) : nat :=
  List.length (List.filter (fun d => match d with None => true | Some _ => false end) req).
Fixpoint names (req : list (option string)) : list string :=
  match req with [] => [] | Some d :: r => d :: names r | None :: r => names r end.
Definition infix_dims (req : list (option string)) (all : list string) : res (list string) :=
  if 0 <? nellipsis req then
    if 1 <? nellipsis req then Raise ValueError
    else
      let others := List.filter (fun d => negb (mem d (names req))) all in
      Ok (flat_map (fun d => match d with Some d => [d] | None => others end) req)
  else
    if forallb (fun d => mem d all) (names req) && forallb (fun d => mem d (names req)) all
    then Ok (names req) else Raise ValueError.
(** numpy: the axes must be a permutation of the dimensions *)
Fixpoint nodupb (l : list string) : bool :=
  match l with [] => true | d :: r => negb (mem d r) && nodupb r end.
Definition is_perm (l all : list string) : bool :=
  (List.length l =? List.length all) && nodupb l && forallb (fun d => mem d all) l.
Definition permute {A} (a : da A) (nd : list string) : da A :=
  mkda nd (map (size a) nd) (fun idx => value a (map (pos nd idx) (dims a))).
(** xarray.DataArray.transpose; without dimension the order is reversed *)
Definition xr_transpose {A} (a : da A) (req : list (option string)) : res (da A) :=
  let* nd :=
    match req with
    | [] => Ok (rev (dims a))
    | _ => infix_dims req (dims a)
    end in
  if is_perm nd (dims a) then Ok (permute a nd) else Raise ValueError.
(** xarray.DataArray.expand_dims with a dictionary of sizes: new dimensions come first;
    an existing dimension is refused *)
Definition xr_expand_dims {A} (a : da A) (new : dict nat) : res (da A) :=
  if existsb (fun d => mem d (dims a)) (dkeys new) then Raise ValueError
  else Ok (mkda (dkeys new ++ dims a) (map snd new ++ shape a)
                (fun idx => value a (skipn (List.length new) idx))).
(** Add missing dimensions and reorder (xarray.Variable.set_dims): new dimensions with
    their sizes *)
Definition set_dims {A} (a : da A) (nd : list (string * nat)) : da A :=
  mkda (map fst nd) (map snd nd) (fun idx => value a (map (pos (map fst nd) idx) (dims a))).
(** xarray.DataArray.broadcast_like(other, exclude): dimensions of [other] then of [a],
    without the excluded ones; then the excluded ones that [a] has, in the order of
    [exclude].  (Simplification: sizes and indexes of common
    dimensions agree, so the outer alignment does nothing.) *)
Definition broadcast_like {A B} (a : da A) (other : da B) (exclude : list string) : da A :=
  let keep d := negb (mem d exclude) in
  let o := List.filter keep (dims other) in
  let s := List.filter (fun d => keep d && negb (mem d o)) (dims a) in
  set_dims a (map (fun d => (d, size other d)) o ++ map (fun d => (d, size a d)) s
              ++ map (fun d => (d, size a d)) (List.filter (fun d => mem d (dims a)) (nodup string_dec exclude))).

(** numpy row-major order *)
Fixpoint prod (s : list nat) : nat := match s with [] => 1 | n :: r => n * prod r end.
Fixpoint ravel (s idx : list nat) : nat :=
  match s, idx with
  | _ :: s', i :: idx' => i * prod s' + ravel s' idx'
  | _, _ => 0
  end.
Fixpoint unravel (s : list nat) (r : nat) : list nat :=
  match s with
  | [] => []
  | _ :: s' => r / prod s' :: unravel s' (r mod prod s')
  end.
(** [a.data.reshape(-1, a.shape[-1])] as a list of rows *)
Definition reshape2 {A} (a : da A) : res (list (list A)) :=
  match shape a with
  | [] => Raise IndexError
  | _ =>
    let n := List.last (shape a) 0 in
    let lead := removelast (shape a) in
    if n =? 0 then Raise ValueError
    else Ok (map (fun r => map (fun k => value a (unravel lead r ++ [k])) (seq 0 n))
                 (seq 0 (prod lead)))
  end.
(** [data.reshape(shape)] of a 2D array, given by its rows, into a labelled array (xr.DataArray):
    the values in order, any 2D array with that number of values is accepted *)
Definition from_rows {A} (junk : A) (rows : list (list A)) (ds : list string) (s : list nat) : res (da A) :=
  if (List.length (List.concat rows) =? prod s) && (List.length ds =? List.length s) && nodupb ds
  then Ok (mkda ds s (fun idx => nth (ravel s idx) (List.concat rows) junk))
  else Raise ValueError.
