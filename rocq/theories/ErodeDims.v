(** Model of the horizontal dimensions of erode_mask: _get_xydims_ (xoa/filter.py:555-562) and the
    beginning of erode_mask (filter.py:598-630).  The search of the dimensions is that of
    CFSearch.v (coords.get_dims, xoa/coords.py:162-189, and CFSpecs.get_dims, cf.py:1409-1436, only
    pass their arguments on), the erosion that of Filter.v. *)
From Verif Require Import CFSearch.
From Verif Require Import Filter.
Open Scope nat_scope.

(** A numpy array of booleans *)
Record bnd := mkbnd { bshape : list nat; bvalue : list nat -> bool }.
Inductive until_arg := ATimes (n : Z) | AMask (m : da bool) | AArray (b : bnd).

Section Erode.
  (** The current specifications *)
  Variable sg : sgloc.
  Variable cs : catspecs.
  Variable known : dict (list string).
  (** lines 555-562; [get_dims(...)[0]]: the default positions are "tzyx" *)
  Definition get_dim1 (data : xda) (t : string) : res (option string) :=
    let* l := get_dims sg cs known data [t] true ["t"; "z"; "y"; "x"]%string ERaise in
    match l with d :: _ => Ok d | [] => Raise IndexError end.
  Definition get_xydims (data : xda) (xdim ydim : option string) : res (option string * option string) :=
    let* x := match xdim with None => get_dim1 data "x" | Some x => Ok (Some x) end in
    let* y := match ydim with None => get_dim1 data "y" | Some y => Ok (Some y) end in
    Ok (x, y).
  Variable window : nat -> list Q.
  Variable fill : Q.
  (** lines 598-630.  (Simplification: a dimension None, that get_dims never gives with
      errors="raise", counts as a KeyError.) *)
  Definition named (xy : option string * option string) : res (string * string) :=
    match xy with (Some x, Some y) => Ok (x, y) | _ => Raise KeyError end.
  Definition erode_call (fuel : nat) (float : bool) (data : xda) (a : da (option Q)) (u : until_arg) (kernel : option kspec)
      (xdim ydim : option string) : res (option (da (option Q))) :=
    if List.length (dims a) <? 2 then Raise XoaError else
    let* r := match u with
              | ATimes n => Ok (UTimes n, xdim, ydim)
              | AMask m => Ok (UMask m, xdim, ydim)
              | AArray b =>
                let* xy := get_xydims data xdim ydim in
                let* n := named xy in
                if 2 <? List.length (bshape b) then Raise XoaError else
                if negb (List.length (bshape b) =? 2) then Raise ValueError else
                Ok (UMask (mkda [snd n; fst n] (bshape b) (bvalue b)), Some (fst n), Some (snd n))
              end in
    let '(u, xdim, ydim) := r in
    if match u with UMask m => negb (forallb (fun d => mem d (dims a)) (dims m)) | _ => false end then Raise XoaError else
    match kernel with
    | Some k => erode_mask window fill fuel float a u (Some k) "" ""
    | None =>
      let* xy := get_xydims data xdim ydim in
      let* n := named xy in
      erode_mask window fill fuel float a u None (fst n) (snd n)
    end.
End Erode.
