(** Model of xoa/regrid.py:regrid1d on labelled arrays, once the working dimensions and the
    input coordinate are known. *)
From Verif Require Export Regrid Coords.
Open Scope nat_scope.

(** xoa/regrid.py:64-134.  [a]: data, [ci]: its coordinate along [dim0], [co]: output
    coordinate along [dim1].  Names, attributes and coordinates of the result are not
    modelled.  [junk] is the content of the uninitialised memory used by cellave. *)
Definition regrid1d (junk : nat -> nat -> fl) (a ci co : da fl) (dim0 dim1 : string)
    (method : enumarg) (conserv : bool) (extrap : enumarg) (bias tension : fl) : res (da fl) :=
  let* f := flush a ci co dim0 dim1 in
  let* d := flush_data f in
  let '(x, y, z) := d in
  let* out := regrid1d_data junk x y z method conserv extrap bias tension in
  get_back nan f out.
