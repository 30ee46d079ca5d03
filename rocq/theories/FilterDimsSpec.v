(** Specification vocabulary for C90: the order of the dimensions does not matter. *)
From Verif Require Export FilterSpec.
Open Scope nat_scope.

(** Arrays with the same named dimensions, in any order, the same sizes, and related values at the
    same named positions *)
Definition same_by_name {A} (R : A -> A -> Prop) (a b : da A) : Prop :=
  wf a /\ wf b /\ (forall d, In d (dims a) <-> In d (dims b)) /\ (forall d, In d (dims a) -> size b d = size a d) /\
  forall env, (forall d, In d (dims a) -> env d < size a d) -> R (look a env) (look b env).
(** Results that are the same by name, each one with the dimensions of its input, or the same error *)
Definition agree (a b : da (option Q)) (r r' : res (da (option Q))) : Prop :=
  match r, r' with
  | Ok x, Ok y => dims x = dims a /\ dims y = dims b /\ same_by_name eqv x y
  | Raise e, Raise e' => e = e'
  | _, _ => False
  end.
(** For erode_mask, that may not end ([None]) *)
Definition oagree (a b : da (option Q)) (r r' : res (option (da (option Q)))) : Prop :=
  match r, r' with
  | Ok (Some x), Ok (Some y) => dims x = dims a /\ dims y = dims b /\ same_by_name eqv x y
  | Ok None, Ok None => True
  | Raise e, Raise e' => e = e'
  | _, _ => False
  end.
(** Kernels that do not depend on the order of the dimensions [ds] of the data: labelled arrays, and
    dictionaries about some of these dimensions (sequences are positional) *)
Definition by_name (ds : list string) (kernel : kspec) : Prop :=
  match kernel with KDa k => wf k | KDict d => incl (dkeys d) ds | _ => False end.
