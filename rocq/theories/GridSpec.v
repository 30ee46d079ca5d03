(** Specification vocabulary for C14. *)
From Verif Require Export InterpSpec.
Open Scope nat_scope.

(** The edges [e] of the cells whose centres are [d]. *)
Definition mean (a b : fl) : fl := match a, b with Some x, Some y => Some ((x + y) / 2)%Q | _, _ => None end.

Definition edges_spec (d e : list fl) : Prop :=
  List.length e = S (List.length d) /\
  (* interior edges are the midpoints of their neighbours (NaN as soon as one is NaN) *)
  (forall i a b, nth_error d i = Some a -> nth_error d (S i) = Some b ->
     exists x, nth_error e (S i) = Some x /\ feq x (mean a b)) /\
  (* each end value is midway between its two edges *)
  (forall a b, val d 0 a -> val d 1 b -> exists x y, val e 0 x /\ val e 1 y /\ (a == (x + y) / 2)%Q) /\
  (forall n a b, S (S n) = List.length d -> val d n a -> val d (S n) b ->
     exists x y, val e (S n) x /\ val e (S (S n)) y /\ (b == (x + y) / 2)%Q).

Definition strictly_decreasing (l : list fl) : Prop :=
  forall i j a b, i < j -> val l i a -> val l j b -> (b < a)%Q.
