(** Specification vocabulary for the edges of cells computed on doubles (C71). *)
From Verif Require Export Sigma64Spec.
From Flocq Require Import Core BinarySingleNaN.
From Coq Require Import Reals.
Open Scope R_scope.
(** A double as close to [r] as a double can be *)
Definition closest_double (x : binary_float 53 1024) (r : R) : Prop :=
  exists v, value x v /\ forall y w, value y w -> Rabs (v - r) <= Rabs (w - r).
Local Notation row := (list (binary_float 53 1024)).
Local Notation val := (gval real64).
(** The edges [e] of the cells whose centres are [d]: each inner edge is the double nearest to the midpoint of its
    neighbours, the outer ones are extrapolated by half a cell with a small error; NaN as soon as a neighbour is *)
Definition edges64 (d e : row) : Prop :=
  List.length e = S (List.length d) /\
  (forall i a b, val d i a -> val d (S i) b -> exists x, nth_error e (S i) = Some x /\ closest_double x ((a + b) / 2)) /\
  (forall M a b, reasonable M -> val d 0 a -> val d 1 b -> Rabs a <= M -> Rabs b <= M ->
     exists x, val e 0 x /\ Rabs (x - (a - (b - a) / 2)) <= 5 * ulp1 * M) /\
  (forall n M a b, S (S n) = List.length d -> reasonable M -> val d n a -> val d (S n) b -> Rabs a <= M -> Rabs b <= M ->
     exists x, val e (S (S n)) x /\ Rabs (x - (b + (b - a) / 2)) <= 5 * ulp1 * M) /\
  (forall i x y, nth_error d i = Some x -> nth_error d (S i) = Some y -> isNaN x \/ isNaN y -> nan_at e (S i)) /\
  (forall x y, nth_error d 0 = Some x -> nth_error d 1 = Some y -> isNaN x \/ isNaN y -> nan_at e 0) /\
  (forall n x y, S (S n) = List.length d -> nth_error d n = Some x -> nth_error d (S n) = Some y -> isNaN x \/ isNaN y -> nan_at e (S (S n))).
