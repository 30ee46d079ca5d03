(** Specification vocabulary for the 1D interpolation properties on numbers of any type, [rank]
    giving the real value of a number and None for NaN (C61-C63).  Independent of the loops of
    the model. *)
From Coq Require Export Reals List Arith ZArith.
Export ListNotations.
Open Scope nat_scope.

Section Spec.
  Context {T : Type}.
  Variable rank : T -> option R.
  (** The [i]th value of [l] is the number [x] (it exists and is not NaN). *)
  Definition gval (l : list T) (i : nat) (x : R) : Prop := exists t, nth_error l i = Some t /\ rank t = Some x.
  Definition gvalid (l : list T) (i : nat) : Prop := exists x, gval l i x.
  (** Coordinates, whatever their NaNs. *)
  Definition gincreasing (l : list T) : Prop :=
    forall i j a b, i < j -> gval l i a -> gval l j b -> (a < b)%R.
  Definition gnondecreasing (l : list T) : Prop :=
    forall i j a b, i < j -> gval l i a -> gval l j b -> (a <= b)%R.
  (** NaNs only before or after the valid values. *)
  Definition gno_hole (l : list T) : Prop :=
    forall i j k, i <= k <= j -> gvalid l i -> gvalid l j -> gvalid l k.
  (** [y] lies in the closed cell between the [i]th and [i+1]th coordinates. *)
  Definition gin_cell (yi : list T) (i : nat) (y : R) : Prop :=
    exists a b, gval yi i a /\ gval yi (S i) b /\ (a <= y <= b)%R.
End Spec.
(** A 2D array of [n] rows of [m] columns. *)
Definition gshape {T} (a : list (list T)) (n m : nat) : Prop :=
  List.length a = n /\ Forall (fun r => List.length r = m) a.
(** Relation [R data_row yi_row yo_row out_row] on every row of an output, the
    arguments being recycled along their first dimension. *)
Definition grows_ok {T} (R : list T -> list T -> list T -> list T -> Prop)
    (vari yi yo out : list (list T)) : Prop :=
  forall ix v ryi ryo r,
    nth_error vari (ix mod List.length vari) = Some v ->
    nth_error yi (ix mod List.length yi) = Some ryi ->
    nth_error yo (ix mod List.length yo) = Some ryo ->
    nth_error out ix = Some r -> R v ryi ryo r.
