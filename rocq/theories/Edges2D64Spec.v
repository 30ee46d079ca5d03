(** Specification vocabulary for the corners of 2D cells computed on doubles (C80): as [edge1], [edge2], [residue] of
    Grid2DProps.v, on reals. *)
From Verif Require Export Sigma64Spec Labelled.
From Flocq Require Import Core BinarySingleNaN.
From Coq Require Import Reals.
Open Scope R_scope.
Local Notation f64 := (binary_float 53 1024).
(** Edges of one row: midpoints, and half a cell beyond the ends *)
Definition edge1R (n : nat) (f : nat -> R) (k : nat) : R :=
  if (k =? 0)%nat then 3 / 2 * f 0%nat - 1 / 2 * f 1%nat
  else if (k =? n)%nat then 3 / 2 * f (n - 1)%nat - 1 / 2 * f (n - 2)%nat
  else (f (k - 1)%nat + f k) / 2.
(** on each axis *)
Definition edge2R (ny nx : nat) (f : nat -> nat -> R) (j i : nat) : R := edge1R ny (fun j' => edge1R nx (f j') i) j.
(** What is left of the memory the result is written to *)
Definition on_border (n k : nat) : bool := ((k =? 0) || (k =? n))%nat.
Definition residueR (ny nx : nat) (q : nat -> nat -> R) (j i : nat) : R :=
  if on_border ny j then (if on_border nx i then q j i / 2 else q j i) else if on_border nx i then q j i else 0.
(** A coordinate array: rows and columns of ordinary doubles *)
Definition coordinates (a : da f64) (ny nx : nat) (f : nat -> nat -> R) : Prop :=
  shape a = [ny; nx] /\ (2 <= ny)%nat /\ (2 <= nx)%nat /\
  forall j i, (j < ny)%nat -> (i < nx)%nat -> Sigma64Spec.value (Labelled.value a [j; i]) (f j i).
Definition memory (junk : nat -> nat -> f64) (q : nat -> nat -> R) : Prop := forall j i, Sigma64Spec.value (junk j i) (q j i).
