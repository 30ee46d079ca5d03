(** Specification vocabulary for cellave1d on binary64 numbers (C69), over the real values of the
    numbers.  Independent of the loops of the model. *)
From Verif Require Export Float64Spec.
From Flocq Require Import Core BinarySingleNaN.
From Coq Require Import Reals String.
Open Scope R_scope.
Local Notation row := (list (binary_float 53 1024)).
Local Notation val := (gval real64).

(** NaN, zero, or a number of magnitude between 2^-200 and 2^200 *)
Definition ordinary (x : binary_float 53 1024) : Prop :=
  isNaN x \/ exists r, real64 x = Some r /\ (r = 0 \/ powerRZ 2 (-200) <= Rabs r <= powerRZ 2 200).
Definition all_ordinary (a : list row) : Prop := Forall (Forall ordinary) a.
(** Every value is a number *)
Definition no_nan (l : row) : Prop := forall i, (i < List.length l)%nat -> exists x, val l i x.

(** The [i]th value, and 0 for NaN *)
Definition datum (l : row) (i : nat) : option R := match nth_error l i with Some t => real64 t | None => None end.
Definition num64 (l : row) (i : nat) : R := match datum l i with Some x => x | None => 0 end.
Fixpoint rsum (n : nat) (f : nat -> R) : R := match n with O => 0 | S m => rsum m f + f m end.

(** The length of the part of the [i]th input cell, of edges [yb], in the [j]th output cell, of edges
    [ob].  The first cell extends to minus infinity with the mode "bellow" (spelled so), the last one
    (of [n]) to infinity with "above"; both with "both". *)
Definition to_bottom (extrap : string) : bool := (String.eqb extrap "bellow" || String.eqb extrap "both")%bool.
Definition to_top (extrap : string) : bool := (String.eqb extrap "above" || String.eqb extrap "both")%bool.
Definition part (extrap : string) (n : nat) (yb ob : row) (j i : nat) : R :=
  let lo := if (to_bottom extrap && Nat.eqb i 0)%bool then num64 ob j else Rmax (num64 yb i) (num64 ob j) in
  let hi := if (to_top extrap && Nat.eqb (S i) n)%bool then num64 ob (S j) else Rmin (num64 yb (S i)) (num64 ob (S j)) in
  Rmax 0 (hi - lo).
(** The length of the output cell that holds data, and the integral of the data over it *)
Definition filled (extrap : string) (v yb ob : row) (j : nat) : R :=
  rsum (List.length v) (fun i => match datum v i with Some _ => part extrap (List.length v) yb ob j i | None => 0 end).
Definition integral (extrap : string) (v yb ob : row) (j : nat) : R :=
  rsum (List.length v) (fun i => match datum v i with Some x => x * part extrap (List.length v) yb ob j i | None => 0 end).
(** Each output: the mean of the data, NaN where there are none; with [conserv], the integral of the
    data over the width of the cell.  Up to a few half-units in the last place of the largest datum, per
    input cell. *)
Definition cellave64_row (conserv : bool) (extrap : string) (v yb ob r : row) : Prop :=
  S (List.length r) = List.length ob /\
  forall j M, (j < List.length r)%nat -> 0 <= M -> (forall i x, val v i x -> Rabs x <= M) ->
    let n := INR (List.length v) in
    if conserv then
      exists x, val r j x /\
        Rabs (x - integral extrap v yb ob j / (num64 ob (S j) - num64 ob j)) <= 2 * (n + 5) * powerRZ 2 (-53) * M
    else
      (filled extrap v yb ob j = 0 /\ nan_at r j) \/
      (0 < filled extrap v yb ob j /\ exists x, val r j x /\
        Rabs (x - integral extrap v yb ob j / filled extrap v yb ob j) <= 3 * (n + 2) * powerRZ 2 (-53) * M).

(** Integers of magnitude at most 2^k *)
Definition integers (k : Z) (l : row) : Prop :=
  forall i t, nth_error l i = Some t -> isNaN t \/ exists z, real64 t = Some (IZR z) /\ (Z.abs z <= 2 ^ k)%Z.
(** Rounding to the nearest double, ties to even *)
Definition nearest_double (x : R) : R := round radix2 (FLT_exp (-1074) 53) ZnearestE x.
