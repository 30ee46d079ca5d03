(** Specification vocabulary for the binary64 properties (C61-C64), over the real values of the
    numbers.  Independent of the loops of the model. *)
From Verif Require Export InterpGSpec.
From Flocq Require Import Core BinarySingleNaN.
From Coq Require Import Reals.
Open Scope R_scope.

(** A double: the real value of a finite one, None for NaN and the infinities *)
Definition real64 (x : binary_float 53 1024) : option R := if is_finite x then Some (B2R x) else None.
Definition isNaN (x : binary_float 53 1024) : Prop := x = B754_nan.
(** A NaN, or a number of magnitude at most 2^k *)
Definition within (k : Z) (x : binary_float 53 1024) : Prop :=
  isNaN x \/ exists r, real64 x = Some r /\ Rabs r <= powerRZ 2 k.
(** NaN, or finite *)
Definition not_infinite (x : binary_float 53 1024) : Prop := isNaN x \/ exists r, real64 x = Some r.
Local Notation row := (list (binary_float 53 1024)).
Local Notation val := (gval real64).
Local Notation valid := (gvalid real64).
Local Notation in_cell := (gin_cell real64).
Definition all_within (k : Z) (a : list row) : Prop := Forall (Forall (within k)) a.
Definition covered (yi yo : row) (j : nat) : Prop := exists y i, val yo j y /\ in_cell yi i y.
Definition nan_at (l : row) (j : nat) : Prop := nth_error l j = Some B754_nan.

(** Linear interpolation: NaNs exactly where there is no cell or one of the two data is NaN, and
    elsewhere the linear interpolant with an error of at most 7 half-units in the last place of the
    largest of the two data (the other two terms are below 10^-320, unless the cell is minute). *)
Definition lin_err (p q a b : R) : R :=
  7 * powerRZ 2 (-53) * Rmax (Rabs p) (Rabs q) + 3 * powerRZ 2 (-1075) / (b - a) + powerRZ 2 (-1075).
Definition linear64_row (v yi yo out : row) : Prop :=
  List.length out = List.length yo /\
  (forall j y i a b p q,
     val yo j y -> val yi i a -> val yi (S i) b -> a <= y <= b -> ~ in_cell yi (S i) y ->
     val v i p -> val v (S i) q ->
     exists x, val out j x /\ Rabs (x - (p + (q - p) * ((y - a) / (b - a)))) <= lin_err p q a b) /\
  (forall j y i,
     val yo j y -> in_cell yi i y -> ~ in_cell yi (S i) y ->
     ~ (valid v i /\ valid v (S i)) -> nan_at out j) /\
  (forall j, (j < List.length yo)%nat -> ~ covered yi yo j -> nan_at out j).

(** The nearest coordinate, up to rounding: no coordinate is closer to [y] than the one used by more
    than a factor 1 + 2^-51, and none of lower index is as close (so ties go to the lower one). *)
Definition nearly_closest (yi : row) (y : R) (k : nat) : Prop :=
  exists c, val yi k c /\
    (forall k' c', val yi k' c' -> Rabs (y - c) <= (1 + powerRZ 2 (-51)) * Rabs (y - c')) /\
    (forall k' c', (k' < k)%nat -> val yi k' c' -> Rabs (y - c) < Rabs (y - c')).
Definition nearest64_row (v yi yo out : row) : Prop :=
  List.length out = List.length yo /\
  (forall j y, val yo j y -> (exists i, in_cell yi i y) ->
     exists k, nearly_closest yi y k /\ nth_error out j = nth_error v k) /\
  (forall j, (j < List.length yo)%nat -> ~ covered yi yo j -> nan_at out j).

(** Cubic and Hermite interpolation: a number in every cell and NaN elsewhere; the data themselves,
    to the last bit, at the nodes of [exact]. *)
Definition poly64_row (exact : row -> nat -> R -> Prop) (v yi yo out : row) : Prop :=
  List.length out = List.length yo /\
  (forall j, covered yi yo j -> valid out j) /\
  (forall j y k p, val yo j y -> val yi k y -> exact yi k y -> val v k p -> val out j p) /\
  (forall j, (j < List.length yo)%nat -> ~ covered yi yo j -> nan_at out j).
(** The node is the lower end of a cell / the end of some cell *)
Definition lower_end (yi : row) (k : nat) (y : R) : Prop := in_cell yi k y.
Definition some_end (yi : row) (k : nat) (y : R) : Prop := exists i, in_cell yi i y.

(** Anything but NaN, infinities included *)
Definition number (l : row) (i : nat) (x : binary_float 53 1024) : Prop := nth_error l i = Some x /\ ~ isNaN x.
Definition has_number (l : row) (i : nat) : Prop := exists x, number l i x.
(** The two indices of get_iminmax *)
Definition iminmax64 (d : row) (r : Z * Z) : Prop :=
  (r = (-1, -1)%Z /\ forall k, ~ has_number d k) \/
  (exists a b, r = (Z.of_nat a, Z.of_nat b) /\ has_number d a /\ has_number d b /\
     forall k, has_number d k -> (a <= k <= b)%nat).
(** Extrapolation: every number stays; the NaNs before the first number [x] become [x] when [bottom],
    those after the last one when [top]; all others remain. *)
Definition extrap64_row (bottom top : bool) (r r' : row) : Prop :=
  List.length r' = List.length r /\
  (forall i x, number r i x -> nth_error r' i = Some x) /\
  (forall i k x, (i < k)%nat -> number r k x -> (forall k', (k' < k)%nat -> ~ has_number r k') ->
     nth_error r' i = Some (if bottom then x else B754_nan)) /\
  (forall i k x, (k < i < List.length r)%nat -> number r k x -> (forall k', (k < k')%nat -> ~ has_number r k') ->
     nth_error r' i = Some (if top then x else B754_nan)) /\
  (forall i k1 k2, (k1 < i < k2)%nat -> has_number r k1 -> has_number r k2 -> ~ has_number r i ->
     nan_at r' i) /\
  ((forall k, ~ has_number r k) -> r' = r).

(** The cubic and the Hermite polynomials of a cell, at the position [m] in it, from the data [p] and
    [q] of its ends and the outer values [l] and [r] *)
Definition cubic_poly (l p q r m : R) : R :=
  (r - q - l + p) * m ^ 3 + (l - p - (r - q - l + p)) * m ^ 2 + (q - l) * m + p.
Definition hermite_poly (bias tension l p q r m : R) : R :=
  (2 * m ^ 3 - 3 * m ^ 2 + 1) * p
  + (m ^ 3 - 2 * m ^ 2 + m) * ((p - l) * (1 + bias) * (1 - tension) / 2 + (q - p) * (1 - bias) * (1 - tension) / 2)
  + (m ^ 3 - m ^ 2) * ((q - p) * (1 + bias) * (1 - tension) / 2 + (r - q) * (1 - bias) * (1 - tension) / 2)
  + (- 2 * m ^ 3 + 3 * m ^ 2) * q.
(** The outer values: the next datum, or its mirror image when the cell is the first or last one *)
Definition left_value (v yi : row) (i : nat) (p q l : R) : Prop :=
  ((forall k, (k < i)%nat -> ~ valid yi k) /\ l = 2 * p - q) \/
  ((exists k, (k < i)%nat /\ valid yi k) /\ val v (i - 1) l).
Definition right_value (v yi : row) (i : nat) (p q r : R) : Prop :=
  ((forall k, (S i < k)%nat -> ~ valid yi k) /\ r = 2 * q - p) \/
  ((exists k, (S i < k)%nat /\ valid yi k) /\ val v (S (S i)) r).
(** Every output in a cell is the polynomial [P] up to [K] half-units in the last place of the largest
    datum of the row *)
Definition poly64_err (P : R -> R -> R -> R -> R -> R) (K : R) (v yi yo out : row) : Prop :=
  forall j y i a b p q l r M,
    val yo j y -> val yi i a -> val yi (S i) b -> a <= y <= b -> ~ in_cell yi (S i) y ->
    val v i p -> val v (S i) q -> left_value v yi i p q l -> right_value v yi i p q r ->
    powerRZ 2 (-900) <= M -> (forall k x, val v k x -> Rabs x <= M) ->
    exists x, val out j x /\ Rabs (x - P l p q r ((y - a) / (b - a))) <= K * powerRZ 2 (-53) * M.
