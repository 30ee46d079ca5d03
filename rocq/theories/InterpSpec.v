(** Specification vocabulary for the 1D interpolation properties (C01-C09).
    Independent of the loops of the model. *)
From Verif Require Export PyBase.
From Coq Require Export Qabs Qminmax.
Open Scope nat_scope.

(** The [i]th value of [l] is the number [x] (it exists and is not NaN). *)
Definition val (l : list fl) (i : nat) (x : Q) : Prop := nth_error l i = Some (Some x).
Definition valid (l : list fl) (i : nat) : Prop := exists x, val l i x.

(** Coordinates, whatever their NaNs. *)
Definition increasing (l : list fl) : Prop :=
  forall i j a b, i < j -> val l i a -> val l j b -> (a < b)%Q.
Definition nondecreasing (l : list fl) : Prop :=
  forall i j a b, i < j -> val l i a -> val l j b -> (a <= b)%Q.
(** NaNs only before or after the valid values. *)
Definition no_hole (l : list fl) : Prop :=
  forall i j k, i <= k <= j -> valid l i -> valid l j -> valid l k.

(** [y] lies in the closed cell between the [i]th and [i+1]th coordinates. *)
Definition in_cell (yi : list fl) (i : nat) (y : Q) : Prop :=
  exists a b, val yi i a /\ val yi (S i) b /\ (a <= y <= b)%Q.

(** A 2D array of [n] rows of [m] columns. *)
Definition shape (a : list (list fl)) (n m : nat) : Prop :=
  List.length a = n /\ Forall (fun r => List.length r = m) a.

(** The linear interpolant between (a, u) and (b, w) at y; NaN data give NaN. *)
Definition lerp (a b : Q) (u w : fl) (y : Q) : fl :=
  match u, w with
  | Some p, Some q => Some (p + (q - p) * ((y - a) / (b - a)))%Q
  | _, _ => None
  end.

(** Independent description of the two indices. *)
Definition iminmax_ok (d : list fl) (r : Z * Z) : Prop :=
  (r = (-1, -1)%Z /\ forall k, ~ valid d k) \/
  (exists a b, r = (Z.of_nat a, Z.of_nat b) /\ valid d a /\ valid d b /\
     forall k, valid d k -> a <= k <= b).

(** Row specification of linear1d *)
Definition linear_row_spec (v yi yo out : list fl) : Prop :=
  List.length out = List.length yo /\
  (forall j y i a b u w,
     val yo j y -> val yi i a -> val yi (S i) b -> (a <= y <= b)%Q ->
     ~ in_cell yi (S i) y ->
     nth_error v i = Some u -> nth_error v (S i) = Some w ->
     exists x, nth_error out j = Some x /\ feq x (lerp a b u w y)) /\
  (forall j, j < List.length yo ->
     ~ (exists y i, val yo j y /\ in_cell yi i y) -> nth_error out j = Some nan).

(** [k] is the index of the coordinate closest to [y], the lowest one in case of
    a tie. *)
Definition closest (yi : list fl) (y : Q) (k : nat) : Prop :=
  exists c, val yi k c /\
    forall k' c', val yi k' c' ->
      (Qabs (y - c) < Qabs (y - c'))%Q \/ ((Qabs (y - c) == Qabs (y - c'))%Q /\ k <= k').

Definition nearest_row_spec (v yi yo out : list fl) : Prop :=
  List.length out = List.length yo /\
  (forall j y, val yo j y -> (exists i, in_cell yi i y) ->
     exists k, closest yi y k /\ nth_error out j = nth_error v k) /\
  (forall j, j < List.length yo ->
     ~ (exists y i, val yo j y /\ in_cell yi i y) -> nth_error out j = Some nan).

Definition all_valid (l : list fl) : Prop := forall i, i < List.length l -> valid l i.

(** Regular coordinates and data in arithmetic progression along the row *)
Definition regular (yi : list fl) (y0 h : Q) : Prop :=
  (0 < h)%Q /\ forall i a, val yi i a -> (a == y0 + inject_Z (Z.of_nat i) * h)%Q.

(** Row specification shared by cubic1d and hermit1d *)
Definition nodes_row_spec (v yi yo out : list fl) : Prop :=
  List.length out = List.length yo /\
  (forall j y, val yo j y -> (exists i, in_cell yi i y) -> exists x, val out j x) /\
  (forall j y k c p, val yo j y -> val yi k c -> (y == c)%Q ->
     (exists i, in_cell yi i y) -> val v k p ->
     exists x, val out j x /\ (x == p)%Q) /\
  (forall j, j < List.length yo ->
     ~ (exists y i, val yo j y /\ in_cell yi i y) -> nth_error out j = Some nan).

Definition same_ok {A} (x y : res A) : Prop := forall r, x = Ok r <-> y = Ok r.

Definition fills_bottom (mode : string) : bool :=
  (String.eqb mode "both" || String.eqb mode "bottom")%bool.

Definition fills_top (mode : string) : bool :=
  (String.eqb mode "both" || String.eqb mode "top")%bool.

Definition extrap_row_spec (mode : string) (r r' : list fl) : Prop :=
  List.length r' = List.length r /\
  (forall i x, val r i x -> nth_error r' i = Some (Some x)) /\
  (* before the first valid value, of index k *)
  (forall i k x, i < k -> val r k x -> (forall k', k' < k -> ~ valid r k') ->
     nth_error r' i = Some (if fills_bottom mode then Some x else nan)) /\
  (* after the last valid value, of index k *)
  (forall i k x, k < i -> i < List.length r -> val r k x ->
     (forall k', k < k' -> ~ valid r k') ->
     nth_error r' i = Some (if fills_top mode then Some x else nan)) /\
  (* holes *)
  (forall i k1 k2, k1 < i -> i < k2 -> valid r k1 -> valid r k2 -> ~ valid r i ->
     nth_error r' i = Some nan) /\
  (* nothing valid *)
  ((forall k, ~ valid r k) -> r' = r).

Fixpoint qsum (n : nat) (f : nat -> Q) : Q :=
  match n with O => 0 | S k => (qsum k f + f k)%Q end.

(** Length of the intersection of [b0, b1] and [o0, o1] *)
Definition overlap (b0 b1 o0 o1 : Q) : Q := Qmax 0 (Qmin b1 o1 - Qmax b0 o0).

(** Number at position [i] (only used where it is valid) *)
Definition numat (l : list fl) (i : nat) : Q :=
  match nth_error l i with Some (Some q) => q | _ => 0%Q end.

(** Overlap-weighted sum of the valid data, and sum of their overlaps *)
Definition cell_sum (v yb ob : list fl) (j : nat) : Q :=
  qsum (List.length v) (fun i =>
    match nth_error v i with
    | Some (Some x) =>
        (x * overlap (numat yb i) (numat yb (S i)) (numat ob j) (numat ob (S j)))%Q
    | _ => 0%Q end).

Definition cell_weight (v yb ob : list fl) (j : nat) : Q :=
  qsum (List.length v) (fun i =>
    match nth_error v i with
    | Some (Some x) => overlap (numat yb i) (numat yb (S i)) (numat ob j) (numat ob (S j))
    | _ => 0%Q end).

Definition cellave_row_spec (conserv : bool) (v yb ob r : list fl) : Prop :=
  S (List.length r) = List.length ob /\
  forall j, S j < List.length ob -> exists x, nth_error r j = Some x /\
    if conserv then
      feq x (Some (cell_sum v yb ob j / (numat ob (S j) - numat ob j))%Q)
    else
      ((cell_weight v yb ob j == 0)%Q /\ x = nan) \/
      (~ (cell_weight v yb ob j == 0)%Q /\
       feq x (Some (cell_sum v yb ob j / cell_weight v yb ob j)%Q)).

(** Relation [R data_row yi_row yo_row out_row] on every row of an output, the
    arguments being recycled along their first dimension. *)
Definition rows_ok (R : list fl -> list fl -> list fl -> list fl -> Prop)
    (vari yi yo out : list (list fl)) : Prop :=
  forall ix v ryi ryo r,
    nth_error vari (ix mod List.length vari) = Some v ->
    nth_error yi (ix mod List.length yi) = Some ryi ->
    nth_error yo (ix mod List.length yo) = Some ryo ->
    nth_error out ix = Some r -> R v ryi ryo r.
