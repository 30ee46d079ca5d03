(** Specification vocabulary for C37, C38 and C39. *)
From Verif Require Export CoordsSpec Filter.
Open Scope nat_scope.

(** [i] is a position of an array of shape [s] *)
Definition in_shape (s i : list nat) : Prop := Forall2 lt i s.
(** Kernel position [j] is over data position [p] when the kernel is centred on [i]: on each axis
    p - i = (k - 1) / 2 - j *)
Fixpoint meets (ks i j p : list nat) : bool :=
  match ks, i, j, p with
  | [], [], [], [] => true
  | k :: ks', a :: i', b :: j', c :: p' => (c + b =? a + (k - 1) / 2) && meets ks' i' j' p'
  | _, _, _, _ => false
  end.
(** Weights and values of the valid data under the kernel centred on [i] *)
Definition neighbours (a : da (option Q)) (k : da Q) (i : list nat) : list (Q * Q) :=
  flat_map (fun j => flat_map (fun p =>
    if meets (shape k) i j p then match value a p with Some v => [(value k j, v)] | None => [] end else [])
    (indices (shape a))) (indices (shape k)).
Definition weight (l : list (Q * Q)) : Q := qsum (map fst l).
Definition moment (l : list (Q * Q)) : Q := qsum (map (fun wv => fst wv * snd wv)%Q l).
(** A kernel without negative weight *)
Definition nonneg (k : da Q) : Prop := forall j, in_shape (shape k) j -> (0 <= value k j)%Q.
Definition has_nan (a : da (option Q)) : Prop := exists i, in_shape (shape a) i /\ value a i = None.
Definition eqv (x y : option Q) : Prop :=
  match x, y with Some p, Some q => (p == q)%Q | None, None => True | _, _ => False end.

(** C38: the product of 1d kernels *)
Fixpoint outer (ls : list (list Q)) (idx : list nat) : Q :=
  match ls, idx with
  | [], _ => 1%Q
  | l :: ls', i :: idx' => (nth i l 0 * outer ls' idx')%Q
  | _, [] => 1%Q
  end.
(** Mirror image of a position *)
Fixpoint mirror (s idx : list nat) : list nat :=
  match s, idx with n :: s', i :: idx' => (n - 1 - i) :: mirror s' idx' | _, _ => [] end.
Definition count_ones (idx : list nat) : nat := List.length (List.filter (Nat.eqb 1) idx).

(** C39: [p] is under the kernel centred on [i], with some weight *)
Definition linked (k : da Q) (i p : list nat) : Prop :=
  exists j, in_shape (shape k) j /\ meets (shape k) i j p = true /\ (0 < value k j)%Q.
(** [i] is at most [n] steps of the kernel away from valid data *)
Fixpoint near (a : da (option Q)) (k : da Q) (n : nat) (i : list nat) : Prop :=
  match n with
  | O => value a i <> None
  | S n' => near a k n' i \/ exists p, in_shape (shape a) p /\ linked k i p /\ near a k n' p
  end.
(** No weight is negligible (a millionth of the total) *)
Definition no_negligible (k : da Q) : Prop :=
  (0 < total k)%Q /\ forall j, in_shape (shape k) j -> (0 < value k j)%Q -> ((1 # 1000000) * total k < value k j)%Q.
