(** Specification vocabulary for C87: changes of units and combinations of data. *)
From Verif Require Export Interp.
Open Scope Q_scope.

(** [q] in other units: positive scale [c] and shift [d]; NaN stays NaN *)
Definition rescale (c d : Q) (x : fl) : fl := match x with Some q => Some (c * q + d) | None => None end.
(** [a x + b y + g], NaN as soon as x or y is *)
Definition lincomb (a b g : Q) (x y : fl) : fl :=
  match x, y with Some p, Some q => Some (a * p + b * q + g) | _, _ => None end.
Fixpoint map2 {A B C} (f : A -> B -> C) (l : list A) (m : list B) : list C :=
  match l, m with x :: l', y :: m' => f x y :: map2 f l' m' | _, _ => [] end.
Definition rescale_all (c d : Q) (a : arr) : arr := map (map (rescale c d)) a.
Definition lincomb_all (a b g : Q) (v w : arr) : arr := map2 (map2 (lincomb a b g)) v w.
Definition same_shape (v w : arr) : Prop := map (@List.length fl) v = map (@List.length fl) w.
(** Same NaNs *)
Definition same_missing (v w : arr) : Prop := map (map isnan) v = map (map isnan) w.
(** Equal arrays, up to the representation of rational numbers *)
Definition same_values (v w : arr) : Prop := Forall2 feql v w.
(** The third call gives the combination of the results of the first two, or the three fail with
    the same error *)
Definition combines (f : arr -> arr -> arr) (r1 r2 r3 : res arr) : Prop :=
  match r1, r2, r3 with
  | Ok v, Ok w, Ok u => same_shape v w /\ same_values u (f v w)
  | Raise e1, Raise e2, Raise e3 => e1 = e2 /\ e2 = e3
  | _, _, _ => False
  end.
(** The second call gives the image of the result of the first one, or both fail with the same
    error *)
Definition follows (f : arr -> arr) (r1 r2 : res arr) : Prop :=
  match r1, r2 with
  | Ok v, Ok u => same_values u (f v)
  | Raise e1, Raise e2 => e1 = e2
  | _, _ => False
  end.
