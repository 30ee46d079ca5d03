(** Specification vocabulary for C88: changes of units and combinations of labelled arrays. *)
From Verif Require Export RegridND InterpUnitsSpec.
Open Scope Q_scope.

(** [f(x)] and [f(x, y)], value by value *)
Definition dmap {A B} (f : A -> B) (x : da A) : da B := mkda (dims x) (shape x) (fun i => f (value x i)).
Definition dmap2 {A B C} (f : A -> B -> C) (x : da A) (y : da B) : da C :=
  mkda (dims x) (shape x) (fun i => f (value x i) (value y i)).
(** Same dimensions, in the same order, and same sizes *)
Definition same_layout {A B} (x : da A) (y : da B) : Prop := dims x = dims y /\ shape x = shape y.
(** Same NaNs *)
Definition same_nans (x y : da fl) : Prop := forall i, isnan (value x i) = isnan (value y i).
(** Equal labelled arrays, up to the representation of rational numbers *)
Definition deq (x y : da fl) : Prop := same_layout x y /\ forall i, feq (value x i) (value y i).
(** The third call gives the combination of the results of the first two, or the three fail with
    the same error *)
Definition dcombines (f : fl -> fl -> fl) (r1 r2 r3 : res (da fl)) : Prop :=
  match r1, r2, r3 with
  | Ok x, Ok y, Ok z => same_layout x y /\ deq z (dmap2 f x y)
  | Raise e1, Raise e2, Raise e3 => e1 = e2 /\ e2 = e3
  | _, _, _ => False
  end.
(** The second call gives the image of the result of the first, or both fail with the same error *)
Definition dfollows (f : fl -> fl) (r1 r2 : res (da fl)) : Prop :=
  match r1, r2 with
  | Ok x, Ok z => deq z (dmap f x)
  | Raise e1, Raise e2 => e1 = e2
  | _, _ => False
  end.
