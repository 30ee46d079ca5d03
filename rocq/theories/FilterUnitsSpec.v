(** Specification vocabulary for C89: filters, units and combinations of data. *)
From Verif Require Export FilterSpec RegridUnitsSpec.

(** For erode_mask, that may not end ([None]) *)
Definition ocombines (f : fl -> fl -> fl) (r1 r2 r3 : res (option (da fl))) : Prop :=
  match r1, r2, r3 with
  | Ok (Some x), Ok (Some y), Ok (Some z) => same_layout x y /\ deq z (dmap2 f x y)
  | Ok None, Ok None, Ok None => True
  | Raise e1, Raise e2, Raise e3 => e1 = e2 /\ e2 = e3
  | _, _, _ => False
  end.
(** A kernel multiplied by a number *)
Definition kscale (c : Q) (k : da Q) : da Q := dmap (Qmult c) k.
(** Same results, up to the representation of rational numbers, or same errors *)
Definition same_result (r1 r2 : res (da fl)) : Prop :=
  match r1, r2 with Ok x, Ok y => deq y x | Raise e1, Raise e2 => e1 = e2 | _, _ => False end.
Definition same_oresult (r1 r2 : res (option (da fl))) : Prop :=
  match r1, r2 with
  | Ok (Some x), Ok (Some y) => deq y x | Ok None, Ok None => True
  | Raise e1, Raise e2 => e1 = e2 | _, _ => False end.
Definition ofollows (f : fl -> fl) (r1 r2 : res (option (da fl))) : Prop :=
  match r1, r2 with
  | Ok (Some x), Ok (Some z) => deq z (dmap f x) | Ok None, Ok None => True
  | Raise e1, Raise e2 => e1 = e2 | _, _ => False end.
