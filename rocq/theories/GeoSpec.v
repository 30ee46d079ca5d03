(** Specification vocabulary for C11-C13. *)
From Verif Require Export Geo.
Open Scope R_scope.

(** Point of the unit sphere of given longitude and latitude in degrees, and chord
    between two points.  The great-circle distance on the unit sphere is
    [2 asin (chord / 2)]. *)
Definition sphere (lon lat : R) : R * R * R :=
  let l := PI / 180 * lon in
  let t := PI / 180 * lat in
  (cos t * cos l, cos t * sin l, sin t).
Definition chord (p q : R * R * R) : R :=
  let '(x, y, z) := p in
  let '(x', y', z') := q in
  sqrt ((x - x')^2 + (y - y')^2 + (z - z')^2).

(** Rectangular 2D array, and its value at row [j], column [i] *)
Definition rect (a : rarr) (n m : nat) : Prop :=
  List.length a = n /\ Forall (fun r => List.length r = m) a.
Definition at_ (a : rarr) (j i : nat) : R := nth i (nth j a []) 0.

(** Bilinear combination of four corners (2-3 on top of 1-4): weight [p] from 1 to 4,
    [q] from 1 to 2 *)
Definition bilin (v1 v2 v3 v4 p q : R) : R :=
  (1 - p) * (1 - q) * v1 + (1 - p) * q * v2 + p * q * v3 + p * (1 - q) * v4.
(** Cross product of (P - O) and (Q - O): twice the signed area of the triangle *)
Definition cross (ox oy px py qx qy : R) : R := (px - ox) * (qy - oy) - (qx - ox) * (py - oy).
(** Strictly convex quadrangle 1-4-3-2, in one sense or the other *)
Definition convex (x1 x2 x3 x4 y1 y2 y3 y4 : R) : Prop :=
  (0 < cross x1 y1 x4 y4 x2 y2 /\ 0 < cross x4 y4 x3 y3 x1 y1 /\
   0 < cross x3 y3 x2 y2 x4 y4 /\ 0 < cross x2 y2 x1 y1 x3 y3) \/
  (cross x1 y1 x4 y4 x2 y2 < 0 /\ cross x4 y4 x3 y3 x1 y1 < 0 /\
   cross x3 y3 x2 y2 x4 y4 < 0 /\ cross x2 y2 x1 y1 x3 y3 < 0).
