(** Specification vocabulary for the formulas of sigma.py on binary64 numbers (C70): the formulas of the CF
    conventions, on real numbers. *)
From Verif Require Export Float64Spec.
From Flocq Require Import Core BinarySingleNaN.
From Coq Require Import Reals.
Open Scope R_scope.

(** A double that is a number *)
Definition value (x : binary_float 53 1024) (r : R) : Prop := real64 x = Some r.
(** Half a unit in the last place of 1 *)
Definition ulp1 : R := powerRZ 2 (-53).
Definition reasonable (M : R) : Prop := powerRZ 2 (-900) <= M <= powerRZ 2 900.

Definition atmosphere_cf (s ps ptop : R) : R := ptop + s * (ps - ptop).
Definition sigma_cf (s eta h : R) : R := eta + s * (eta + h).
Definition s_cf (s C eta h hc : R) : R := eta * (1 + s) + hc * s + (h - hc) * C.
Definition g1_cf (s C eta h hc : R) : R := let S_ := hc * s + (h - hc) * C in S_ + eta * (1 + S_ / h).
Definition g2_cf (s C eta h hc : R) : R := let S_ := (hc * s + h * C) / (hc + h) in eta + (eta + h) * S_.
