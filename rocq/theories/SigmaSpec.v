(** Specification vocabulary for C40 and C41: the formulas of the CF conventions (appendix D). *)
From Verif Require Export Sigma.
Open Scope R_scope.

(** p = ptop + sigma * (ps - ptop) *)
Definition cf_atmosphere (sigma ps ptop : R) : R := ptop + sigma * (ps - ptop).
(** z = eta + sigma * (depth + eta) *)
Definition cf_sigma (sigma eta depth : R) : R := eta + sigma * (depth + eta).
(** C(s) = (1 - b) * sinh(a s) / sinh(a) + b * (tanh(a (s + 0.5)) / (2 tanh(0.5 a)) - 0.5) *)
Definition cf_stretch (s a b : R) : R := (1 - b) * sinh (a * s) / sinh a + b * (tanh (a * (s + 1 / 2)) / (2 * tanh (1 / 2 * a)) - 1 / 2).
(** z = eta * (1 + s) + depth_c * s + (depth - depth_c) * C(s) *)
Definition cf_s (s C eta depth depth_c : R) : R := eta * (1 + s) + depth_c * s + (depth - depth_c) * C.
(** z = S + eta * (1 + S / depth), S = depth_c * s + (depth - depth_c) * C *)
Definition cf_g1 (s C eta depth depth_c : R) : R :=
  let S := depth_c * s + (depth - depth_c) * C in S + eta * (1 + S / depth).
(** z = eta + (eta + depth) * S, S = (depth_c * s + depth * C) / (depth_c + depth) *)
Definition cf_g2 (s C eta depth depth_c : R) : R :=
  let S := (depth_c * s + depth * C) / (depth_c + depth) in eta + (eta + depth) * S.
(** The same values at all positions *)
Definition has_values (a : arr) (f : (string -> nat) -> R) : Prop := forall e, at_ a e = f e.
(** A function that is strictly increasing on [-1, 0] *)
Definition increasing (f : R -> R) : Prop := forall s t, -1 <= s -> s < t -> t <= 0 -> f s < f t.
