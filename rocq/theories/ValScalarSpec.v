(** Specification vocabulary for C52. *)
From Verif Require Export ValScalar.
Open Scope string_scope.

Definition plain (s : string) : Prop := s <> "" /\ all_chars (fun c => negb (is_space c || Ascii.eqb c ",")) s = true.
Definition gap (s : string) : Prop := all_chars is_space s = true.
(** Items separated by one comma, or by blanks *)
Inductive separated : list string -> string -> Prop :=
| sep_one s : plain s -> separated [s] s
| sep_comma s l t : plain s -> separated l t -> separated (s :: l) (s ++ "," ++ t)
| sep_blank s l g t : plain s -> gap g -> g <> "" -> separated l t -> separated (s :: l) (s ++ g ++ t).
Definition delimited (l : list string) (s : string) : Prop :=
  exists g1 t g2, s = g1 ++ t ++ g2 /\ gap g1 /\ gap g2 /\ separated l t.

(** Bounds: one or two letters c or o, then at most two letters n or e *)
Definition bounds (s : string) : Prop := exists x y, s = x ++ y /\ all_chars is_co x = true /\ all_chars is_ne y = true /\
  (1 <= String.length x <= 2)%nat /\ (String.length y <= 2)%nat.
(** Substring *)
Definition substring (x s : string) : Prop := exists a b, s = a ++ x ++ b.
Definition no_comma (s : string) : Prop := all_chars (fun c => negb (Ascii.eqb c ",")) s = true.
Definition brackets (s : string) : Prop := all_chars is_bracket s = true.
(** Does not start or end with a bracket or a space *)
Definition bare_ends (s : string) : Prop := forall c t, (s = String c t \/ s = t ++ String c "") -> is_bracket c = false.

Definition in01 (v : yval) : Prop := exists q, v = YNum (Some q) /\ (0 <= q /\ q <= 1)%Q.
