(** Specification vocabulary for C34. *)
From Verif Require Export CfgNames.
Open Scope string_scope.

Definition has_char (c : ascii) (s : string) : Prop := exists a b, s = a ++ String c b.
(** A name without dash nor space *)
Definition blank (c : ascii) : Prop := In (nat_of_ascii c) [32; 9; 10; 11; 12; 13]%nat.
Definition clean (s : string) : Prop :=
  s <> "" /\ forall c, has_char c s -> c <> dash /\ ~ blank c.
(** An option whose names are clean; the names of sections may be surrounded by underscores. *)
Definition good_path (p : path) : Prop :=
  (forall s, In s (parents p) -> clean (strip_under s)) /\ clean (key p) /\ strip_under (key p) = key p.
(** The prefix of nested configurations is in lower case, without dash *)
Definition good_nested (nested : option string) : Prop :=
  match nested with Some n => lower n = n /\ ~ has_char dash n | None => True end.
(** Names of an option as they are used in flags *)
Definition names (p : path) : list string := (map strip_under (parents p) ++ [key p])%list.
(** Two options that differ by more than the case of their names *)
Definition same_names (p q : path) : Prop := map lower (names p) = map lower (names q).
Definition no_under (p : path) : Prop := forall s, In s (names p) -> ~ has_char under s.
(** The value given to the option of path [p] *)
Fixpoint ns_get {V} (options : list (string * option V)) (dest : string) : option V :=
  match options with
  | [] => None
  | (d, v) :: options' => if String.eqb d dest then v else ns_get options' dest
  end.
(** Names of a section and of its ancestors, from the top *)
Fixpoint top_names (s : sect) : list string := match s with Root => [] | Sub n p => (top_names p ++ [n])%list end.
