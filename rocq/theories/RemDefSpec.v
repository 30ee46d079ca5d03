(** Specification vocabulary for C54. *)
From Verif Require Export RemDef.
Open Scope string_scope.

(** The value of an option, by the names of its sections *)
Fixpoint option_at (c : cfg) (p : list string) (k : string) : option val :=
  match p with
  | [] => dget (copts c) k
  | x :: p' => match dget (csubs c) x with Some c' => option_at c' p' k | None => None end
  end.
Fixpoint section_at (c : cfg) (p : list string) : option cfg :=
  match p with
  | [] => Some c
  | x :: p' => match dget (csubs c) x with Some c' => section_at c' p' | None => None end
  end.
(** The specification of a section *)
Fixpoint spec_at (s : spec) (p : list string) : option spec :=
  match p with
  | [] => Some s
  | x :: p' => match dget (ssubs s) x with Some s' => spec_at s' p' | None => None end
  end.
(** Names are not repeated *)
Inductive cfg_ok : cfg -> Prop := cfg_ok_ o ss : dict_wf o -> dict_wf ss -> (forall k c, In (k, c) ss -> cfg_ok c) -> cfg_ok (Cfg o ss).
Inductive spec_ok : spec -> Prop := spec_ok_ o ss : dict_wf o -> dict_wf ss -> (forall k s, In (k, s) ss -> spec_ok s) -> spec_ok (Spec o ss).
(** The section is specified *)
Definition specified (s : spec) : Prop := sopts s <> [] \/ ssubs s <> [].
(** The value of an option is the text of its default value, or None without a default value *)
Definition holds_default (s : spec) (p : list string) (k : string) (v : val) : Prop :=
  exists s', spec_at s p = Some s' /\ specified s' /\
    ((exists d, dget (sopts s') k = Some (Some d) /\ v = raw d) \/
     ((dget (sopts s') k = None \/ dget (sopts s') k = Some None) /\ v = VNone)).
(** Validating twice is validating once. *)
Definition idempotent (check : list string -> string -> val -> res val) : Prop :=
  forall p k v w, check p k v = Ok w -> w = VNone \/ check p k w = Ok w.
(** No default value is the text None, with or without quotes. *)
Definition plain_defaults (s : spec) : Prop := forall p s' k t, spec_at s p = Some s' -> dget (sopts s') k = Some (Some (DText t)) ->
  t <> "None" /\ t <> "'None'" /\ t <> """None""".
(** Options without a default value are not None, in specified sections. *)
Definition no_bare_none (s : spec) (c : cfg) : Prop := forall p k s', spec_at s p = Some s' -> specified s' -> option_at c p k = Some VNone ->
  exists d, dget (sopts s') k = Some (Some d).
