(** Specification vocabulary for C50 and C51. *)
From Verif Require Export Access CFSearchSpec CFFormatSpec.
Open Scope string_scope.

(** An array matches an entry of a category, with any location *)
Definition entry_matches (s : specs) (loc : mloc) (da : darr) (c : category) (n : string) : Prop :=
  exists sp, In (n, sp) (sp_cat s c) /\ matches (sp_sg s) loc n sp da.
(** The name is that of the first entry that matches *)
Definition first_entry (s : specs) (loc : mloc) (da : darr) (c : category) (n : string) : Prop :=
  exists before sp after, sp_cat s c = (before ++ (n, sp) :: after)%list /\ matches (sp_sg s) loc n sp da /\
    forall m sm, In (m, sm) before -> ~ matches (sp_sg s) loc m sm da.
Definition other (c : category) : category := match c with DataVars => Coords | Coords => DataVars end.
(** The name of an array is that of one of its dimensions or coordinates *)
Definition own_coordinate (a : xda) : Prop :=
  exists n, da_name (x_da a) = Some n /\ (In n (x_dims a) \/ In n (dkeys (x_coords a))).
Definition no_empty_name (s : specs) : Prop := forall c, ~ In "" (dkeys (sp_cat s c)).

(** Operations that read the CF name *)
Definition reads (o : aop) : bool := match o with Name | Attrs | Getattr _ => true | _ => false end.
(** The array and the specifications after a history *)
Definition last_specs (s : specs) (l : list aop) : specs := fold_left (fun s o => match o with SetSpecs s' => s' | _ => s end) l s.
Definition last_array (a : xda) (l : list aop) : xda := fold_left (fun a o => match o with Change a' => a' | _ => a end) l a.

(** Two arrays have the same text for an attribute, up to case *)
Definition same_text_attr (d0 d1 : darr) (attr : string) : Prop :=
  exists s0 s1, dget (da_attrs d0) attr = Some (VStr s0) /\ dget (da_attrs d1) attr = Some (VStr s1) /\ lower s0 = lower s1.
Definition text_attrs (d : darr) : Prop := forall k v, dget (da_attrs d) k = Some v -> exists s, v = VStr s.
