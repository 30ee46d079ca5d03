(** Specification vocabulary for C28: inheritance between CF specifications. *)
From Verif Require Export CFInherit DictMergeSpec.
Open Scope string_scope.

(** ** Giving own values precedence over those of a parent (the keys of a merged dictionary
    are the own ones, then those of the parent that are missing: see C19 for [gunique]) *)
Inductive over : pyval -> pyval -> pyval -> Prop :=
| over_empty a b : truthy a = false -> over a b b
| over_lists a b : truthy (VList a) = true -> over (VList a) (VList b) (VList (a ++ b))
| over_tuples a b : truthy (VTuple a) = true -> over (VTuple a) (VTuple b) (VTuple (a ++ b))
| over_dicts a b c : truthy (VDict a) = true ->
    (forall k, over_opt (dget a k) (dget b k) (dget c k)) ->
    dkeys c = gunique String.eqb (dkeys a ++ dkeys b) ->
    over (VDict a) (VDict b) (VDict c)
| over_other a b : truthy a = true ->
    (forall x y, ~ (a = VList x /\ b = VList y)) ->
    (forall x y, ~ (a = VTuple x /\ b = VTuple y)) ->
    (forall x y, ~ (a = VDict x /\ b = VDict y)) -> over a b a
with over_opt : option pyval -> option pyval -> option pyval -> Prop :=
| over_none b : over_opt None b b
| over_own a : over_opt (Some a) None (Some a)
| over_both a b c : over a b c -> over_opt (Some a) (Some b) (Some c).

(** ** Who inherits from whom *)
Fixpoint no_colon (s : string) : Prop :=
  match s with
  | EmptyString => True
  | String c s' => c <> ":"%char /\ no_colon s'
  end.
(** The text [s] of the [inherit] option of an entry of [cat] refers to [pname] of [pcat]. *)
Inductive refers (cat s : string) : string -> string -> Prop :=
| refers_same : no_colon s -> refers cat s cat s
| refers_other pcat pname : s = pcat ++ ":" ++ pname -> no_colon pcat -> no_colon pname ->
    refers cat s pcat pname
| refers_more pcat pname rest : s = pcat ++ ":" ++ pname ++ ":" ++ rest ->
    no_colon pcat -> no_colon pname -> refers cat s pcat pname.

Definition config := string -> string -> option (dict pyval).
(** The specifications before inheritance, per category and name *)
Definition config_of (st : cfdict) : config := fun cat name =>
  match (if String.eqb cat "data_vars" then dget (data_vars st) name
         else if String.eqb cat "coords" then dget (coords st) name else None) with
  | Some (VDict e) => Some e
  | _ => None
  end.
Definition has_parent (cfg : config) (cat name pcat pname : string) : Prop :=
  exists own s, cfg cat name = Some own /\ dget own "inherit" = Some (VStr s) /\ s <> "" /\
    refers cat s pcat pname.
Definition is_root (cfg : config) (cat name : string) : Prop :=
  exists own, cfg cat name = Some own /\
    match dget own "inherit" with Some v => truthy v = false | None => True end.
(** The entry [name] of [cat] inherits from a root in exactly [n] steps *)
Inductive chain (cfg : config) : string -> string -> nat -> Prop :=
| chain_root cat name : is_root cfg cat name -> chain cfg cat name 0
| chain_step cat name pcat pname n : has_parent cfg cat name pcat pname ->
    (pcat, pname) <> (cat, name) -> chain cfg pcat pname n -> chain cfg cat name (S n).
(** The ancestor of [name] after [n] steps *)
Inductive ancestor (cfg : config) : string -> string -> nat -> string -> string -> Prop :=
| anc_refl cat name : ancestor cfg cat name 0 cat name
| anc_step cat name pcat pname n acat aname : has_parent cfg cat name pcat pname ->
    (pcat, pname) <> (cat, name) -> ancestor cfg pcat pname n acat aname ->
    ancestor cfg cat name (S n) acat aname.

(** ** What an entry becomes *)
(** A missing long name is made of the standard name, else of the name. *)
Definition named (name : string) (own out : dict pyval) : Prop :=
  exists attrs ln, dget own "attrs" = Some (VDict attrs) /\ dget attrs "long_name" = Some (VList ln) /\
  ((ln <> [] /\ out = own) \/
   (ln = [] /\ exists attrs' src,
      ((dget attrs "standard_name" = Some (VList []) /\ src = name) \/
       (exists rest, dget attrs "standard_name" = Some (VList (VStr src :: rest)))) /\
      (forall k, k <> "attrs" -> dget out k = dget own k) /\
      dget out "attrs" = Some (VDict attrs') /\
      (forall k, k <> "long_name" -> dget attrs' k = dget attrs k) /\
      dkeys attrs' = dkeys attrs /\
      dget attrs' "long_name" = Some (VList [VStr (nice src)]))).
(** The keys that are meaningful in a category *)
Definition own_key (cat k : string) : Prop :=
  In k (if String.eqb cat "data_vars"
        then ["name"; "domain"; "cmap"; "inherit"; "squeeze"; "search_order"; "attrs"; "select"]
        else ["name"; "domain"; "inherit"; "search_order"; "attrs"]).
Definition foreign (cat pcat k : string) : Prop :=
  cat <> pcat /\ own_key pcat k /\ ~ own_key cat k.

Inductive resolves (cfg : config) : string -> string -> dict pyval -> Prop :=
| res_root cat name own f e :
    cfg cat name = Some own -> is_root cfg cat name -> named name own f ->
    dget e "processed" = Some (VBool true) ->
    (forall k, k <> "processed" -> dget e k = dget f k) ->
    dict_wf e -> resolves cfg cat name e
| res_child cat name pcat pname own f p m e :
    cfg cat name = Some own -> has_parent cfg cat name pcat pname ->
    (pcat, pname) <> (cat, name) ->
    named name own f -> resolves cfg pcat pname p ->
    (forall k, over_opt (dget f k) (dget p k) (dget m k)) ->
    dget e "processed" = Some (VBool true) ->
    dget e "inherit" = Some VNone ->
    (forall k, k <> "processed" -> k <> "inherit" -> foreign cat pcat k -> dget e k = None) ->
    (forall k, k <> "processed" -> k <> "inherit" -> ~ foreign cat pcat k -> dget e k = dget m k) ->
    dict_wf e -> resolves cfg cat name e.

(** ** Specifications as read from a validated configuration *)
Definition valid_entry (own : dict pyval) : Prop :=
  wf (VDict own) /\
  (exists attrs ln sn, dget own "attrs" = Some (VDict attrs) /\
     dget attrs "long_name" = Some (VList ln) /\
     dget attrs "standard_name" = Some (VList sn) /\
     (forall v, In v sn -> exists s, v = VStr s)) /\
  (match dget own "inherit" with
   | None | Some VNone => True | Some (VStr _) => True | _ => False end).
Definition valid_section (d : dict pyval) : Prop :=
  dict_wf d /\ forall name v, In (name, v) d -> exists own, v = VDict own /\ valid_entry own.
Definition valid_cfg (st : cfdict) : Prop :=
  valid_section (data_vars st) /\ valid_section (coords st).
