(** Specification vocabulary for C16. *)
From Verif Require Export DictMerge PyDictFacts.
Open Scope nat_scope.

(** Values of key [k] in the dictionaries, in order, None excepted if skipped *)
Fixpoint values (skip : bool) (ds : list (dict pyval)) (k : string) : list pyval :=
  match ds with
  | [] => []
  | d :: r =>
    match dget d k with
    | Some v => if skip && is_none v then values skip r k else v :: values skip r k
    | None => values skip r k
    end
  end.
(** Keys having a non-skipped value, in the order of the items *)
Definition item_keys (skip : bool) (ds : list (dict pyval)) : list string :=
  map fst (List.filter (fun kv => negb (skip && is_none (snd kv))) (List.concat ds)).

(** [v] has no duplicate key at any depth. *)
Fixpoint wf (v : pyval) : Prop :=
  match v with
  | VDict d => NoDup (map fst d) /\
      (fix go d := match d with [] => True | (_, x) :: d' => wf x /\ go d' end) d
  | _ => True
  end.

(** [out] is the merge of [ds]: its keys come in the order of their first non-skipped
    value, each once ([gunique] is specified by C19); each key has the first of its values, dictionaries
    being merged (if [sub]) with the next dictionaries of the same key. *)
Inductive merged (skip sub : bool) : list (dict pyval) -> dict pyval -> Prop :=
| merged_intro ds out :
    map fst out = gunique String.eqb (item_keys skip ds) ->
    (forall k, values skip ds k = [] -> dget out k = None) ->
    (forall k v rest, values skip ds k = v :: rest ->
       (sub = true -> is_dict v = true -> dicts_of rest = []) -> dget out k = Some v) ->
    (forall k a rest b bs, sub = true ->
       values skip ds k = VDict a :: rest -> dicts_of rest = b :: bs ->
       exists c, dget out k = Some (VDict c) /\ merged skip sub (a :: b :: bs) c) ->
    merged skip sub ds out.

(** No None anywhere inside the dictionaries *)
Fixpoint no_none (v : pyval) : Prop :=
  match v with
  | VNone => False
  | VDict d => (fix go d := match d with [] => True | (_, x) :: d' => no_none x /\ go d' end) d
  | _ => True
  end.

(** What Python refuses in a set: lists, dictionaries and tuples that contain one *)
Inductive unhashable : pyval -> Prop :=
| un_list l : unhashable (VList l)
| un_dict d : unhashable (VDict d)
| un_tuple l x : In x l -> unhashable x -> unhashable (VTuple l).
