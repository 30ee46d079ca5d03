(** Python dictionaries with string keys: association lists in insertion order,
    and ASCII string helpers. *)
From Verif Require Export PyBase.
Open Scope nat_scope.

Section Dict.
  Context {V : Type}.
  Definition dict := list (string * V).

  (** [d.get(k)] *)
  Fixpoint dget (d : dict) (k : string) : option V :=
    match d with
    | [] => None
    | (k', v) :: d' => if String.eqb k k' then Some v else dget d' k
    end.
  (** [k in d] *)
  Definition dmem (d : dict) (k : string) : bool :=
    match dget d k with Some _ => true | None => false end.
  (** [d[k] = v]: keeps the position of an existing key *)
  Fixpoint dset (d : dict) (k : string) (v : V) : dict :=
    match d with
    | [] => [(k, v)]
    | (k', v') :: d' => if String.eqb k k' then (k', v) :: d' else (k', v') :: dset d' k v
    end.
  (** [d.pop(k)] on a dictionary *)
  Definition ddel (d : dict) (k : string) : dict :=
    List.filter (fun kv => negb (String.eqb k (fst kv))) d.
  (** [d.update(e)] *)
  Definition dupdate (d e : dict) : dict :=
    fold_left (fun acc kv => dset acc (fst kv) (snd kv)) e d.
  (** [d.setdefault(k, v)] *)
  Definition dsetdefault (d : dict) (k : string) (v : V) : dict :=
    if dmem d k then d else dset d k v.
  Definition dkeys (d : dict) : list string := map fst d.
  (** Dictionaries have no duplicate key. *)
  Definition dict_wf (d : dict) : Prop := NoDup (dkeys d).
End Dict.
Arguments dict V : clear implicits.

(** ** Strings (ASCII) *)
Definition lower_ascii (c : ascii) : ascii :=
  let n := nat_of_ascii c in
  if (65 <=? n) && (n <=? 90) then ascii_of_nat (n + 32) else c.
(** [s.lower()] *)
Fixpoint lower (s : string) : string :=
  match s with
  | EmptyString => EmptyString
  | String c s' => String (lower_ascii c) (lower s')
  end.
(** [c.isspace()] for ASCII characters *)
Definition is_space (c : ascii) : bool :=
  let n := nat_of_ascii c in
  ((9 <=? n) && (n <=? 13)) || ((28 <=? n) && (n <=? 32)).
Fixpoint lstrip (s : string) : string :=
  match s with
  | String c s' => if is_space c then lstrip s' else s
  | EmptyString => EmptyString
  end.
Fixpoint rstrip (s : string) : string :=
  match s with
  | EmptyString => EmptyString
  | String c s' =>
    match rstrip s' with
    | EmptyString => if is_space c then EmptyString else String c EmptyString
    | r => String c r
    end
  end.
(** [s.strip()] *)
Definition strip (s : string) : string := rstrip (lstrip s).
(** [s.startswith(p)] *)
Definition startswith (s p : string) : bool := String.prefix p s.
(** [s.endswith("_")] and the like, for a one-character suffix *)
Fixpoint ends_with_char (s : string) (c : ascii) : bool :=
  match s with
  | EmptyString => false
  | String a EmptyString => Ascii.eqb a c
  | String _ s' => ends_with_char s' c
  end.
(** [s[n:]] *)
Fixpoint sdrop (n : nat) (s : string) : string :=
  match n, s with
  | O, _ => s
  | S n', String _ s' => sdrop n' s'
  | S _, EmptyString => EmptyString
  end.
(** [sep.join(l)] *)
Fixpoint join (sep : string) (l : list string) : string :=
  match l with
  | [] => EmptyString
  | [s] => s
  | s :: l' => (s ++ sep ++ join sep l')%string
  end.
