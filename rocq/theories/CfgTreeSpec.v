(** Specification vocabulary for C35 and C36. *)
From Verif Require Export CfgTree.
Open Scope string_scope.

(** The value of the option at a path: names of the sections from the top, then of the option *)
Fixpoint option_at (n : node) (path : list string) : option val :=
  match path, n with
  | [], Leaf v => Some v
  | [], Sec _ _ _ => None
  | x :: path', Sec _ _ it => match dget it x with Some m => option_at m path' | None => None end
  | _ :: _, Leaf _ => None
  end.
(** Is there a section at this path? *)
Fixpoint section_at (n : node) (path : list string) : bool :=
  match path, n with
  | [], Leaf _ => false
  | [], Sec _ _ _ => true
  | x :: path', Sec _ _ it => match dget it x with Some m => section_at m path' | None => false end
  | _ :: _, Leaf _ => false
  end.
(** A configuration tree as configobj builds it: the lists of names say what the content is *)
Inductive wf : node -> Prop :=
| wf_sec sc ss it :
    NoDup (sc ++ ss)%list -> dict_wf it ->
    (forall k, In k sc -> exists v, dget it k = Some (Leaf v)) ->
    (forall k, In k ss -> exists n, dget it k = Some n /\ wf n) ->
    (forall k, dmem it k = true -> In k sc \/ In k ss) ->
    wf (Sec sc ss it).
(** Nothing is an option in one and a section in the other *)
Definition compatible (a b : node) : Prop :=
  forall path, (option_at a path <> None -> section_at b path = false) /\ (section_at a path = true -> option_at b path = None).
(** The names of sections neither start nor end with an underscore *)
Definition plain_sections (n : node) : Prop :=
  forall path x, section_at n (path ++ [x])%list = true -> strip_under x = x.
(** No option of the specifications is a section of the patch *)
Definition specs_fit (specs p : node) : Prop :=
  forall ps k, option_at specs (ps ++ [k])%list <> None -> section_at p (map strip_under ps ++ [k])%list = false.

(** The type of a value *)
Inductive vtype := TNone | TBool | TInt | TFloat | TStr | TList.
Definition type_of (v : val) : vtype :=
  match v with VNone => TNone | VBool _ => TBool | VInt _ => TInt | VFloat _ => TFloat | VStr _ => TStr | VList _ => TList end.

(** What a value becomes when it replaces another one: Python's [type(old)(new)] when it succeeds,
    else the new value itself.  Conversions from and to texts are Python's. *)
Inductive nonzero : val -> Prop :=
| nz_bool : nonzero (VBool true)
| nz_int z : z <> 0%Z -> nonzero (VInt z)
| nz_float q : ~ (q == 0)%Q -> nonzero (VFloat q)
| nz_str s : s <> "" -> nonzero (VStr s)
| nz_list l : l <> []%list -> nonzero (VList l).
(** [z] is [q] without its fractional part *)
Definition integral_part (q : Q) (z : Z) : Prop :=
  exists f : Q, (q == inject_Z z + f)%Q /\ (((0 <= q)%Q /\ (0 <= f < 1)%Q) \/ ((q <= 0)%Q /\ (-(1) < f <= 0)%Q)).
Fixpoint letters (s : string) : list string := match s with "" => [] | String c s' => String c "" :: letters s' end.
Section casts.
  Variable str_of : val -> string.
  Variable int_of : string -> option Z.
  Variable float_of : string -> option Q.
  Inductive becomes : val -> val -> val -> Prop :=
  | b_true b v : nonzero v -> becomes (VBool b) v (VBool true)
  | b_false b v : ~ nonzero v -> becomes (VBool b) v (VBool false)
  | b_int_bool z b : becomes (VInt z) (VBool b) (VInt (if b then 1 else 0))
  | b_int_int z v : becomes (VInt z) (VInt v) (VInt v)
  | b_int_float z q v : integral_part q v -> becomes (VInt z) (VFloat q) (VInt v)
  | b_int_str z s v : int_of s = Some v -> becomes (VInt z) (VStr s) (VInt v)
  | b_int_not z s : int_of s = None -> becomes (VInt z) (VStr s) (VStr s)
  | b_float_bool z b : becomes (VFloat z) (VBool b) (VFloat (if b then 1 else 0))
  | b_float_int z v : becomes (VFloat z) (VInt v) (VFloat (inject_Z v))
  | b_float_float z v : becomes (VFloat z) (VFloat v) (VFloat v)
  | b_float_str z s v : float_of s = Some v -> becomes (VFloat z) (VStr s) (VFloat v)
  | b_float_not z s : float_of s = None -> becomes (VFloat z) (VStr s) (VStr s)
  | b_num_none n : type_of n = TInt \/ type_of n = TFloat -> becomes n VNone VNone
  | b_num_list n l : type_of n = TInt \/ type_of n = TFloat -> becomes n (VList l) (VList l)
  | b_str_str s t : becomes (VStr s) (VStr t) (VStr t)
  | b_str s v : type_of v <> TStr -> becomes (VStr s) v (VStr (str_of v))
  | b_list_list l m : becomes (VList l) (VList m) (VList m)
  | b_list_str l s : becomes (VList l) (VStr s) (VList (map VStr (letters s)))
  | b_list_not l v : type_of v <> TList -> type_of v <> TStr -> becomes (VList l) v v
  | b_none v : becomes VNone v v.
End casts.

(** C36: does a filter keep a name?  What it says of the name, else the opposite of its default
    for exceptions, else its default; the default is its own or the one given. *)
Definition says (v : fval) : bool := match v with FVal b => b | FDict [] => false | FNames [] => false | _ => true end.
Definition allowed (d : list (string * fval)) (given : bool) (x : string) : Prop :=
  let default := match dget d "__default__" with Some v => says v = true | None => given = true end in
  match dget d x with
  | Some v => says v = true
  | None => match dget d "__excepts__" with
            | Some (FNames l) => (In x l -> ~ default) /\ (~ In x l -> default)
            | _ => default
            end
  end.
(** does it keep the option at this path? Each name on the way is kept by the filter of its
    level; a subsection with its own filter is subject to it, else it is kept as a whole. *)
Fixpoint kept (d : list (string * fval)) (given : bool) (path : list string) : Prop :=
  match path with
  | [] => True
  | x :: path' =>
    allowed d given x /\
    match dget d x, path' with
    | Some (FDict d'), _ :: _ => kept d' false path'
    | _, _ => True
    end
  end.
