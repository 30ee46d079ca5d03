(** Specification vocabulary for C72: options used by several threads. *)
From Verif Require Export OptThreads OptionsProofs.
Open Scope nat_scope.

(** Dictionaries given to load_options have distinct keys ([wf2]) in every call of the program *)
Fixpoint proper (p : prog) : Prop :=
  match p with
  | Stop | Throw _ => True
  | Get _ _ k => forall r, proper (k r)
  | Load cfg k => wf2 cfg /\ proper k
  | SetOpts _ _ k => forall r, proper (k r)
  | Reset k => forall r, proper (k r)
  | With _ _ body k => proper body /\ forall r, proper (k r)
  end.
(** Programs that only read options *)
Fixpoint only_gets (p : prog) : Prop :=
  match p with Stop | Throw _ => True | Get _ _ k => forall r, only_gets (k r) | _ => False end.
(** Programs that only read and load options: no context, no reset *)
Fixpoint gets_loads (p : prog) : Prop :=
  match p with
  | Stop | Throw _ => True
  | Get _ _ k => forall r, gets_loads (k r)
  | Load cfg k => wf2 cfg /\ gets_loads k
  | _ => False
  end.
(** The program may call load_options with this value for this option *)
Inductive gives : prog -> string -> string -> oval -> Prop :=
| gives_here cfg k s o v : opt_of cfg s o = Some v -> gives (Load cfg k) s o v
| gives_load cfg k s o v : gives k s o v -> gives (Load cfg k) s o v
| gives_get s' o' k r s o v : gives (k r) s o v -> gives (Get s' o' k) s o v.
(** The program cannot end without giving this option *)
Inductive must_give (s o : string) : prog -> Prop :=
| must_here cfg k : opt_of cfg s o <> None -> must_give s o (Load cfg k)
| must_load cfg k : must_give s o k -> must_give s o (Load cfg k)
| must_get s' o' k : (forall r, must_give s o (k r)) -> must_give s o (Get s' o' k).
(** The option asked to get_option *)
Definition asked (section : string) (option : option string) : Datatypes.option (string * string) :=
  match option with Some o => Some (section, o) | None => re_option section end.
(** The value of an option in a state where options are loaded *)
Definition value_in (st : state) (s o : string) : option oval := opt_of (current st) s o.
(** Options are loaded *)
Definition loaded (st : state) : Prop := cache st <> None.
(** Two states of a session that no call can tell apart *)
Definition same_session (st st' : state) : Prop :=
  cache st = cache st' /\ List.length (objs st) = List.length (objs st') /\
  forall i s o, opt_of (content st i) s o = opt_of (content st' i) s o.
