(** The options of xoa/__init__.py:126-308 shared by several threads: every access to [_CACHE] and to an option of a
    ConfigObj object is one atomic action, and threads interleave between any two of them.
    Simplification: [options[section][option]] is one action, and so is [self[section][option] = value] in
    ConfigObj.merge and ConfigObj.validate (a missing section appears with its first option). *)
From Verif Require Export Options OptionsSpec.
Open Scope nat_scope.

(** What a thread tells: the answers it gets *)
Inductive event :=
| EGet (section : string) (option : option string) (r : res answer)
| ELoad (r : res unit) | ESet (r : res unit) | EReset (r : res unit) | EWith (r : res unit).

(** A thread: an atomic action, and what it does next *)
Inductive act :=
| AStop (r : res unit)
| AHas (k : bool -> act)                                          (* "options" in _CACHE *)
| ANew (k : nat -> act)                                           (* ConfigObj(user file) *)
| APut (i : nat) (k : act)                                        (* _CACHE["options"] = object *)
| ACur (k : option nat -> act)                                    (* _CACHE.get("options") *)
| ADel (k : bool -> act)                                          (* del _CACHE["options"]; false: KeyError *)
| ATruth (i : nat) (k : bool -> act)                              (* bool(object) *)
| ARead (i : nat) (s o : string) (k : option oval -> act)         (* object[s][o] *)
| AWrite (i : nat) (s o : string) (v : oval) (k : act)            (* object[s][o] = v *)
| ASay (e : event) (k : act).

Definition write_opt (c : options) (s o : string) (v : oval) : options := dset c s (dset (section_of c s) o v).
Definition step (user : options) (a : act) (st : state) : act * state * option event :=
  match a with
  | AStop r => (a, st, None)
  | AHas k => (k (match cache st with Some _ => true | None => false end), st, None)
  | ANew k => (k (List.length (objs st)), mkst (objs st ++ [user]) (cache st), None)
  | APut i k => (k, mkst (objs st) (Some i), None)
  | ACur k => (k (cache st), st, None)
  | ADel k => match cache st with Some _ => (k true, mkst (objs st) None, None) | None => (k false, st, None) end
  | ATruth i k => (k (match content st i with [] => false | _ => true end), st, None)
  | ARead i s o k => (k (dget (section_of (content st i) s) o), st, None)
  | AWrite i s o v k => (k, mkst (upd (objs st) i (write_opt (content st i) s o v)) (cache st), None)
  | ASay e k => (k, st, Some e)
  end.

(** Options of a two-level dictionary, in order *)
Definition flat {A} (e : dict (dict A)) : list (string * string * A) :=
  List.concat (map (fun sd => map (fun kv => (fst sd, fst kv, snd kv)) (snd sd)) e).
(** ConfigObj.merge *)
Fixpoint writes (i : nat) (l : list (string * string * oval)) (k : act) : act :=
  match l with [] => k | (s, o, v) :: l' => AWrite i s o v (writes i l' k) end.
(** ConfigObj.validate(copy=True): the value is read, and written back if it changes ([converts]: [check != val]) *)
Definition converts (c : checker) (v : oval) : bool :=
  match c, v with CBool _, OStr s => match bool_of_string s with Some _ => true | None => false end | _, _ => false end.
Fixpoint checks (i : nat) (l : list (string * string * checker)) (k : act) : act :=
  match l with
  | [] => k
  | (s, o, c) :: l' =>
    ARead i s o (fun v => match v with
      | None => AWrite i s o (default_of c) (checks i l' k)
      | Some v => if converts c v then AWrite i s o (check c v) (checks i l' k) else checks i l' k
      end)
  end.
(** xoa/__init__.py:145-173 load_options *)
Definition load_act (cfg : options) (k : res unit -> act) : act :=
  let validate_ := ACur (fun c => match c with None => k (Raise KeyError) | Some i => checks i (flat config_specs) (k (Ok tt)) end) in
  let merge_ := match cfg with [] => validate_ | _ => ACur (fun c => match c with None => k (Raise KeyError) | Some i => writes i (flat cfg) validate_ end) end in
  AHas (fun b => if b then merge_ else ANew (fun i => APut i merge_)).
(** lines 176-179, 182-207 get_option *)
Definition get_act (section : string) (option : option string) (k : res answer -> act) : act :=
  let fetch := ACur (fun c => match c with None => k (Raise KeyError) | Some i =>
     match (match option with Some o => Ok (section, o)
            | None => match re_option section with Some so => Ok so | None => Raise XoaConfigError end end) with
     | Ok so => ARead i (fst so) (snd so) (fun v => k (Ok (answer_of v)))
     | Raise e => k (Raise e) end end) in
  AHas (fun b => if b then fetch else load_act [] (fun r => match r with Ok _ => fetch | Raise e => k (Raise e) end)).
(** lines 242-260 set_options.__init__: the previous object, if any *)
Definition set_act (section : option string) (opts : list (string * oval)) (k : res (option nat) -> act) : act :=
  ACur (fun old => ADel (fun b =>
    if b then match parse_opts section opts with
              | Ok o => load_act o (fun r => match r with Ok _ => k (Ok old) | Raise e => k (Raise e) end)
              | Raise e => k (Raise e) end
    else k (Raise KeyError))).
(** lines 262-263 set_options.__enter__ *)
Definition enter_act (k : res unit -> act) : act :=
  ACur (fun c => k (match c with Some _ => Ok tt | None => Raise KeyError end)).
(** lines 265-269 set_options.__exit__; line 308 reset_options *)
Definition del_act (k : res unit -> act) : act := ADel (fun b => k (if b then Ok tt else Raise KeyError)).
Definition exit_act (old : option nat) (k : res unit -> act) : act :=
  match old with
  | Some i => ATruth i (fun b => if b then APut i (k (Ok tt)) else del_act k)
  | None => del_act k
  end.
(** The programs of Options.v, run by a thread *)
Fixpoint thread (p : prog) (fin : res unit -> act) : act :=
  match p with
  | Stop => fin (Ok tt)
  | Throw e => fin (Raise e)
  | Get s o k => get_act s o (fun r => ASay (EGet s o r) (thread (k r) fin))
  | Load cfg k => load_act cfg (fun r => ASay (ELoad r) (match r with Ok _ => thread k fin | Raise e => fin (Raise e) end))
  | SetOpts s o k => set_act s o (fun r => ASay (ESet (as_unit r)) (thread (k (as_unit r)) fin))
  | Reset k => del_act (fun r => ASay (EReset r) (thread (k r) fin))
  | With s o body k =>
    set_act s o (fun r => match r with
      | Raise e => ASay (EWith (Raise e)) (thread (k (Raise e)) fin)
      | Ok old => enter_act (fun r0 => match r0 with
        | Raise e => ASay (EWith (Raise e)) (thread (k (Raise e)) fin)
        | Ok _ => thread body (fun r1 => exit_act old (fun r2 =>
          let r3 := match r2 with Raise e => Raise e | Ok _ => r1 end in ASay (EWith r3) (thread (k r3) fin)))
        end)
      end)
  end.

(** A system of threads; a schedule says which thread runs next; [out] is what was said, by whom *)
Record system := mksys { threads : list act; shared : state; said : list (nat * event) }.
Definition sys_step (user : options) (S_ : system) (t : nat) : system :=
  match nth_error (threads S_) t with
  | None => S_
  | Some a => let '(a', st, e) := step user a (shared S_) in
              mksys (upd (threads S_) t a') st (match e with Some e => said S_ ++ [(t, e)] | None => said S_ end)
  end.
Definition exec (user : options) (S_ : system) (schedule : list nat) : system := fold_left (sys_step user) schedule S_.
Definition start (ps : list prog) (st : state) : system := mksys (map (fun p => thread p AStop) ps) st [].
Definition finished (S_ : system) : Prop := Forall (fun a => exists r, a = AStop r) (threads S_).
