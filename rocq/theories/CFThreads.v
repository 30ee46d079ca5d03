(** The current CF specifications of xoa/cf.py:2322-2359 and 2390-2455 shared by several threads: every access to
    [_CACHE["specs"]] is one atomic action, and threads interleave between any two of them.
    Simplifications: those of CFCurrent.v; reading, writing and removing the cache file are atomic (see C68 for the
    steps of these, between processes). *)
From Verif Require Export CFCurrentSpec.
Open Scope nat_scope.

(** What a thread tells: the answers it gets *)
Inductive event :=
| EGet (name : option string) (cat : option category) (mode : cmode) (r : res answer)
| ESet (r : res unit) | EWith (r : res unit).
(** A thread: an atomic action, and what it does next *)
Inductive act :=
| AStop (r : res unit)
| AHas (k : bool -> act)                         (* "specs" in _CACHE *)
| ACur (k : option nat -> act)                   (* _CACHE.get("specs") *)
| APut (i : nat) (k : act)                       (* _CACHE["specs"] = object *)
| ADel (k : bool -> act)                         (* del _CACHE["specs"]; false: KeyError *)
| AClear (k : act)                               (* _CACHE.clear() *)
| ANew (c : content) (k : nat -> act)            (* CFSpecs(dict) *)
| AFresh (k : nat -> act)                        (* CFSpecs() *)
| AIs (i : nat) (k : bool -> act)                (* isinstance(cf_source, CFSpecs) *)
| ALook (i : nat) (k : content -> act)           (* the entries of an object *)
| ADisk (k : option nat -> act)                  (* lines 2403-2412: pickle.load of a usable file *)
| ADump (k : act)                                (* lines 2423-2430: pickle.dump(_CACHE["specs"]) *)
| ARemove (k : act)                              (* lines 2355-2356 *)
| AEnv (f : option (nat * pickled)) (wr : bool) (t : nat) (k : act)   (* another process *)
| ASay (e : event) (k : act).

Definition obj (st : state) (i : nat) : content := nth i (objs st) (mkcontent [] []).
Definition step (w : world) (a : act) (st : state) : act * state * option event :=
  match a with
  | AStop r => (a, st, None)
  | AHas k => (k (match cur st with Some _ => true | None => false end), st, None)
  | ACur k => (k (cur st), st, None)
  | APut i k => (k, set_cur st (Some i), None)
  | ADel k => match cur st with Some _ => (k true, set_cur st None, None) | None => (k false, st, None) end
  | AClear k => (k, set_cur st None, None)
  | ANew c k => let '(st', i) := new_obj st c in (k i, st', None)
  | AFresh k => let '(st', i) := new_obj st (fresh w (List.length (objs st))) in (k i, st', None)
  | AIs i k => (k (i <? List.length (objs st)), st, None)
  | ALook i k => (k (obj st i), st, None)
  | ADisk k =>
    match file st with
    | Some (t, PSpecs c) => if cfg_time w <? t then let '(st', i) := new_obj st c in (k (Some i), st', None) else (k None, st, None)
    | _ => (k None, st, None)
    end
  | ADump k =>
    (k, if writable st then set_file st (Some (clock st, match cur st with Some i => PSpecs (obj st i) | None => PBad end)) else st, None)
  | ARemove k => (k, set_file st None, None)
  | AEnv f wr t k => (k, mkst (objs st) (cur st) f wr t, None)
  | ASay e k => (k, st, Some e)
  end.

(** lines 2329-2330, with a CFSpecs object *)
Definition put_act (i : nat) (k : option nat -> act) : act := ACur (fun old => APut i (k old)).
(** lines 2396-2455: get_cf_specs *)
Definition answer_in (i : nat) (c : content) (name : option string) (cat : option category) : answer :=
  match cat, name with
  | Some k, None => ACat i k
  | Some k, Some n => scan_cats [cat_of c k] n
  | None, None => ASpecs i
  | None, Some n => scan_cats [k_data_vars c; k_coords c] n
  end.
Definition get_act (name : option string) (cat : option category) (mode : cmode) (k : res answer -> act) : act :=
  let fetch := ACur (fun o => match o with None => k (Raise KeyError)
                              | Some i => ALook i (fun c => k (Ok (answer_in i c name cat))) end) in
  let clean := match mode with CClean => ARemove fetch | _ => fetch end in
  let compute := AHas (fun b => if b then clean else
    AFresh (fun i => put_act i (fun _ => match mode with CWrite | CRw => ADump clean | _ => clean end))) in
  match mode with
  | CInvalid => k (Raise AssertionError)
  | _ => AHas (fun b => if b then clean else
      match mode with
      | CRead => ADisk (fun o => match o with Some i => put_act i (fun _ => compute) | None => compute end)
      | _ => compute
      end)
  end.
(** lines 2325-2330: set_cf_specs.__init__ *)
Definition set_act (src : source) (k : res (option nat * nat) -> act) : act :=
  match src with
  | SDict c => ANew c (fun i => put_act i (fun old => k (Ok (old, i))))
  | SBadDict e => k (Raise e)
  | SObj i => AIs i (fun b => if b then put_act i (fun old => k (Ok (old, i))) else k (Raise AssertionError))
  | SOther => k (Raise AssertionError)
  end.
(** lines 2335-2339: set_cf_specs.__exit__ *)
Definition exit_act (old : option nat) (k : res unit -> act) : act :=
  match old with
  | None => ADel (fun b => k (if b then Ok tt else Raise KeyError))
  | Some i => APut i (k (Ok tt))
  end.
(** lines 2342-2359: reset_cache *)
Definition reset_act (disk memory : bool) (k : act) : act :=
  let k := if memory then AClear k else k in if disk then ARemove k else k.
(** The programs of CFCurrent.v, run by a thread *)
Fixpoint thread (p : prog) (fin : res unit -> act) : act :=
  match p with
  | Stop => fin (Ok tt)
  | Throw e => fin (Raise e)
  | Get n c m k => get_act n c m (fun r => ASay (EGet n c m r) (thread (k r) fin))
  | SetSpecs s k => set_act s (fun r => ASay (ESet (as_unit r)) (thread (k (as_unit r)) fin))
  | Reset d m k => reset_act d m (thread k fin)
  | Elsewhere f wr t k => AEnv f wr t (thread k fin)
  | With s body k =>
    set_act s (fun r => match r with
      | Raise e => ASay (EWith (Raise e)) (thread (k (Raise e)) fin)
      | Ok (old, i) => thread (body i) (fun r1 => exit_act old (fun r2 =>
          let r3 := match r2 with Raise e => Raise e | Ok _ => r1 end in ASay (EWith r3) (thread (k r3) fin)))
      end)
  end.

(** A system of threads; a schedule says which thread runs next; [said] is what was said, by whom *)
Record system := mksys { threads : list act; shared : state; said : list (nat * event) }.
Definition sys_step (w : world) (S_ : system) (t : nat) : system :=
  match nth_error (threads S_) t with
  | None => S_
  | Some a => let '(a', st, e) := step w a (shared S_) in
              mksys (upd (threads S_) t a') st (match e with Some e => said S_ ++ [(t, e)] | None => said S_ end)
  end.
Definition exec (w : world) (S_ : system) (schedule : list nat) : system := fold_left (sys_step w) schedule S_.
Definition start (ps : list prog) (st : state) : system := mksys (map (fun p => thread p AStop) ps) st [].
Definition finished (S_ : system) : Prop := Forall (fun a => exists r, a = AStop r) (threads S_).
