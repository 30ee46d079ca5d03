(** Specification vocabulary for C31. *)
From Verif Require Export CFCurrent.
Open Scope string_scope.

(** The specifications returned by [get_cf_specs(cache=mode)] *)
Definition seen (w : world) (mode : cmode) (st : state) : res answer := snd (get_cf_specs w None None mode st).
(** Content of object [i] *)
Definition content_of (st : state) (i : nat) : option content := nth_error (objs st) i.
Definition valid_mode (m : cmode) : Prop := m <> CInvalid.
(** The cache file is usable: it holds specifications and is newer than the configuration. *)
Definition usable (w : world) (st : state) (c : content) : Prop :=
  exists t, file st = Some (t, PSpecs c) /\ (cfg_time w < t)%nat.
(** Programs that do not change the current specifications themselves: no set_cf_specs out of a
    [with], no reset of the memory.  Bodies of [with] may do anything. *)
Inductive quiet : prog -> Prop :=
| q_stop : quiet Stop
| q_throw e : quiet (Throw e)
| q_get n c m k : (forall r, quiet (k r)) -> quiet (Get n c m k)
| q_reset d k : quiet k -> quiet (Reset d false k)
| q_else f wr t k : quiet k -> quiet (Elsewhere f wr t k)
| q_with s body k : (forall r, quiet (k r)) -> quiet (With s body k).
(** States reached by a session *)
Definition reachable (w : world) (st : state) : Prop :=
  exists p f wr t, fst (run w p (session f wr t)) = st.
(** [with set_cf_specs(src): body], nothing after *)
Definition just_with (src : source) (body : nat -> prog) : prog :=
  With src body (fun r => match r with Ok _ => Stop | Raise e => Throw e end).
(** The object designated by an argument, in the state after set_cf_specs *)
Definition designates (src : source) (st st1 : state) (i : nat) : Prop :=
  match src with
  | SDict c => content_of st i = None /\ content_of st1 i = Some c
  | SObj j => i = j
  | _ => False
  end.
