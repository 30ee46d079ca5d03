(** Specification vocabulary for C73. *)
From Verif Require Export CFThreads.
Open Scope nat_scope.

(** Programs that do not clear the memory, and that raise no KeyError of their own (they may let through one that a call
    raises, but none does: C73_set_first) *)
Fixpoint tame (p : prog) : Prop :=
  match p with
  | Stop => True
  | Throw e => e <> KeyError
  | Get _ _ _ k => forall r, r <> Raise KeyError -> tame (k r)
  | SetSpecs s k => s <> SBadDict KeyError /\ forall r, r <> Raise KeyError -> tame (k r)
  | Reset _ memory k => memory = false /\ tame k
  | Elsewhere _ _ _ k => tame k
  | With s body k => s <> SBadDict KeyError /\ (forall i, tame (body i)) /\ forall r, r <> Raise KeyError -> tame (k r)
  end.
(** Programs that only call get_cf_specs, and do not read the cache file *)
Fixpoint only_gets (p : prog) : Prop :=
  match p with
  | Stop | Throw _ => True
  | Get _ _ m k => m <> CRead /\ forall r, only_gets (k r)
  | _ => False
  end.
(** The program may call set_cf_specs with this argument *)
Inductive sets : prog -> source -> Prop :=
| sets_set s k : sets (SetSpecs s k) s
| sets_with s body k : sets (With s body k) s
| sets_get n c m k r s : sets (k r) s -> sets (Get n c m k) s
| sets_seq s' k r s : sets (k r) s -> sets (SetSpecs s' k) s
| sets_reset d m k s : sets k s -> sets (Reset d m k) s
| sets_else f wr t k s : sets k s -> sets (Elsewhere f wr t k) s
| sets_body s' body k i s : sets (body i) s -> sets (With s' body k) s
| sets_after s' body k r s : sets (k r) s -> sets (With s' body k) s.
(** Object [i] of content [c] was there before the threads start, as the current one or as the argument of a
    set_cf_specs of theirs; or they made it with set_cf_specs *)
Definition known (ps : list prog) (st : state) (i : nat) (c : content) : Prop :=
  (content_of st i = Some c /\ (cur st = Some i \/ exists p, In p ps /\ sets p (SObj i))) \/
  (content_of st i = None /\ exists p, In p ps /\ sets p (SDict c)).
(** What get_cf_specs answers in a single thread when object [i], of content [c], is the current one *)
Definition answers (w : world) (name : option string) (cat : option category) (m : cmode) (i : nat) (c : content) (a : answer) : Prop :=
  forall st, cur st = Some i -> content_of st i = Some c -> snd (get_cf_specs w name cat m st) = Ok a.
