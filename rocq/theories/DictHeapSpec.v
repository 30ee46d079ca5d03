(** Specification vocabulary for C17. *)
From Verif Require Export DictHeap DictMergeSpec.
Open Scope nat_scope.

(** What a call may do to an object that exists already *)
Definition unchanged (h h' : heap) : Prop :=
  forall a x, nth_error h a = Some x -> nth_error h' a = Some x.
(** Dictionaries and generators are left alone, lists may be extended *)
Definition only_extended (h h' : heap) : Prop :=
  forall a x, nth_error h a = Some x ->
    match x with
    | OList l => exists l', nth_error h' a = Some (OList (l ++ l'))
    | _ => nth_error h' a = Some x
    end.

Definition immutable (p : pyval) : Prop :=
  match p with VDict _ | VList _ | VGen _ => False | _ => True end.
(** [rep h v p]: in heap [h] the value [v] is, once copied deeply, [p]. *)
Inductive rep (h : heap) : hval -> pyval -> Prop :=
| rep_val p : immutable p -> rep h (HVal p) p
| rep_dict a d d' : nth_error h a = Some (ODict d) ->
    Forall2 (fun kv kp => fst kv = fst kp /\ rep h (snd kv) (snd kp)) d d' ->
    rep h (HRef a) (VDict d')
| rep_list a l l' : nth_error h a = Some (OList l) -> Forall2 (rep h) l l' ->
    rep h (HRef a) (VList l').
