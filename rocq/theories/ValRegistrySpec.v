(** Specification vocabulary for C53. *)
From Verif Require Export ValRegistry ValidatorsSpec.
Open Scope string_scope.

(** English plural forms: fry/fries, box/boxes, date/dates *)
Inductive plural_of : string -> string -> Prop :=
| pl_y k : plural_of (k ++ "y") (k ++ "ies")
| pl_x k : plural_of (k ++ "x") (k ++ "xes")
| pl_s k : (forall t, k <> t ++ "y") -> (forall t, k <> t ++ "x") -> plural_of k (k ++ "s").
(** The function of a name *)
Definition func_at (r : registry) (k : string) (f : func) : Prop := exists e, dget r k = Some e /\ e_func e = Some f.
(** A scalar validator, or the list validator of a scalar one *)
Definition clean (f : func) : Prop := exists n, f = Wrap (Base n) \/ f = WrapList (Wrap (Base n)).
(** What is registered: plain functions *)
Definition plain_functions (r : registry) : Prop := Forall (fun ke => exists n, snd ke = of_func (Base n)) r.
(** Suffixes made of [n] times s or _list *)
Fixpoint suffix (w : list bool) : string := match w with [] => "" | true :: w' => suffix w' ++ "s" | false :: w' => suffix w' ++ "_list" end.
