(** Specification vocabulary for C32 and C33. *)
From Verif Require Export Validators.
Open Scope string_scope.

(** The elements of a value: those of a list or a tuple, those of the default value when it is an
    empty text, else the value itself *)
Definition elements (v : yval) : list yval := match v with YList l | YTuple l => l | _ => [v] end.
Definition effective (args : list yval) (kwdefault : option yval) (v : yval) : yval :=
  match v with
  | YStr "" => match args, kwdefault with
               | a :: _, _ => a
               | [], Some d => d
               | [], None => YTuple []
               end
  | _ => v
  end.
(** Tuples are validated to tuples, anything else to a list. *)
Definition rebuilt (v : yval) (l : list yval) : yval := match v with YTuple _ => YTuple l | _ => YList l end.
Definition none_like (v : yval) : Prop := v = YNone \/ v = YStr "None".
(** A flag of the specification is set to [b]. *)
Definition flag (f : option yval) (b : bool) : Prop :=
  match f with
  | None => b = false
  | Some (YBool b') => b = b'
  | Some (YStr s) => if b then In (lower s) ["on"; "1"; "true"; "yes"] else In (lower s) ["off"; "0"; "false"; "no"]
  | Some (YNum (Some q)) => if b then (q == 1)%Q else (q == 0)%Q
  | _ => False
  end.
(** The number of elements is the one that is asked for. *)
Definition allowed (o : lopts) (n : nat) : Prop :=
  (forall k, o_n o = Some k -> Z.of_nat n = k) /\
  (forall k, o_nmin o = Some k -> (k <= Z.of_nat n)%Z) /\
  (forall k, o_nmax o = Some k -> (Z.of_nat n <= k)%Z) /\
  (flag (o_odd o) true -> exists k, n = (2 * k + 1)%nat) /\
  (flag (o_even o) true -> exists k, n = (2 * k)%nat).
Definition flags_given (o : lopts) : Prop := (exists b, flag (o_odd o) b) /\ (exists b, flag (o_even o) b).

(** [y] is [x] brought back within the bounds; NaN stays. *)
Definition clamped (lo hi : option Q) (x y : fl) : Prop :=
  match x, y with
  | Some p, Some q =>
    ((forall m, lo = Some m -> m <= p) -> (forall m, hi = Some m -> p <= m) -> q = p)%Q /\
    (forall m, lo = Some m -> (m <= q)%Q) /\ (forall m, hi = Some m -> (q <= m)%Q) /\
    (q = p \/ lo = Some q \/ hi = Some q)
  | None, None => True
  | _, _ => False
  end.
Definition num_bound (b : option Q) : option yval := match b with Some q => Some (YNum (Some q)) | None => None end.
Definition integral (q : Q) : Prop := exists z, q = inject_Z z.
