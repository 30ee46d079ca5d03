(** Model of validation functions of xoa/cfgm.py: the list wrapper (90-194), is_numerics
    (212-254), is_minmax (257-268), is_figsize (271-275). *)
From Verif Require Export PyDict.
Open Scope string_scope.

(** Values of options.  [YNum] is a number: [None] is NaN.  (Simplification: no infinity, and
    integers and floats are the same numbers.) *)
Inductive yval := YNone | YStr (s : string) | YNum (x : fl) | YBool (b : bool)
| YList (l : list yval) | YTuple (l : list yval) | YOther (n : nat).
(** [str(value) == "None"].  (Simplification: other values are not printed None.) *)
Definition prints_none (v : yval) : bool :=
  match v with YNone => true | YStr s => String.eqb s "None" | _ => false end.

(** ** The list wrapper, xoa/cfgm.py:115-194 *)
(** validate.is_boolean, on the values of [odd] and [even] *)
Definition is_boolean (v : yval) : res bool :=
  match v with
  | YBool b => Ok b
  | YNum (Some q) => if Qeq_bool q 0 then Ok false else if Qeq_bool q 1 then Ok true else Raise VdtTypeError
  | YStr s =>
    let s := lower s in
    if existsb (String.eqb s) ["on"; "1"; "true"; "yes"] then Ok true
    else if existsb (String.eqb s) ["off"; "0"; "false"; "no"] then Ok false
    else Raise VdtTypeError
  | _ => Raise VdtTypeError
  end.
(** Keyword arguments.  [n], [nmin], [nmax] after [int()]; [shape]: given or not (line 161-183:
    a tuple is compared to a list, hence the sizes always differ, and VdtSizeError is
    caught by the [except] below) *)
Record lopts := mklopts { o_n : option Z; o_nmin : option Z; o_nmax : option Z;
  o_odd : option yval; o_even : option yval; o_shape : bool }.
Definition size_ok (o : lopts) (len : nat) : res unit :=
  let n := Z.of_nat len in
  if match o_n o with Some k => negb (n =? k)%Z | None => false end then Raise VdtSizeError else
  if match o_nmin o with Some k => (n <? k)%Z | None => false end then Raise VdtSizeError else
  if match o_nmax o with Some k => (k <? n)%Z | None => false end then Raise VdtSizeError else
  let* odd := match o_odd o with Some v => is_boolean v | None => Ok false end in
  if odd && Nat.even len then Raise VdtSizeError else
  let* even := match o_even o with Some v => is_boolean v | None => Ok false end in
  if even && Nat.odd len then Raise VdtSizeError else
  if o_shape o then Raise ValidateError else Ok tt.
Fixpoint map_res {A B} (f : A -> res B) (l : list A) : res (list B) :=
  match l with
  | [] => Ok []
  | x :: l' => let* y := f x in let* r := map_res f l' in Ok (y :: r)
  end.
(** [validator]: the wrapped function with its other arguments.  [args]: positional arguments of
    the specification, [kwdefault]: the keyword default *)
Definition list_validator (validator : yval -> res yval) (args : list yval) (kwdefault : option yval)
    (o : lopts) (value : yval) : res yval :=
  if prints_none value then Ok YNone else
  let default := match args with a :: _ => a | [] => match kwdefault with Some d => d | None => YTuple [] end end in
  let value := match value with YStr "" => default | _ => value end in
  let value := match value with YList _ | YTuple _ => value | v => YList [v] end in
  let items := match value with YList l | YTuple l => l | _ => [] end in
  let* _ := size_ok o (List.length items) in
  let* out := map_res validator items in
  Ok (match value with YTuple _ => YTuple out | _ => YList out end).

(** ** is_numerics, lines 212-254 *)
Inductive ntype := TFloat | TInt.
Definition trunc (q : Q) : Z := (Qnum q ÷ Zpos (Qden q))%Z.
(** [type(x)] of a number; [int(nan)] fails. *)
Definition conv (t : ntype) (x : fl) : res fl :=
  match t, x with
  | TFloat, _ => Ok x
  | TInt, Some q => Ok (Some (inject_Z (trunc q)))
  | TInt, None => Raise ValueError
  end.
Section numerics.
  (** [eval(s)] of a string, and [type(s)] of a string *)
  Variable eval : string -> option yval.
  Variable parse : ntype -> string -> option fl.
  (** [value.strip("()[] ")] *)
  Variable strip_brackets : string -> string.
  Definition num_of (v : yval) : option fl :=
    match v with YNum x => Some x | YBool b => Some (Some (if b then 1 else 0)) | _ => None end%Q.
  (** lines 229-236: to a tuple; strings are sequences of characters *)
  Fixpoint str_items (s : string) : list yval :=
    match s with EmptyString => [] | String c s' => YStr (String c "") :: str_items s' end.
  Definition to_tuple (v : yval) : res (list yval) :=
    match v with
    | YList l | YTuple l => Ok l
    | YStr s => match eval s with
                | None => Raise VdtTypeError
                | Some (YTuple l) => Ok l
                | Some (YList l) => Ok l
                | Some (YStr s') => Ok (str_items s')
                | Some v' => Ok [v']
                end
    | v => Ok [v]
    end.
  (** lines 243-246: bounds *)
  Definition bound (t : ntype) (b : option yval) : res (option yval) :=
    match b with
    | Some (YStr s) => match parse t s with Some x => Ok (Some (YNum x)) | None => Raise ValueError end
    | Some YNone | None => Ok None
    | Some v => Ok (Some v)
    end.
  (** lines 247-253: one value.  Comparing something that is not a number fails. *)
  Definition clamp_min (t : ntype) (b : option yval) (v : yval) : res yval :=
    match b with
    | None => Ok v
    | Some m =>
      match num_of v, num_of m with
      | Some x, Some y => if fltb x y then let* z := conv t y in Ok (YNum z) else Ok v
      | _, _ => Raise TypeError
      end
    end.
  Definition clamp_max (t : ntype) (b : option yval) (v : yval) : res yval :=
    match b with
    | None => Ok v
    | Some m =>
      match num_of v, num_of m with
      | Some x, Some y => if fltb y x then let* z := conv t y in Ok (YNum z) else Ok v
      | _, _ => Raise TypeError
      end
    end.
  Definition one_numeric (t : ntype) (mn mx : option yval) (v : yval) : res yval :=
    let* v := match v with
              | YStr s => match parse t s with Some x => Ok (YNum x) | None => Raise VdtTypeError end
              | _ => Ok v
              end in
    let* v := clamp_min t mn v in
    clamp_max t mx v.
  Definition is_numerics (mn mx : option yval) (t : ntype) (n : option Z) (value : yval) : res yval :=
    let value := match value with YStr s => YStr (strip_brackets s) | v => v end in
    if prints_none value then Ok YNone else
    let* items := to_tuple value in
    if match n with Some k => negb (Z.of_nat (List.length items) =? k)%Z | None => false end then Raise VdtTypeError else
    let* mn := bound t mn in
    let* mx := bound t mx in
    let* out := map_res (one_numeric t mn mx) items in
    Ok (YTuple out).
  (** lines 257-268: the sorted copy is not used, but sorting may fail.  (Simplification: only
      numbers can be compared.) *)
  Definition is_minmax (mn mx : option yval) (t : ntype) (value : yval) : res yval :=
    let* v := is_numerics mn mx t (Some 2%Z) value in
    match v with
    | YTuple l => if forallb (fun v => match num_of v with Some _ => true | None => false end) l
                  then Ok v else Raise TypeError
    | _ => Ok v
    end.
  (** lines 271-275 *)
  Definition is_figsize (value : yval) : res yval :=
    is_numerics (Some (YNum (Some 0%Q))) (Some (YNum (Some 20%Q))) TFloat (Some 2%Z) value.
End numerics.
