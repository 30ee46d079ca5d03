(** Model of xoa/misc.py (except dict_merge, see DictMerge.v / DictHeap.v). *)
From Verif Require Export PyDict.
Open Scope nat_scope.

(** ** Python values: only what these functions look at.  [VFun n] is an opaque
    callable, [VObj n] any other object, compared by identity. *)
Inductive pyval :=
| VNone
| VBool (b : bool)
| VInt (z : Z)
| VStr (s : string)
| VList (l : list pyval)
| VTuple (l : list pyval)
| VDict (d : list (string * pyval))
| VObj (n : nat)
| VGen (l : list pyval). (** a generator about to yield [l] *)

(** ** get_axis_slices *)

(** [slice(start, stop)] or an integer index *)
Inductive sel := Slice (start stop : option Z) | Idx (i : Z).
Definition full_slice : sel := Slice None None.
(** The code builds tuples, but lists for "all" and for the keyword arguments. *)
Inductive selector := TupleSel (l : list sel) | ListSel (l : list sel).

(** xoa/misc.py:309-310, 311-313 and so on: a copy of [sel] with [sel[axis]] set *)
Definition axis_sel (ndim axis : Z) (s : sel) : res (list sel) :=
  pyset (List.repeat full_slice (Z.to_nat ndim)) axis s.

(** Value of an extra keyword: a list or a tuple of integers or None, or a
    single index *)
Inductive kwsel := KwSeq (l : list (option Z)) | KwIdx (i : Z).
(** xoa/misc.py:345-346: [slice( *val )] with 1, 2 arguments (steps are not
    modelled); 0 arguments or more than 3: TypeError *)
Definition kw_slice (k : kwsel) : res sel :=
  match k with
  | KwSeq [stop] => Ok (Slice None stop)
  | KwSeq [start; stop] => Ok (Slice start stop)
  | KwSeq _ => Raise TypeError
  | KwIdx i => Ok (Idx i)
  end.

Definition axis_keys : list string :=
  ["all"; "mid"; "lasts"; "firsts"; "lastsp1"; "firstsm1"; "last"; "first"; "lastm1";
   "firstp1"; "lastm2"; "firstp2"]%string.

Fixpoint kw_sels (ndim axis : Z) (kwargs : dict kwsel) : res (dict selector) :=
  match kwargs with
  | [] => Ok []
  | (k, v) :: r =>
    let* s := kw_slice v in
    let* l := axis_sel ndim axis s in
    let* r' := kw_sels ndim axis r in
    Ok ((k, ListSel l) :: r')
  end.

(** xoa/misc.py:267-355 get_axis_slices, [ndim] already an integer *)
Definition get_axis_slices (ndim axis : Z) (kwargs : dict kwsel) : res (dict selector) :=
  let one s := let* l := axis_sel ndim axis s in Ok (TupleSel l) in
  let* mid := one (Slice (Some 1%Z) (Some (-1)%Z)) in
  let* lasts := one (Slice (Some 1%Z) None) in
  let* firsts := one (Slice (Some 0%Z) (Some (-1)%Z)) in
  let* lastsp1 := one (Slice (Some 2%Z) None) in
  let* firstsm1 := one (Slice (Some 0%Z) (Some (-2)%Z)) in
  let* last := one (Idx (-1)%Z) in
  let* first := one (Idx 0%Z) in
  let* lastm1 := one (Idx (-2)%Z) in
  let* lastm2 := one (Idx (-3)%Z) in
  let* firstp1 := one (Idx 1%Z) in
  let* firstp2 := one (Idx 2%Z) in
  let* kw := kw_sels ndim axis kwargs in
  if existsb (dmem kw) axis_keys then Raise TypeError
  else Ok ([("all"%string, ListSel (List.repeat full_slice (Z.to_nat ndim)));
            ("mid"%string, mid); ("lasts"%string, lasts); ("firsts"%string, firsts);
            ("lastsp1"%string, lastsp1); ("firstsm1"%string, firstsm1);
            ("last"%string, last); ("first"%string, first); ("lastm1"%string, lastm1);
            ("firstp1"%string, firstp1); ("lastm2"%string, lastm2);
            ("firstp2"%string, firstp2)] ++ kw).

(** numpy: positions addressed along an axis of length [n] *)
Definition clip_bound (n : nat) (i : Z) : nat :=
  let i := if (i <? 0)%Z then (i + Z.of_nat n)%Z else i in
  Z.to_nat (Z.max 0 (Z.min i (Z.of_nat n))).
Definition positions (n : nat) (s : sel) : res (list nat) :=
  match s with
  | Idx i => match pyidx n i with Some k => Ok [k] | None => Raise IndexError end
  | Slice start stop =>
    let a := match start with None => 0 | Some i => clip_bound n i end in
    let b := match stop with None => n | Some i => clip_bound n i end in
    Ok (seq a (b - a))
  end.

(** ** gunique *)
(** xoa/misc.py:691-714 gunique; [seen] is the set built so far, [eqb] the
    equality of the (hashable) items *)
Fixpoint gunique_loop {A} (eqb : A -> A -> bool) (seen seq : list A) : list A :=
  match seq with
  | [] => []
  | x :: r =>
    if existsb (eqb x) seen then gunique_loop eqb seen r
    else x :: gunique_loop eqb (x :: seen) r
  end.
Definition gunique {A} (eqb : A -> A -> bool) (seq : list A) : list A :=
  gunique_loop eqb [] seq.

(** ** ArgList, ArgTuple *)
Record arg := mkarg { single : bool; argsi : pyval }.
Definition is_list (v : pyval) : bool := match v with VList _ => true | _ => false end.
Definition is_tuple (v : pyval) : bool := match v with VTuple _ => true | _ => false end.
(** [argso[0]] on a list or a tuple *)
Definition item0 (v : pyval) : res pyval :=
  match v with
  | VList l | VTuple l => match l with x :: _ => Ok x | [] => Raise IndexError end
  | _ => Raise TypeError
  end.
(** xoa/misc.py:740-742 *)
Definition ArgList (x : pyval) : arg := mkarg (negb (is_list x)) x.
(** xoa/misc.py:744-745 *)
Definition arglist_get (a : arg) : pyval := if single a then VList [argsi a] else argsi a.
(** xoa/misc.py:747-753 *)
Definition arglist_put (a : arg) (argso : pyval) : res pyval :=
  let so := negb (is_list argso) in
  if (so && single a) || (negb so && negb (single a)) then Ok argso
  else if so && negb (single a) then Ok (VList [argso])
  else item0 argso.
(** xoa/misc.py:780-793 *)
Definition ArgTuple (x : pyval) : arg := mkarg (negb (is_tuple x)) x.
Definition argtuple_get (a : arg) : pyval := if single a then VTuple [argsi a] else argsi a.
Definition argtuple_put (a : arg) (argso : pyval) : res pyval :=
  let so := negb (is_tuple argso) in
  if (so && single a) || (negb so && negb (single a)) then Ok argso
  else if so && negb (single a) then Ok (VTuple [argso])
  else item0 argso.

(** ** match_string *)
(** A check: None, a string, a callable (total, result coerced to bool), or any
    other object *)
Inductive check := CNone | CStr (s : string) | CFun (f : string -> bool) | COther (n : nat).
Definition is_fun (c : check) : bool := match c with CFun _ => true | _ => false end.
Definition is_cnone (c : check) : bool := match c with CNone => true | _ => false end.
(** The argument [checks]: a single check or an iterable of checks; a generator is
    always true as a boolean *)
Inductive checks := One (c : check) | Many (l : list check) | Gen (l : list check).
Definition checks_false (c : checks) : bool :=
  match c with
  | One CNone => true
  | One (CStr s) => String.eqb s ""
  | One _ => false
  | Many [] => true
  | Many _ => false
  | Gen _ => false
  end.
Definition check_list (c : checks) : list check :=
  match c with One x => [x] | Many l | Gen l => l end.

(** xoa/misc.py:650-659: the loop; answers [None] when a callable accepts, else the
    collected strings *)
Fixpoint match_loop (transform : option (check -> check)) (ss : string)
    (l : list check) (sss : list string) : option (list string) :=
  match l with
  | [] => Some sss
  | c :: r =>
    let c := match transform with
             | Some t => if is_fun c then c else t c
             | None => c end in
    match c with
    | CFun f => if f ss then None else match_loop transform ss r sss
    | CStr s => match_loop transform ss r (sss ++ [s])
    | _ => match_loop transform ss r sss
    end
  end.

(** xoa/misc.py:614-665 match_string ([ss] a string or None) *)
Definition match_string (ss : option string) (cs : checks) (ignorecase : bool)
    (transform : option (check -> check)) : bool :=
  match ss with
  | None => false
  | Some ss =>
    if String.eqb ss "" || checks_false cs then false
    else
      let ss := strip ss in
      let ss := if ignorecase then lower ss else ss in
      let l := List.filter (fun c => negb (is_cnone c)) (check_list cs) in
      match match_loop transform ss l [] with
      | None => true
      | Some sss =>
        let sss := map strip sss in
        let sss := if ignorecase then map lower sss else sss in
        existsb (String.eqb ss) sss
      end
  end.

(** xoa/misc.py:668-688 match_attrs: [attrs] are the attributes of the object
    (None for an object that is None), [cks] the dictionary of checks *)
Definition match_attrs (attrs : option (dict (option string)))
    (cks : option (dict checks)) (ignorecase : bool) (transform : option (check -> check)) : bool :=
  match attrs, cks with
  | Some at_, Some cs =>
    existsb (fun kc => match dget at_ (fst kc) with
                       | Some v => match_string v (snd kc) ignorecase transform
                       | None => false end) cs
  | _, _ => false
  end.

(** ** Choices: strings and other (hashable) values *)
Inductive cval := CvStr (s : string) | CvInt (z : Z) | CvNone.
Definition cval_eqb (a b : cval) : bool :=
  match a, b with
  | CvStr s, CvStr t => String.eqb s t
  | CvInt x, CvInt y => Z.eqb x y
  | CvNone, CvNone => true
  | _, _ => false
  end.
Record Choices := mkchoices { ci : bool; choices_ : list cval }.
(** xoa/misc.py:205-208 _reformat_value_ *)
Definition reformat (ci : bool) (v : cval) : cval :=
  match v with CvStr s => if ci then CvStr (lower s) else v | _ => v end.
(** xoa/misc.py:185-203 __init__ (the documentation strings are not modelled) *)
Definition Choices_init (l : list cval) (ci : bool) : Choices :=
  mkchoices ci (map (reformat ci) l).
(** xoa/misc.py:218-219 __str__: [", ".join(choices)] fails on non strings *)
Definition choices_str (c : Choices) : res string :=
  let* l := (fix go l := match l with
     | [] => Ok []
     | CvStr s :: r => let* r' := go r in Ok (s :: r')
     | _ :: _ => Raise TypeError end) (choices_ c) in
  Ok (join ", " l).
(** xoa/misc.py:210-216 __getitem__; the message of the error needs [str(self)] *)
Definition choices_getitem (c : Choices) (v : cval) : res cval :=
  let v := reformat (ci c) v in
  if existsb (cval_eqb v) (choices_ c) then Ok v
  else let* _ := choices_str c in Raise XoaError.

(** ** dict_check_defaults, xoa/misc.py:380-404 *)
Definition dict_check_defaults {V} (dd defaults : dict V) : dict V :=
  fold_left (fun d kv => dsetdefault d (fst kv) (snd kv)) defaults dd.

(** ** dict_filter *)
(** xoa/misc.py:455-456: effective prefix of a filter *)
Definition filter_prefix (short : bool) (f : string) : string :=
  if negb short && negb (ends_with_char f "_"%char) then (f ++ "_")%string else f.

(** State: output, source *)
Definition dfstate := (dict pyval * dict pyval)%type.
(** [kwread]: [kwargs.get] or [kwargs.pop] *)
Definition kwread (copy : bool) (kwargs : dict pyval) (k : string) : res (pyval * dict pyval) :=
  match dget kwargs k with
  | Some v => Ok (v, if copy then kwargs else ddel kwargs k)
  | None => if copy then Ok (VNone, kwargs) else Raise KeyError
  end.

(** xoa/misc.py:457-462: loop on a snapshot of the items *)
Definition prefix_step (copy keep : bool) (p : string) (att : string)
    (st : dfstate) : ctl dfstate :=
  let '(out, kw) := st in
  if startswith att p && negb (String.eqb att p) then
    get* (v, kw') := kwread copy kw att in
    Next (dset out (if keep then att else sdrop (String.length p) att) v, kw')
  else Next st.

(** xoa/misc.py:449-462: one filter *)
Definition filter_step (copy short keep : bool) (f : string) (st : dfstate) : ctl dfstate :=
  let '(out, kw) := st in
  get* st1 :=
    (if negb (ends_with_char f "_"%char) && dmem kw f then
       let* (v, kw') := kwread copy kw f in
       match v with
       | VDict d => Ok (dupdate out d, kw')
       | _ => Ok (dset out f v, kw')
       end
     else Ok (out, kw)) in
  next_of (for_each (dkeys (snd st1)) (prefix_step copy keep (filter_prefix short f)) st1).

(** xoa/misc.py:407-479 dict_filter: returns the new dictionary and the state of
    [kwargs] afterwards *)
Definition dict_filter (kwargs : dict pyval) (filters : list string)
    (defaults : option (dict pyval)) (copy short keep : bool) (kwadd : dict pyval)
    : res (dict pyval * dict pyval) :=
  let* (out, kw) := for_each filters (filter_step copy short keep) ([], kwargs) in
  let out := dupdate out kwadd in
  let out := match defaults with
             | Some d => dict_check_defaults out d
             | None => out end in
  Ok (out, kw).

(** ** Enumerations *)
(** An [IntEnum] class: its names in declaration order, aliases included.
    Member = (canonical name, value). *)
Definition enum_members := list (string * Z).
Inductive enumarg := ENone | EName (s : string) | ECode (z : Z).
Definition enum_by_value (ms : enum_members) (z : Z) : option (string * Z) :=
  List.find (fun nv => Z.eqb (snd nv) z) ms.
(** xoa/misc.py:153-158 DefaultEnumMeta.__getitem__ (and [cls(value)], [next(iter(cls))]) *)
Definition enum_getitem (ms : enum_members) (a : enumarg) : res (string * Z) :=
  match a with
  | ENone => match ms with m :: _ => Ok m | [] => Raise ValueError end
  | ECode z => match enum_by_value ms z with Some m => Ok m | None => Raise ValueError end
  | EName s =>
    match List.find (fun nv => String.eqb (fst nv) s) ms with
    | Some nv => match enum_by_value ms (snd nv) with Some m => Ok m | None => Raise ValueError end
    | None => Raise KeyError
    end
  end.
