(** Model of the window functions and of the isotropic kernels of xoa/filter.py: get_window_func (25-87),
    generate_isotropic_kernel (128-197), generate_orthogonal_kernel (200-290) and generate_kernel (293-427) for the
    specifications that are made of 1d kernels (ints, tuples, lists, dictionaries; see Filter for numpy and data arrays).

    Numbers are exact rationals; NaN is [None].  Parameters: the attributes of numpy and scipy.signal.windows, the value
    of an interpolated window at the distance sqrt(r2) from the centre.
    Simplifications: the data are floats; 1d kernels are lists or numpy arrays of one dimension (not tuples); isotropic
    is a tuple of names (True stands for the dimensions of the data, False and None for the empty tuple). *)
From Verif Require Export Filter.
Open Scope nat_scope.

Section Iso.
  Variable arg : Type.
  (** A callable: the size, then the other arguments *)
  Definition wfun := Z -> list arg -> dict arg -> res (list Q).
  Variables np_attr sw_attr : string -> option wfun.
  (** lines 25-87 *)
  Inductive wspec := WVals (l : list Q) | WName (s : string) | WFunc (f : wfun).
  Definition window_of (l : list Q) (size : Z) : res (list Q) :=
    if (size <? 0)%Z then Raise ValueError                                   (* numpy.linspace *)
    else match l with [] => Raise ValueError | _ => Ok (window_values l (Z.to_nat size)) end.
  Definition get_window_func (w : wspec) (args : list arg) (kw : dict arg) : res (Z -> res (list Q)) :=
    match w with
    | WVals l => Ok (window_of l)
    | WName s =>
      match np_attr s with
      | Some f => Ok (fun size => f size args kw)
      | None => match sw_attr s with
                | Some f => Ok (fun size => f size args kw)
                | None => Raise XoaError
                end
      end
    | WFunc f => Ok (fun size => f size args kw)
    end.
  (** A function of the size only, given again to get_window_func without arguments *)
  Definition as_func (f : Z -> res (list Q)) : wspec := WFunc (fun size _ _ => f size).

  Section Kernels.
  Variable fill : Q.
  (** lines 261-274; numpy assigns an array of the same size or of size one *)
  Definition one_kernel_w (f : Z -> res (list Q)) (k : k1) : res (list Q) :=
    match k with
    | KVals l => Ok l
    | KSize z => f z
    | KFloat q =>
      let size := Z.quot (Qnum q) (Zpos (Qden q)) in
      let size := if Qeq_bool (inject_Z size) q then size else (size + 2)%Z in
      if (size <? 0)%Z then Raise ValueError
      else
        let* w := f (size - 2)%Z in
        let inner := Z.to_nat size - 2 in
        if (List.length w =? inner) || (List.length w =? 1) then
          Ok (map (fun i => if (i =? 0) || (i =? Z.to_nat size - 1) then fill
                            else nth (if List.length w =? inner then i - 1 else 0) w 0%Q) (seq 0 (Z.to_nat size)))
        else Raise ValueError
    end.
  (** lines 259-282 *)
  Fixpoint orthogonal_w (f : Z -> res (list Q)) (ks : list k1) (acc : option nd) : res (option nd) :=
    match ks with
    | [] => Ok acc
    | k :: ks' =>
      let* l := one_kernel_w f k in
      let* a := match acc with None => Ok (of_list l) | Some a => merge a l end in
      orthogonal_w f ks' (Some a)
    end.

  (** ** generate_kernel *)
  (** The kernel of a dimension: a size, a list, or a numpy array *)
  Inductive spec1 := One (k : k1) | Arr (l : list Q).
  Definition plain (s : spec1) : k1 := match s with One k => k | Arr l => KVals l end.
  Inductive isize := SInt (z : Z) | SFloat (q : Q).
  (** numpy.isscalar *)
  Definition scalar (s : spec1) : bool := match s with One (KSize _ | KFloat _) => true | _ => false end.
  Definition vals (s : spec1) : list Q := match s with One (KVals l) | Arr l => l | _ => [] end.
  (** line 372 *)
  Definition size_of (s : spec1) : isize :=
    match s with One (KSize z) => SInt z | One (KFloat q) => SFloat q | _ => SInt (Z.of_nat (List.length (vals s))) end.
  (** bool(isokernel): an error for a numpy array of several elements *)
  Definition truth (s : spec1) : res bool :=
    match s with
    | One (KSize z) => Ok (negb (z =? 0)%Z)
    | One (KFloat q) => Ok (negb (Qeq_bool q 0))
    | One (KVals l) => Ok (match l with [] => false | _ => true end)
    | Arr [] => Ok false
    | Arr [q] => Ok (negb (Qeq_bool q 0))
    | Arr _ => Raise ValueError
    end.
  Definition truth_opt (o : option spec1) : res bool := match o with None => Ok false | Some s => truth s end.
  (** numpy.allclose: rtol=1e-5, atol=1e-8, with broadcast *)
  Definition close (a b : Q) : bool := Qle_bool (Qabs (a - b)) ((1 # 100000000) + (1 # 100000) * Qabs b).
  Definition allclose (a b : list Q) : res bool :=
    if List.length a =? List.length b then Ok (forallb (fun p => close (fst p) (snd p)) (combine a b))
    else match a, b with
         | [x], _ => Ok (forallb (close x) b)
         | _, [y] => Ok (forallb (fun x => close x y) a)
         | _, _ => Raise ValueError
         end.
  Record split := mksplit { isok : option spec1; sizes : dict isize; ortho : dict k1 }.
  (** lines 353-373 *)
  Definition split_step (iso : list string) (st : split) (kv : string * spec1) : res split :=
    let (dim, kn) := kv in
    if negb (mem dim iso) then Ok (mksplit (isok st) (sizes st) (dset (ortho st) dim (plain kn)))
    else
      let* t := truth_opt (isok st) in
      let* i := match isok st with
                | Some i =>
                  if t then
                    if xorb (scalar i) (scalar kn) then Raise XoaError
                    else if scalar kn then Ok i
                    else let* c := allclose (vals kn) (vals i) in if c then Ok i else Raise XoaError
                  else Ok kn
                | None => Ok kn
                end in
      Ok (mksplit (Some i) (dset (sizes st) dim (size_of kn)) (ortho st)).
  Fixpoint split_all (iso : list string) (st : split) (d : dict spec1) : res split :=
    match d with [] => Ok st | kv :: r => let* st' := split_step iso st kv in split_all iso st' r end.

  Variable at_ : list Q -> Q -> Q.
  (** lines 168-197; the shape is not empty *)
  Record ndo := mkndo { oshape : list nat; ovalue : list nat -> option Q }.
  Definition int_size (s : isize) : res Z := match s with SInt z => Ok z | SFloat _ => Raise TypeError end.
  Fixpoint int_sizes (l : list isize) : res (list Z) :=
    match l with [] => Ok [] | s :: r => let* z := int_size s in let* zs := int_sizes r in Ok (z :: zs) end.
  Definition isotropic_nd (shape : list isize) (f : Z -> res (list Q)) : res ndo :=
    let* zs := int_sizes shape in
    if existsb (fun z => (z <? 0)%Z) zs then Raise ValueError                (* numpy.indices *)
    else
      let npt := (2 * fold_right Z.max 0 zs)%Z in
      let* fp := f npt in
      if (npt =? 0)%Z || negb (List.length fp =? Z.to_nat npt) then Raise ValueError      (* numpy.interp *)
      else let s := map Z.to_nat zs in Ok (mkndo s (isotropic_kernel s (at_ fp) fill)).
  Definition some_nd (a : nd) : ndo := mkndo (nshape a) (fun i => Some (nvalue a i)).
  (** line 403: np.tensordot(kernel[..., None], isokernels[None, ...]), with the default axes=2: the last axis of the
      first and the axis of one element, with the axis of one element and the first axis of the second *)
  Definition tensordot2 (a : nd) (b : ndo) : res ndo :=
    match List.last (nshape a) 0, oshape b with
    | 1, 1 :: s => Ok (mkndo (removelast (nshape a) ++ s) (fun i =>
        let n := List.length (removelast (nshape a)) in
        option_map (Qmult (nvalue a (firstn n i ++ [0]))) (ovalue b (0 :: skipn n i))))
    | _, _ => Raise ValueError
    end.
  Definition label_o (a : ndo) (ds : list string) : res (da (option Q)) :=
    if (List.length ds =? List.length (oshape a)) && nodupb ds then Ok (mkda ds (oshape a) (ovalue a)) else Raise ValueError.

  Inductive kernel_spec := GInt (z : Z) | GTuple (l : list spec1) | GList (l : list Q) | GDict (d : dict spec1).
  (** lines 326-343 *)
  Definition to_dict (k : kernel_spec) (ds : list string) : res (dict spec1) :=
    let of_tuple l := if List.length ds <? List.length l then Raise XoaError else Ok (combine (last_dims ds (List.length l)) l) in
    match k with
    | GInt z => of_tuple (repeat (One (KSize z)) (List.length ds))
    | GTuple l => of_tuple l
    | GList l => Ok (map (fun d => (d, One (KVals l))) ds)
    | GDict d => Ok d
    end.
  (** lines 319-427.  Without any kernel the result is an error (simplification: it is an array of None) *)
  Definition generate (kernel : kernel_spec) (iso : list string) (w : wspec) (args : list arg) (kw : dict arg) (ds : list string) : res (da (option Q)) :=
    let* d := to_dict kernel ds in
    if negb (forallb (fun x => mem x ds) iso) then Raise XoaError
    else
      let* st := split_all iso (mksplit None [] []) d in
      let* kw := match ortho st with
                 | [] => Ok (None, w)
                 | o => let* f := get_window_func w args kw in
                        let* k := orthogonal_w f (map snd o) None in
                        Ok (k, as_func f)
                 end in
      let (k, w) := kw : option nd * wspec in
      let* t := truth_opt (isok st) in
      let* a := match isok st with
                | Some i =>
                  if t then
                    let* f := get_window_func (if scalar i then w else WVals (vals i)) [] [] in
                    let* b := isotropic_nd (map snd (sizes st)) f in
                    match k with
                    | None => label_o b (dkeys (ortho st) ++ dkeys (sizes st))
                    | Some a => let* c := tensordot2 a b in label_o c (dkeys (ortho st) ++ dkeys (sizes st))
                    end
                  else match k with Some a => label_o (some_nd a) (dkeys (ortho st)) | None => Raise TypeError end
                | None => match k with Some a => label_o (some_nd a) (dkeys (ortho st)) | None => Raise TypeError end
                end in
      transpose a (map Some ds) None (EName "insert").
  End Kernels.
End Iso.
