(** Model of xoa/filter.py.  Numbers are exact rationals; NaN is [None].

    Not modelled here: the isotropic part of generate_kernel (see FilterIso; generate_isotropic_kernel alone is
    below), the rounding of floats and of the FFT that scipy may choose, coordinates and
    attributes of arrays.  Parameters: the window functions of numpy and scipy. *)
From Coq Require Export Qabs.
From Verif Require Export Coords.
Open Scope nat_scope.

(** ** numpy and scipy *)
(** All positions of an array, in row-major order (numpy.ndindex) *)
Fixpoint indices (s : list nat) : list (list nat) :=
  match s with [] => [[]] | n :: r => flat_map (fun i => map (cons i) (indices r)) (seq 0 n) end.
Definition qsum (l : list Q) : Q := fold_right Qplus 0%Q l.
(** scipy.signal.convolve(mode="same"): output of the size of the data, centred in the full
    convolution.  On one axis, the data position that meets kernel position [j] for output [i] *)
Definition axis (n k i j : nat) : option nat :=
  let s := i + (k - 1) / 2 in
  if j <=? s then (if s - j <? n then Some (s - j) else None) else None.
Fixpoint position (s ks i j : list nat) : option (list nat) :=
  match s, ks, i, j with
  | n :: s', k :: ks', a :: i', b :: j' =>
    match axis n k a b, position s' ks' i' j' with Some p, Some q => Some (p :: q) | _, _ => None end
  | _, _, _, _ => Some []
  end.
Definition conv_same (s ks : list nat) (f g : list nat -> Q) (i : list nat) : Q :=
  qsum (map (fun j => match position s ks i j with Some p => (f p * g j)%Q | None => 0%Q end) (indices ks)).
Definition qmax (a b : Q) : Q := if Qle_bool a b then b else a.
Definition qmin (a b : Q) : Q := if Qle_bool a b then a else b.
(** numpy.clip *)
Definition clip (x lo hi : Q) : Q := qmin (qmax x lo) hi.
(** Division: 0/0 is NaN.  (Simplification: so is x/0, which is infinite; it does not occur with
    non-negative kernels.) *)
Definition qdiv (a b : Q) : option Q := if Qeq_bool b 0 then None else Some (a / b)%Q.
Definition isnan (v : option Q) : bool := match v with None => true | Some _ => false end.
Definition filled (v : option Q) : Q := match v with Some q => q | None => 0%Q end.
Definition total (k : da Q) : Q := qsum (map (value k) (indices (shape k))).

(** ** xoa/filter.py:466-499: _convolve_.  [float]: data of floats (else of integers) *)
Definition convolve_ (float : bool) (a : da (option Q)) (k : da Q) (normalize : bool) : res (list nat -> option Q) :=
  if negb (List.length (shape a) =? List.length (shape k)) then Raise AssertionError
  else
    let with_mask := existsb (fun i => isnan (value a i)) (indices (shape a)) in
    let cdata := conv_same (shape a) (shape k) (fun p => filled (value a p)) (value k) in
    let weights i := clip (conv_same (shape a) (shape k) (fun p => if isnan (value a p) then 0%Q else 1%Q) (value k) i) 0 (total k) in
    let bad i := Qle_bool (Qabs (weights i)) ((1 # 1000000) * total k) in
    if normalize && negb float then Raise TypeError        (* cdata /= weights on integers *)
    else Ok (fun i =>
      if with_mask && bad i then None
      else if normalize then qdiv (cdata i) (weights i) else Some (cdata i)).

(** ** xoa/filter.py:128-197: generate_isotropic_kernel.  [window r2]: the value of the window at
    squared distance [r2] from the centre (linear interpolation of the window function at
    1/2 - sqrt(r2)); None stands for NaN, from the division by width - 1 *)
Definition iso_coord (width i : nat) : Q := (inject_Z (Z.of_nat i) / inject_Z (Z.of_nat (width - 1)) - (1 # 2))%Q.
Fixpoint iso_r2 (s idx : list nat) : Q :=
  match s, idx with w :: s', i :: idx' => (iso_coord w i * iso_coord w i + iso_r2 s' idx')%Q | _, _ => 0%Q end.
Definition isotropic_kernel (s : list nat) (window : Q -> Q) (fill : Q) : list nat -> option Q := fun idx =>
  if existsb (Nat.eqb 1) s then None
  else if Qle_bool (iso_r2 s idx) (1 # 4) then Some (window (iso_r2 s idx)) else Some fill.

(** ** xoa/filter.py:64-69: get_window_func of explicit values: numpy.interp of the values, at
    regular positions on [0, 1], onto [size] regular positions *)
Definition linspace01 (n k : nat) : Q := if n =? 1 then 0%Q else (inject_Z (Z.of_nat k) / inject_Z (Z.of_nat (n - 1)))%Q.
(** numpy.interp at [x], for increasing xp: search of the interval *)
Fixpoint np_interp (x : Q) (l : list (Q * Q)) : Q :=
  match l with
  | [] => 0%Q
  | [(_, f)] => f
  | (x0, f0) :: (((x1, f1) :: _) as l') =>
    if Qle_bool x x0 then f0
    else if Qle_bool x x1 then (f0 + (f1 - f0) / (x1 - x0) * (x - x0))%Q else np_interp x l'
  end.
Definition window_values (w : list Q) (size : nat) : list Q :=
  let xp := map (linspace01 (List.length w)) (seq 0 (List.length w)) in
  map (fun k => np_interp (linspace01 size k) (combine xp w)) (seq 0 size).

(** ** xoa/filter.py:200-290: generate_orthogonal_kernel *)
Inductive k1 := KSize (z : Z) | KFloat (q : Q) | KVals (l : list Q).
Record nd := mknd { nshape : list nat; nvalue : list nat -> Q }.
Section windows.
  (** the window function, a numpy function of the size: it raises for negative sizes *)
  Variable window : nat -> list Q.
  Variable fill : Q.
  Definition call_window (z : Z) : res (list Q) := if (z <? 0)%Z then Raise ValueError else Ok (window (Z.to_nat z)).
  (** lines 261-274 *)
  Definition one_kernel (k : k1) : res (list Q) :=
    match k with
    | KVals l => Ok l
    | KSize z => call_window z
    | KFloat q =>
      let size := Z.quot (Qnum q) (Zpos (Qden q)) in
      let size := if Qeq_bool (inject_Z size) q then size else (size + 2)%Z in
      if (size <? 0)%Z then Raise ValueError
      else
        let* w := call_window (size - 2)%Z in
        Ok (map (fun i => if (i =? 0) || (i =? Z.to_nat size - 1) then fill else nth (i - 1) w 0%Q) (seq 0 (Z.to_nat size)))
    end.
  (** line 280: np.tensordot(kernel[:, None], k1d[None], axes=1) *)
  Definition merge (k : nd) (l : list Q) : res nd :=
    match nshape k with
    | [] => Raise IndexError
    | [n] => Ok (mknd [n; List.length l] (fun idx => (nvalue k [nth 0 idx 0%nat] * nth (nth 1 idx 0%nat) l 0)%Q))
    | n :: s =>
      if List.last s 0 =? 1 then
        Ok (mknd (n :: 1 :: removelast s ++ [List.length l])
                 (fun idx => match idx with
                             | i :: _ :: r => (nvalue k (i :: removelast r ++ [0%nat])%list * nth (List.last r 0%nat) l 0)%Q
                             | _ => 0%Q
                             end))
      else Raise ValueError
    end.
  Definition of_list (l : list Q) : nd := mknd [List.length l] (fun idx => nth (nth 0 idx 0) l 0%Q).
  Definition ortho_step (acc : option nd) (k : k1) : res (option nd) :=
    let* l := one_kernel k in
    match acc with
    | None => Ok (Some (of_list l))
    | Some a => let* b := merge a l in Ok (Some b)
    end.
  Fixpoint orthogonal (ks : list k1) (acc : option nd) : res (option nd) :=
    match ks with [] => Ok acc | k :: ks' => let* a := ortho_step acc k in orthogonal ks' a end.

  (** ** xoa/filter.py:293-427: generate_kernel, isotropic=False *)
  Inductive kspec :=
  | KInt (z : Z) | KScalar (q : Q) | KTuple (l : list k1) | KList (l : list Q) | KDict (d : dict k1)
  | KArray (a : nd) | KDa (k : da Q).
  Definition last_dims (ds : list string) (n : nat) : list string :=
    if n =? 0 then ds else skipn (List.length ds - n) ds.
  (** xr.DataArray(kernel, dims=dims) *)
  Definition label (a : nd) (ds : list string) : res (da Q) :=
    if (List.length ds =? List.length (nshape a)) && nodupb ds then Ok (mkda ds (nshape a) (nvalue a)) else Raise ValueError.
  Definition from_dict (d : dict k1) : res (da Q) :=
    let* k := orthogonal (map snd d) None in
    match k with
    | Some a => label a (dkeys d)
    | None => Raise TypeError         (* (simplification: the kernel is an empty object) *)
    end.
  Definition insert_into (ds : list string) (k : da Q) : res (da Q) :=
    transpose k (map Some ds) None (EName "insert").
  (** conversion to the type of the data: integers are truncated *)
  Definition astype (float : bool) (k : da Q) : da Q :=
    if float then k else mkda (dims k) (shape k) (fun i => inject_Z (Z.quot (Qnum (value k i)) (Zpos (Qden (value k i))))).
  Definition generate_kernel (float : bool) (kernel : kspec) (ds : list string) : res (da Q) :=
    let n := List.length ds in
    let of_tuple (l : list k1) := if n <? List.length l then Raise XoaError
                                  else from_dict (combine (last_dims ds (List.length l)) l) in
    let* k := match kernel with
              | KInt z => of_tuple (repeat (KSize z) n)
              | KTuple l => of_tuple l
              | KList l => from_dict (map (fun d => (d, KVals l)) ds)
              | KDict d => from_dict d
              | KArray a =>
                if n <? List.length (nshape a) then Raise AttributeError      (* kernel.dim *)
                else label a (last_dims ds (List.length (nshape a)))
              | KDa k => if forallb (fun d => mem d ds) (dims k) then Ok k else Raise XoaError
              | KScalar _ => Raise UnboundLocalError
              end in
    let* k := insert_into ds k in
    Ok (astype float k).

  (** ** xoa/filter.py:502-552: convolve *)
  Definition convolve (float : bool) (a : da (option Q)) (kernel : kspec) (normalize : bool) : res (da (option Q)) :=
    let* k := generate_kernel float kernel (dims a) in
    let* v := convolve_ float a k normalize in
    Ok (mkda (dims a) (shape a) v).

  (** ** xoa/filter.py:430-463: shapiro_kernel *)
  Definition shapiro_kernel (ds : list string) : da Q :=
    mkda ds (repeat 3 (List.length ds)) (fun idx => qsum (map (fun i => inject_Z (Z.of_nat (if i =? 2 then 0 else i))) idx)).

  (** ** xoa/filter.py:565-644: erode_mask *)
  Inductive until := UTimes (n : Z) | UMask (m : da bool).
  (** lines 572-573: data.fillna(convolve(data, kernel, normalize=True)) *)
  Definition convolve_and_fill (float : bool) (a : da (option Q)) (k : da Q) : res (da (option Q)) :=
    let* c := convolve float a (KDa k) true in
    Ok (mkda (dims a) (shape a) (fun i => match value a i with Some v => Some v | None => value c i end)).
  Fixpoint iterate (n : nat) (float : bool) (a : da (option Q)) (k : da Q) : res (da (option Q)) :=
    match n with O => Ok a | S n' => let* b := convolve_and_fill float a k in iterate n' float b k end.
  (** lines 565-569: _reduce_mask_, at positions given by name *)
  Definition reduced_mask (a : da (option Q)) (kd : list string) (env : string -> nat) : bool :=
    let rest := List.filter (fun d => negb (mem d kd)) (dims a) in
    existsb (fun o => isnan (value a (map (fun d => if mem d kd then env d else pos rest o d) (dims a))))
            (indices (map (size a) rest)).
  (** line 638: (mask | rmask).sum() *)
  Definition count_masked (a : da (option Q)) (m : da bool) (kd : list string) : nat :=
    let rd := List.filter (fun d => mem d kd) (dims a) in
    let ds := (dims m ++ List.filter (fun d => negb (mem d (dims m))) rd)%list in
    let sizes := map (fun d => if mem d (dims m) then size m d else size a d) ds in
    List.length (List.filter (fun idx => let env := pos ds idx in value m (map env (dims m)) || reduced_mask a kd env) (indices sizes)).
  Definition count_mask (m : da bool) : nat := List.length (List.filter (value m) (indices (shape m))).
  (** lines 632-638: the loop; None when it has not ended after [fuel] passes *)
  Fixpoint erode_loop (fuel : nat) (float : bool) (a : da (option Q)) (k : da Q) (m : da bool) (kd : list string) : res (option (da (option Q))) :=
    match fuel with
    | O => Ok None
    | S f =>
      let* b := convolve_and_fill float a k in
      if count_mask m <? count_masked b m kd then erode_loop f float b k m kd else Ok (Some b)
    end.
  (** [kernel]: None for the default; [xydims]: the names of the horizontal dimensions (their
      search is in CFDims.v) *)
  Definition erode_mask (fuel : nat) (float : bool) (a : da (option Q)) (u : until) (kernel : option kspec) (xdim ydim : string)
      : res (option (da (option Q))) :=
    if List.length (dims a) <? 2 then Raise XoaError
    else
      let* u := match u with
                | UTimes n => Ok (UTimes n)
                | UMask m =>
                  if forallb (fun d => mem d (dims a)) (dims m)
                  then let* m := transpose m (map Some (dims a)) None (EName "compat") in Ok (UMask m)
                  else Raise XoaError
                end in
      let spec := match kernel with None => KDa (shapiro_kernel [ydim; xdim]) | Some k => k end in
      let* k := generate_kernel float spec (dims a) in
      let kd := List.filter (fun d => negb (size k d =? 1)) (dims k) in
      if 2 <? List.length kd then Raise XoaError
      else
        match u with
        | UTimes n => let* b := iterate (Z.to_nat n) float a k in Ok (Some b)
        | UMask m => erode_loop fuel float a k m kd
        end.
End windows.
