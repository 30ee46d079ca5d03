(** Specification vocabulary for C15, C18-C22. *)
From Verif Require Export Misc PyDictFacts.
From Coq Require Export Sorted.
Open Scope nat_scope.

(** [name] addresses exactly the positions [l] along axis [k] of length [n], and
    everything along the other axes. *)
Definition addresses (ss : dict selector) (name : string) (ndim k n : nat) (l : list nat) : Prop :=
  exists sels s, dget ss name = Some (TupleSel sels) /\ List.length sels = ndim /\
    nth_error sels k = Some s /\ positions n s = Ok l /\
    forall j, j < ndim -> j <> k -> nth_error sels j = Some (Slice None None).

(** C15: the slices that can be asked by keyword, and the names that are always there *)
Inductive asks : kwsel -> sel -> Prop :=
| asks_stop stop : asks (KwSeq [stop]) (Slice None stop)
| asks_range start stop : asks (KwSeq [start; stop]) (Slice start stop)
| asks_index i : asks (KwIdx i) (Idx i).
Definition reserved (name : string) : Prop :=
  In name ["all"; "mid"; "firsts"; "lasts"; "firstsm1"; "lastsp1"; "first"; "firstp1"; "firstp2"; "last"; "lastm1"; "lastm2"]%string.

(** Position [j] holds the first occurrence of [x]. *)
Definition first_occ {A} (eqb : A -> A -> bool) (seq : list A) (j : nat) (x : A) : Prop :=
  nth_error seq j = Some x /\
  forall j' y, j' < j -> nth_error seq j' = Some y -> eqb x y = false.

(** dict_filter: which keys a filter selects, and what it emits. *)
Definition with_prefix (short : bool) (f k : string) : bool :=
  let p := filter_prefix short f in startswith k p && negb (String.eqb k p).
Definition exact_key (f k : string) : bool :=
  negb (ends_with_char f "_"%char) && String.eqb k f.
Definition selects (short : bool) (f k : string) : bool :=
  exact_key f k || with_prefix short f k.
Definition emitted (short keep : bool) (f : string) (kw : dict pyval) : list (string * pyval) :=
  (if ends_with_char f "_"%char then [] else
   match dget kw f with
   | Some (VDict d) => d
   | Some v => [(f, v)]
   | None => [] end) ++
  map (fun kv => (if keep then fst kv
                  else sdrop (String.length (filter_prefix short f)) (fst kv), snd kv))
      (List.filter (fun kv => with_prefix short f (fst kv)) kw).
Fixpoint emissions (copy short keep : bool) (fs : list string) (kw : dict pyval)
  : list (string * pyval) :=
  match fs with
  | [] => []
  | f :: r =>
    emitted short keep f kw ++
    emissions copy short keep r
      (if copy then kw else List.filter (fun kv => negb (selects short f (fst kv))) kw)
  end.

(** match_string: what a single check accepts *)
Definition norm (ignorecase : bool) (s : string) : string :=
  if ignorecase then lower (strip s) else strip s.
Definition accepts (ignorecase : bool) (transform : option (check -> check))
    (ss : string) (c : check) : Prop :=
  c <> CNone /\
  let c' := match c, transform with CFun _, _ | _, None => c | _, Some t => t c end in
  match c' with
  | CFun f => f (norm ignorecase ss) = true
  | CStr s => norm ignorecase s = norm ignorecase ss
  | _ => False
  end.

(** C18 in plain terms.  The prefix of a filter: the filter itself when prefixes
    may be short or when it ends with an underscore, else the filter followed by an
    underscore. *)
Definition prefix_of (short : bool) (f p : string) : Prop :=
  ((short = true \/ exists g, f = (g ++ "_")%string) /\ p = f) \/
  (short = false /\ (~ exists g, f = (g ++ "_")%string) /\ p = (f ++ "_")%string).
(** Filter [f] picks key [k] by its prefix, [o] being the rest of the key. *)
Definition by_prefix (short : bool) (f k o : string) : Prop :=
  exists p, prefix_of short f p /\ k = (p ++ o)%string /\ o <> ""%string.
(** Filter [f] picks key [k] because it is the filter, which has no trailing underscore. *)
Definition by_name (f k : string) : Prop :=
  k = f /\ ~ exists g, f = (g ++ "_")%string.
Definition picked (short : bool) (fs : list string) (k : string) : Prop :=
  exists f, In f fs /\ (by_name f k \/ exists o, by_prefix short f k o).
(** Entry [(o, v)] of the result comes from entry [(k, w)] of the source. *)
Definition comes_from (short keep : bool) (f k : string) (w : pyval) (o : string) (v : pyval) : Prop :=
  (by_name f k /\ ((exists d, w = VDict d /\ In (o, v) d) \/
                   ((forall d, w <> VDict d) /\ o = k /\ v = w))) \/
  (exists r, by_prefix short f k r /\ v = w /\ o = if keep then k else r).

(** [t] is [s] without its surrounding white space. *)
Definition stripped (s t : string) : Prop :=
  exists a b, s = (a ++ t ++ b)%string /\
    (forall c, In c (list_ascii_of_string a) \/ In c (list_ascii_of_string b) -> is_space c = true) /\
    match list_ascii_of_string t with
    | [] => True
    | c :: l => is_space c = false /\ is_space (List.last (c :: l) c) = false
    end.
