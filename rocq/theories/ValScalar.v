(** Model of validation functions of single values: xoa/cfgm.py:197-209 (is_bbox), 278-307
    (is_interval), 329-346 (is_path), 349-362 (is_pydatetime), 401-409 (is_timedelta), 438-447
    (is_daterange), 461-470 (is_eval), 473-503 (is_color, _check256_), 511-556 (is_dict).

    Not modelled: is_cdtime (it needs the package cdtime), is_timestamp and those that only
    convert its result, is_timedelta64 and is_daterange64 (they are not registered). *)
From Verif Require Export Validators PyRe.
Open Scope string_scope.

(** [s.split(sep)] with a separator of one character *)
Fixpoint split_on (sep : ascii) (s : string) : list string :=
  match s with
  | "" => [""]
  | String c s' =>
    if Ascii.eqb c sep then "" :: split_on sep s'
    else match split_on sep s' with w :: l => String c w :: l | [] => [String c ""] end
  end.
(** [s.split()] *)
Fixpoint words_from (cur s : string) : list string :=
  match s with
  | "" => if nonempty cur then [cur] else []
  | String c s' =>
    if is_space c then if nonempty cur then cur :: words_from "" s' else words_from "" s'
    else words_from (cur ++ String c "") s'
  end.
Definition words (s : string) : list string := words_from "" s.
(** [s.strip(chars)] *)
Fixpoint lstrip_set (ok : ascii -> bool) (s : string) : string :=
  match s with String c s' => if ok c then lstrip_set ok s' else s | "" => "" end.
Fixpoint rstrip_set (ok : ascii -> bool) (s : string) : string :=
  match s with
  | "" => ""
  | String c s' => match rstrip_set ok s' with
                   | "" => if ok c then "" else String c ""
                   | t => String c t
                   end
  end.
Definition strip_set (ok : ascii -> bool) (s : string) : string := rstrip_set ok (lstrip_set ok s).
(** "()[] " *)
Definition is_bracket (c : ascii) : bool := existsb (Ascii.eqb c) ["("; ")"; "["; "]"; " "]%char.
(** [s.startswith("(")] then [s[1:]]; [s.endswith(")")] then [s[:-1]] *)
Definition drop_open (s : string) : string := match s with String "(" s' => s' | _ => s end.
Fixpoint drop_close (s : string) : string :=
  match s with "" => "" | ")" => "" | String c s' => String c (drop_close s') end.
(** [re.search("([co]{1,2}[ne]{0,2})", s)]: at most [n] characters of a class, as many as possible *)
Fixpoint take_class (ok : ascii -> bool) (n : nat) (s : string) : string * string :=
  match n, s with
  | S n', String c s' => if ok c then let (x, r) := take_class ok n' s' in (String c x, r) else ("", s)
  | _, _ => ("", s)
  end.
Definition is_co (c : ascii) : bool := Ascii.eqb c "c" || Ascii.eqb c "o".
Definition is_ne (c : ascii) : bool := Ascii.eqb c "n" || Ascii.eqb c "e".
Fixpoint search_bounds (s : string) : option string :=
  match s with
  | "" => None
  | String c s' =>
    if is_co c then let (x, r) := take_class is_co 2 s in let (y, _) := take_class is_ne 2 r in Some (x ++ y)
    else search_bounds s'
  end.
(** [",".join(l)]: only of strings *)
Fixpoint strings (l : list yval) : res (list string) :=
  match l with
  | [] => Ok []
  | YStr s :: l' => let* r := strings l' in Ok (s :: r)
  | _ => Raise TypeError
  end.
Fixpoint join_with (sep : string) (l : list string) : string :=
  match l with [] => "" | [s] => s | s :: l' => s ++ sep ++ join_with sep l' end.
(** Truth value *)
Definition truthy_val (v : yval) : bool :=
  match v with
  | YNone => false | YStr s => nonempty s | YNum (Some q) => negb (Qeq_bool q 0) | YNum None => true
  | YBool b => b | YList l | YTuple l => match l with [] => false | _ => true end | YOther _ => true
  end.

Section scalar.
  (** [eval(s)], None when it fails; [float(s)]; [str(v)] of a value that is not a string;
      environment variables and home directory; dates; colors of matplotlib, with alpha or not;
      other objects that are dictionaries *)
  Variable eval : string -> option yval.
  Variable to_float : string -> option fl.
  Variable str_of : yval -> string.
  Variable expandvars : string -> string.
  Variable strptime : string -> string -> option yval.
  Variable pd_timedelta : fl -> yval -> option yval.
  Variable converter : bool -> yval -> option yval.
  Variable dictobj : nat -> bool.

  Definition str_val (v : yval) : string := match v with YStr s => s | YNone => "None" | _ => str_of v end.

  (** lines 197-209 *)
  Fixpoint floats (l : list string) : res (list yval) :=
    match l with
    | [] => Ok []
    | s :: l' => match to_float s with
                 | Some x => let* r := floats l' in Ok (YNum x :: r)
                 | None => Raise ValueError
                 end
    end.
  Definition is_bbox (default value : yval) : res yval :=
    if prints_none value then Ok YNone else
    let value := match value with YStr "" => default | _ => value end in
    match value with
    | YStr s =>
      let c := flat_map (split_on ",") (words s) in
      if negb (Nat.eqb (List.length c) 4) then Raise VdtTypeError
      else let* r := floats c in Ok (YList r)
    | _ => Raise AttributeError
    end.

  (** lines 278-307 *)
  Definition eval_or (s : string) : yval := match eval s with Some v => v | None => YStr s end.
  Definition is_interval (value : yval) : res yval :=
    let value := match value with YStr s => YStr (strip_set is_bracket s) | v => v end in
    if prints_none value then Ok YNone else
    let* s := match value with
              | YStr s => Ok s
              | YList l => let* ss := strings l in Ok (join_with "," ss)
              | _ => Raise VdtTypeError
              end in
    let s := drop_close (drop_open s) in
    match split_on "," s with
    | [a; b] => Ok (YTuple [eval_or a; eval_or b])
    | [a; b; c] =>
      if nonempty c then
        match search_bounds c with
        | Some m => Ok (YTuple [eval_or a; eval_or b; YStr m])
        | None => Raise VdtTypeError
        end
      else Ok (YTuple [eval_or a; eval_or b])
    | _ => Raise VdtTypeError
    end.

  (** lines 329-346 *)
  Definition is_path (default expand value : yval) : res yval :=
    if prints_none value then Ok YNone else
    let value := match value with YStr "" => default | _ => value end in
    match value with
    | YStr s => if truthy_val expand then Ok (YStr (expandvars s)) else Ok value
    | _ => Ok value
    end.

  (** lines 349-362: only ValueError is caught *)
  Definition is_pydatetime (default : yval) (fmt : string) (value : yval) : res yval :=
    if prints_none value then Ok YNone else
    let value := match value with YStr "" => default | _ => value end in
    match value with
    | YStr s => match strptime s fmt with Some d => Ok d | None => Raise ValidateError end
    | _ => Raise TypeError
    end.

  (** lines 401-409; float() of something that is not a string or a number is a TypeError *)
  Definition float_of (v : yval) : res fl :=
    match v with
    | YStr s => match to_float s with Some x => Ok x | None => Raise ValueError end
    | YNum x => Ok x
    | YBool b => Ok (Some (if b then 1 else 0)%Q)
    | _ => Raise TypeError
    end.
  Definition is_timedelta (value : yval) : res yval :=
    if prints_none value then Ok YNone else
    match value with
    | YList [x; u] =>
      let* f := float_of x in
      match pd_timedelta f u with Some d => Ok d | None => Raise ValueError end
    | _ => Raise ValidateError
    end.

  (** lines 438-447: pandas has no function called time_range.  (Simplification: eval fails with
      NameError.) *)
  Definition is_daterange (value : yval) : res yval :=
    if prints_none value then Ok YNone else
    match value with
    | YList [_; _; _] => Raise AttributeError
    | YList [_; _; _; c] =>
      match c with
      | YStr s => match eval s with Some _ => Raise AttributeError | None => Raise NameError end
      | _ => Raise TypeError
      end
    | _ => Raise ValidateError
    end.

  (** lines 461-470 *)
  Definition is_eval (unchanged value : yval) : res yval :=
    match eval (str_val value) with
    | Some v => Ok v
    | None => if truthy_val unchanged then Ok value else Raise VdtTypeError
    end.

  (** lines 496-503: numbers only can be compared and divided *)
  Definition above_one (v : yval) : res bool :=
    match num_of v with Some x => Ok (fltb (Some 1%Q) x) | None => Raise TypeError end.
  Definition over_256 (v : yval) : res yval :=
    match num_of v with Some x => Ok (YNum (option_map (fun q => (q / 256)%Q) x)) | None => Raise TypeError end.
  Definition check256 (as256 value : yval) : res yval :=
    match value with
    | YStr _ => Ok value
    | YList l | YTuple l =>
      let* b := match as256 with
                | YNone => let* bs := map_res above_one (firstn 3 l) in Ok (existsb (fun b => b) bs)
                | v => Ok (truthy_val v)
                end in
      if b : bool then let* l' := map_res over_256 (firstn 3 l) in Ok (YTuple (l' ++ skipn 3 l)%list)
      else Ok value
    | _ =>
      match as256 with
      | YNone => Raise TypeError
      | v => if truthy_val v then Raise TypeError else Ok value
      end
    end.
  (** lines 473-493: any failure is caught *)
  Definition color_of (alpha as256 value : yval) : option yval :=
    match check256 as256 value with Ok v => converter (truthy_val alpha) v | Raise _ => None end.
  Definition is_color (alpha as256 value : yval) : res yval :=
    if prints_none value then Ok YNone else
    match color_of alpha as256 value with
    | Some c => Ok c
    | None =>
      match value with
      | YStr s =>
        match eval s with
        | Some v => match color_of alpha as256 v with Some c => Ok c | None => Raise VdtTypeError end
        | None => Raise VdtTypeError
        end
      | _ => Raise VdtTypeError
      end
    end.

  (** lines 505-508: [^\s*(\w+\(.*\))\s*$], [^\s*(\{.*\})\s*$], [^\s*(\w+)\s*=\s*(.+)\s*$] of a
      text without blanks at its ends.  [.] is not a newline. *)
  Definition not_newline (c : ascii) : bool := negb (Ascii.eqb c (ascii_of_nat 10)).
  Fixpoint last_char (s : string) : option ascii :=
    match s with "" => None | String c "" => Some c | String _ s' => last_char s' end.
  Definition ends_with (c : ascii) (s : string) : bool := match last_char s with Some d => Ascii.eqb c d | None => false end.
  Definition m_funccall (s : string) : bool :=
    let (w, r) := span_word s in
    nonempty w && match r with String c r' => Ascii.eqb c "(" && ends_with ")" r' && all_chars not_newline r' | "" => false end.
  Definition m_acc (s : string) : bool :=
    match s with String c r => Ascii.eqb c "{" && ends_with "}" r && all_chars not_newline r | "" => false end.
  Definition m_set (s : string) : bool :=
    let (w, r) := span_word s in
    nonempty w && match lstrip r with
                  | String c r' => Ascii.eqb c "=" && (let t := lstrip r' in nonempty t && all_chars not_newline t)
                  | "" => false
                  end.
  Definition isdict (v : yval) : bool := match v with YOther n => dictobj n | _ => false end.
  (** lines 511-556.  [empty]: the empty dictionary *)
  Definition is_dict (empty value : yval) : res yval :=
    if prints_none value then Ok YNone else
    if isdict value then Ok value else
    let* s := match value with
              | YList l => let* ss := strings l in Ok (join_with ", " ss)
              | YStr s => Ok s
              | _ => Raise AttributeError
              end in
    let s := strip s in
    if String.eqb s "" then Ok empty else
    let ev t := match eval t with
                | Some v => if isdict v then Ok v else Raise VdtTypeError
                | None => Raise VdtTypeError
                end in
    if m_funccall s || m_acc s then ev s
    else if m_set s then ev ("dict(" ++ s ++ ")") else Raise VdtTypeError.
End scalar.
