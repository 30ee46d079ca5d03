(** Model of the validators of dates of xoa/cfgm.py: is_pydatetime (347-360), is_cdtime (374-389), is_timestamp
    (392-398), is_timedelta (401-409), is_timedelta64 (412-420), is_datetime (423-428), is_datetime64 (431-435),
    is_daterange (438-447), is_daterange64 (450-458).  ASCII texts; the default format of is_pydatetime. *)
From Verif Require Export Opt2Rst Validators.
From Coq Require Export ZArith.
Open Scope string_scope.

(** ** datetime.datetime.strptime(text, "%Y-%m-%dT%H:%M:%S") of CPython *)
Definition digit_in (lo hi : nat) (c : ascii) : bool := ((48 + lo <=? nat_of_ascii c) && (nat_of_ascii c <=? 48 + hi))%nat.
Definition d09 : rex := Cls (digit_in 0 9).
Definition one (c : ascii) : rex := Cls (Ascii.eqb c).
(** Lib/_strptime.py, TimeRE: the expressions of the directives, in their order of alternatives *)
Definition re_Y : rex := Cat d09 (Cat d09 (Cat d09 d09)).
Definition re_m : rex := Alt (Cat (one "1") (Cls (digit_in 0 2))) (Alt (Cat (one "0") (Cls (digit_in 1 9))) (Cls (digit_in 1 9))).
Definition re_d : rex :=
  Alt (Cat (one "3") (Cls (digit_in 0 1))) (Alt (Cat (Cls (digit_in 1 2)) d09) (Alt (Cat (one "0") (Cls (digit_in 1 9)))
    (Alt (Cls (digit_in 1 9)) (Cat (one " ") (Cls (digit_in 1 9)))))).
Definition re_H : rex := Alt (Cat (one "2") (Cls (digit_in 0 3))) (Alt (Cat (Cls (digit_in 0 1)) d09) d09).
Definition re_M : rex := Alt (Cat (Cls (digit_in 0 5)) d09) d09.
Definition re_S : rex := Alt (Cat (one "6") (Cls (digit_in 0 1))) (Alt (Cat (Cls (digit_in 0 5)) d09) d09).
(** [int(text)] of the digits, a space before them allowed *)
Definition int_of (s : string) : Z :=
  fold_left (fun n c => if digit_in 0 9 c then (10 * n + (Z.of_nat (nat_of_ascii c) - 48))%Z else n) (list_ascii_of_string s) 0%Z.
(** The matches of directives separated by characters, with their groups.  The expression is compiled with IGNORECASE *)
Definition same_case (c : ascii) : rex := Cls (fun x => Ascii.eqb (lower_ascii x) (lower_ascii c)).
Fixpoint groups (l : list (rex * option ascii)) (s : string) : list (list string * string) :=
  match l with
  | [] => [([], s)]
  | (r, sep) :: l' =>
    flat_map (fun xr =>
      flat_map (fun yr => map (fun gr => (fst xr :: fst gr, snd gr)) (groups l' (snd yr)))
               (match sep with Some c => ways (same_case c) (snd xr) | None => [("", snd xr)] end)) (ways r s)
  end.
Definition iso : list (rex * option ascii) :=
  [(re_Y, Some "-"%char); (re_m, Some "-"%char); (re_d, Some "T"%char); (re_H, Some ":"%char); (re_M, Some ":"%char); (re_S, None)].
Record datetime := mkdt { year : Z; month : Z; day : Z; hour : Z; minute : Z; second : Z }.
(** The checks of [datetime(...)] *)
Definition leap (y : Z) : bool := ((y mod 4 =? 0) && (negb (y mod 100 =? 0) || (y mod 400 =? 0)))%Z.
Definition days_in_month (y m : Z) : Z :=
  (if m =? 2 then if leap y then 29 else 28 else if (m =? 4) || (m =? 6) || (m =? 9) || (m =? 11) then 30 else 31)%Z.
Definition within (a x b : Z) : bool := ((a <=? x) && (x <=? b))%Z.
Definition new_datetime (y mo d h mi s : Z) : res datetime :=
  if within 1 y 9999 && within 1 mo 12 && within 1 d (days_in_month y mo) && within 0 h 23 && within 0 mi 59 && within 0 s 59
  then Ok (mkdt y mo d h mi s) else Raise ValueError.
(** The first match; text after it is an error *)
Definition strptime (s : string) : res datetime :=
  match groups iso s with
  | ([y; mo; d; h; mi; sc], "") :: _ => new_datetime (int_of y) (int_of mo) (int_of d) (int_of h) (int_of mi) (int_of sc)
  | _ => Raise ValueError
  end.

(** ** The validators *)
(** lines 347-360; VdtDateTimeError is a ValidateError.  [None]: the value None *)
Definition is_pydatetime (value default : yval) : res (option datetime) :=
  if prints_none value then Ok None else
  match (match value with YStr "" => default | v => v end) with
  | YStr s => match strptime s with Ok d => Ok (Some d) | Raise ValueError => Raise ValidateError | Raise e => Raise e end
  | _ => Raise TypeError                      (* strptime() argument 1 must be str *)
  end.
Section External.
(** Times of cdtime, [cdtime.s2c], and the comparisons of a text with a time *)
Variables (T : Type) (s2c : string -> option T) (below above : string -> T -> res bool).
Inductive cdresult := CText (s : string) | CTime (t : T).
(** lines 374-389.  [val]: not the value, but the variable of the module that is left by the loop of lines 636-643
    [val_global]; the value: its text *)
Definition is_cdtime (val_global : string) (value : string) (min max : option string) : res cdresult :=
  let value := strip value in
  match value with
  | "" => Raise IndexError
  | String c _ =>
    if negb (digit_in 0 9 c) then Ok (CText (upper value)) else
    match s2c value with
    | None => Raise VdtTypeError
    | Some t =>
      let bound (cmp : string -> T -> res bool) (m : option string) : res unit :=
        match m with
        | None => Ok tt
        | Some m => match s2c m with Some b => let* x := cmp val_global b in if x then Raise VdtValueError else Ok tt | None => Raise ValueError end
        end in
      let* _ := bound below min in
      let* _ := bound above max in
      Ok (CTime t)
    end
  end.
(** lines 438-447: pandas has no time_range.  [eval_]: the fourth item *)
Definition is_daterange (eval_ : yval -> res yval) (value : yval) : res (option T) :=
  if prints_none value then Ok None else
  match value with
  | YList ([_; _; _]) => Raise AttributeError
  | YList ([_; _; _; c]) => let* _ := eval_ c in Raise AttributeError
  | _ => Raise ValidateError
  end.
(** lines 401-409: [Timedelta]: pandas.Timedelta; [to_float]: float() *)
Definition is_timedelta (to_float : yval -> res Q) (Timedelta : Q -> yval -> res T) (value : yval) : res (option T) :=
  if prints_none value then Ok None else
  match value with
  | YList [x; u] => let* q := to_float x in let* t := Timedelta q u in Ok (Some t)
  | _ => Raise ValidateError
  end.
(** lines 392-398: [Timestamp]: pandas.Timestamp *)
Definition is_timestamp (Timestamp : yval -> res T) (value : yval) : res (option T) :=
  if prints_none value then Ok None else let* t := Timestamp value in Ok (Some t).
(** lines 423-428: [to_py]: the method to_pydatetime.  A timestamp is not written None *)
Definition is_datetime {U} (Timestamp : yval -> res T) (to_py : T -> U) (value : yval) : res (option U) :=
  let* t := is_timestamp Timestamp value in
  match t with None => Ok None | Some t => Ok (Some (to_py t)) end.
(** lines 431-435: [to_64]: the method to_datetime64; None has none *)
Definition is_datetime64 {U} (Timestamp : yval -> res T) (to_64 : T -> U) (value : yval) : res (option U) :=
  if prints_none value then Ok None else
  let* t := is_timestamp Timestamp value in
  match t with None => Raise AttributeError | Some t => Ok (Some (to_64 t)) end.
(** lines 412-420: numpy.timedelta64 refuses a float *)
Definition is_timedelta64 (to_float : yval -> res Q) (value : yval) : res (option T) :=
  if prints_none value then Ok None else
  match value with
  | YList [x; u] => let* _ := to_float x in Raise ValueError
  | _ => Raise ValidateError
  end.
(** lines 450-458: [arange start end unit]: numpy.arange(start, end, dtype="M8[unit]"), with a step of one unit *)
Definition is_daterange64 (arange : yval -> yval -> yval -> res T) (value : yval) : res (option T) :=
  if prints_none value then Ok None else
  match value with
  | YList [a; b; u] => let* r := arange a b u in Ok (Some r)
  | _ => Raise ValidateError
  end.
End External.
