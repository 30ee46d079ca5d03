(** Model of _walker_set_boolean_false_by_default_, xoa/cfgm.py:1931-1943, used by
    ConfigManager.__init__ (lines 786-792), and of the parsing of a specification by configobj
    (Validator._parse_check).

    Simplifications: texts without quotes, and parameters without parentheses (no list(...)). *)
From Verif Require Export ValScalar.
Open Scope string_scope.

(** Text before and after the first character [c] *)
Fixpoint cut (c : ascii) (s : string) : option (string * string) :=
  match s with
  | "" => None
  | String a s' => if Ascii.eqb a c then Some ("", s') else match cut c s' with Some (x, y) => Some (String a x, y) | None => None end
  end.
(** Text before the last one *)
Fixpoint cut_last (c : ascii) (s : string) : option string :=
  match s with
  | "" => None
  | String a s' => match cut_last c s' with Some x => Some (String a x) | None => if Ascii.eqb a c then Some "" else None end
  end.
(** A parameter, once it is separated from the others: positional or keyword *)
Inductive param := Pos (v : string) | Key (k v : string).
Definition is_alpha_ (c : ascii) : bool :=
  let n := nat_of_ascii c in ((65 <=? n) && (n <=? 90) || (97 <=? n) && (n <=? 122))%nat || Ascii.eqb c "_".
Definition is_alnum_ (c : ascii) : bool := is_alpha_ c || (let n := nat_of_ascii c in (48 <=? n) && (n <=? 57))%nat.
Definition is_id (s : string) : bool := match s with "" => false | String c s' => is_alpha_ c && all_chars is_alnum_ s' end.
Definition no_eq (s : string) : bool := all_chars (fun c => negb (Ascii.eqb c "=")) s.
Definition param_of (s : string) : option param :=
  let s := strip s in
  if no_eq s then if nonempty s then Some (Pos s) else None
  else match cut "=" s with
       | Some (k, v) => let k := rstrip k in let v := lstrip v in
                        if is_id k && nonempty v && no_eq v then Some (Key k v) else None
       | None => None
       end.
(** Parameters: separated by commas, with blanks after them and before the next one; nothing, or
    blanks, may follow the last comma, and the text does not start with a blank *)
Fixpoint params_of (l : list string) : option (list param) :=
  match l with
  | [] => Some []
  | [s] => if nonempty (strip s) then match param_of s with Some p => Some [p] | None => None end else Some []
  | s :: l' => match param_of s, params_of l' with Some p, Some ps => Some (p :: ps) | _, _ => None end
  end.
Definition parse_params (s : string) : option (list param) :=
  match s with
  | String c _ => if is_space c then None else params_of (split_on "," s)
  | "" => Some []
  end.
Definition positional (l : list param) : list string := flat_map (fun p => match p with Pos v => [v] | Key _ _ => [] end) l.
Definition keywords (l : list param) : dict string := fold_left (fun d p => match p with Key k v => dset d k v | Pos _ => d end) l [].
(** Validator._parse_check *)
Record check := mkcheck { c_name : string; c_args : list string; c_kwargs : dict string; c_default : option string }.
Definition parse_check (s : string) : res check :=
  match s with
  | String c s' =>
    match cut "(" s' with
    | Some (n, rest) =>
      match cut_last ")" rest with
      | Some ps => match parse_params ps with
                   | Some l => let kw := keywords l in Ok (mkcheck (String c n) (positional l) (ddel kw "default") (dget kw "default"))
                   | None => Raise ValidateError (* VdtParamError *)
                   end
      | None => Ok (mkcheck s [] [] None)
      end
    | None => Ok (mkcheck s [] [] None)
    end
  | "" => Ok (mkcheck "" [] [] None)
  end.

(** [s[:-1]] *)
Fixpoint drop_last (s : string) : string := match s with "" => "" | String c "" => "" | String c s' => String c (drop_last s') end.
(** lines 1935-1943 *)
Definition set_false (s : string) : res string :=
  let* c := parse_check s in
  if String.eqb (c_name c) "boolean" && match c_default c with None => true | Some _ => false end then
    match c_args c, c_kwargs c with
    | [], [] => Ok (s ++ "(default=False)")
    | _, _ => Ok (drop_last s ++ ", default=False)")
    end
  else Ok s.
(** The options of a section *)
Fixpoint set_false_all (d : dict string) : res (dict string) :=
  match d with
  | [] => Ok []
  | (k, s) :: d' => let* s' := set_false s in let* r := set_false_all d' in Ok ((k, s') :: r)
  end.
