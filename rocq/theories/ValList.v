(** Model of the listing of the validation functions: xoa/cfgm.py:635-638 (VALIDATOR_TYPES) and
    681-712 (print_validation_functions), with the fnmatch module of Python it calls
    (fnmatch.translate and a full match; file names are not case-folded on POSIX systems).

    Simplifications: names are made of bytes; the signature of a function and its cleaned
    documentation are arguments; empty ranges of a set, that fnmatch removes, match nothing
    here; consecutive stars, that fnmatch compresses, are kept. *)
From Verif Require Export ValRegistry.
Open Scope string_scope.

(** ** Lines 635-638: VALIDATOR_TYPES *)
Fixpoint insert (x : string) (l : list string) : list string :=
  match l with
  | [] => [x]
  | y :: l' => if String.leb x y then x :: l else y :: insert x l'
  end.
Definition sort (l : list string) : list string := fold_right insert [] l.
Definition types (r : registry) : list string := sort (dkeys r).

(** ** fnmatch *)
Inductive tok := TStar | TAny | TChar (c : ascii) | TSet (neg : bool) (body : string).
Fixpoint until_close (s : string) : option (string * string) :=
  match s with
  | "" => None
  | String c r => if (c =? "]")%char then Some ("", r) else
                  match until_close r with Some (b, r') => Some (String c b, r') | None => None end
  end.
(** What follows a "[" *)
Definition split_set (s : string) : option (bool * string * string) :=
  let '(neg, s) := match s with String c r => if (c =? "!")%char then (true, r) else (false, s) | "" => (false, s) end in
  match s with
  | "" => None
  | String c r => match until_close r with Some (b, r') => Some (neg, String c b, r') | None => None end
  end.
Fixpoint tokens (n : nat) (p : string) : list tok :=
  match n, p with
  | S n', String c p' =>
    if (c =? "*")%char then TStar :: tokens n' p'
    else if (c =? "?")%char then TAny :: tokens n' p'
    else if (c =? "[")%char then
      match split_set p' with
      | Some (neg, body, rest) => TSet neg body :: tokens n' rest
      | None => TChar c :: tokens n' p'
      end
    else TChar c :: tokens n' p'
  | _, _ => []
  end.
Definition within (a b c : ascii) : bool := ((nat_of_ascii a <=? nat_of_ascii c) && (nat_of_ascii c <=? nat_of_ascii b))%nat.
Fixpoint in_items (s : string) (c : ascii) : bool :=
  match s with
  | "" => false
  | String a r =>
    match r with
    | String m (String b r') => if (m =? "-")%char then (within a b c || in_items r' c)%bool else ((c =? a)%char || in_items r c)%bool
    | _ => ((c =? a)%char || in_items r c)%bool
    end
  end.
Definition tok_ok (t : tok) (c : ascii) : bool :=
  match t with
  | TStar => false
  | TAny => true
  | TChar a => (c =? a)%char
  | TSet neg body => xorb neg (in_items body c)
  end.
Fixpoint gmatch (ts : list tok) (s : string) : bool :=
  match ts with
  | [] => match s with "" => true | _ => false end
  | TStar :: ts' =>
    (fix star (s : string) : bool := (gmatch ts' s || match s with "" => false | String _ r => star r end)%bool) s
  | t :: ts' => match s with "" => false | String c r => (tok_ok t c && gmatch ts' r)%bool end
  end.
Definition fnmatch (name pattern : string) : bool := gmatch (tokens (String.length pattern) pattern) name.

(** ** Lines 681-712 *)
Fixpoint first_line (s : string) : string :=
  match s with "" => "" | String c r => if (c =? "010")%char then "" else String c (first_line r) end.
Section listing.
  Variable signature : func -> string.
  Variable getdoc : func -> option string.
  Definition shown_entry (name : string) (f : func) : string :=
    name ++ signature f ++ match getdoc f with
                           | None | Some "" => ""
                           | Some doc => String "010" "" ++ "    " ++ first_line doc
                           end.
  (** the texts that are printed, in order *)
  Fixpoint listing (r : registry) (pattern : string) (names : list string) : res (list string) :=
    match names with
    | [] => Ok []
    | name :: names' =>
      match dget r name with
      | None => Raise KeyError
      | Some e => match e_base e with
                  | None => Raise KeyError
                  | Some f =>
                    let* l := listing r pattern names' in
                    Ok (if fnmatch name pattern then shown_entry name f :: l else l)
                  end
      end
    end.
  Definition print_validation_functions (r : registry) (pattern : string) : res (list string) := listing r pattern (types r).
End listing.
