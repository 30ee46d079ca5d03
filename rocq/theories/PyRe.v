(** Python [str] helpers and the fragment of [re] used by xoa, on ASCII strings. *)
From Verif Require Export PyDict.
Open Scope nat_scope.

(** [\w] on ASCII characters *)
Definition is_word (c : ascii) : bool :=
  let n := nat_of_ascii c in
  ((48 <=? n) && (n <=? 57)) || ((65 <=? n) && (n <=? 90)) || ((97 <=? n) && (n <=? 122)) || (n =? 95).
Fixpoint all_word (s : string) : bool :=
  match s with EmptyString => true | String c s' => is_word c && all_word s' end.
(** Longest prefix of word characters, and the rest *)
Fixpoint span_word (s : string) : string * string :=
  match s with
  | String c s' => if is_word c then let (a, b) := span_word s' in (String c a, b) else (EmptyString, s)
  | EmptyString => (EmptyString, EmptyString)
  end.
Definition nonempty (s : string) : bool := match s with EmptyString => false | _ => true end.
Definition newline : string := String (ascii_of_nat 10) EmptyString.
(** [[a-z]] with [re.I] *)
Definition is_letter (c : ascii) : bool :=
  let n := nat_of_ascii c in ((65 <=? n) && (n <=? 90)) || ((97 <=? n) && (n <=? 122)).
(** [[\w ]] *)
Definition is_word_sp (c : ascii) : bool := is_word c || Ascii.eqb c " "%char.
Fixpoint all_chars (ok : ascii -> bool) (s : string) : bool :=
  match s with EmptyString => true | String c s' => ok c && all_chars ok s' end.

Definition upper_ascii (c : ascii) : ascii :=
  let n := nat_of_ascii c in
  if (97 <=? n) && (n <=? 122) then ascii_of_nat (n - 32) else c.
(** [s.upper()] *)
Fixpoint upper (s : string) : string :=
  match s with EmptyString => EmptyString | String c s' => String (upper_ascii c) (upper s') end.
(** [s.capitalize()] *)
Definition capitalize (s : string) : string :=
  match s with EmptyString => EmptyString | String c s' => String (upper_ascii c) (lower s') end.
(** [s.replace(a, b)] for single characters *)
Fixpoint replace_char (a b : ascii) (s : string) : string :=
  match s with
  | EmptyString => EmptyString
  | String c s' => String (if Ascii.eqb c a then b else c) (replace_char a b s')
  end.
(** [p in s] for strings *)
Fixpoint contains (s p : string) : bool :=
  startswith s p || match s with EmptyString => false | String _ s' => contains s' p end.

(** *** Regular expressions: sequences of elements, ignoring case.
    The list of successes, in the order in which a backtracking matcher tries them. *)
Inductive relem :=
| RLit (s : string)                       (* literal characters, not captured *)
| RPlus (ok : ascii -> bool)              (* captured [class]+, greedy *)
| RAlt (l : list string).                 (* captured (a|b|...) *)
(** The prefix of [s] equal to [p] up to case, and the rest *)
Fixpoint strip_ci (p s : string) : option (string * string) :=
  match p, s with
  | EmptyString, _ => Some (EmptyString, s)
  | String a p', String b s' =>
    if Ascii.eqb (lower_ascii a) (lower_ascii b)
    then match strip_ci p' s' with Some (x, r) => Some (String b x, r) | None => None end
    else None
  | _, _ => None
  end.
(** The ways of taking one or more characters of the class, the longest first *)
Fixpoint splits (ok : ascii -> bool) (s : string) : list (string * string) :=
  match s with
  | EmptyString => []
  | String c s' =>
    if ok c then map (fun ab => (String c (fst ab), snd ab)) (splits ok s') ++ [(String c EmptyString, s')]
    else []
  end.
Fixpoint rx (es : list relem) (s : string) : list (list string) :=
  match es with
  | [] => [[]]
  | RLit l :: es' => match strip_ci l s with Some (_, s') => rx es' s' | None => [] end
  | RPlus ok :: es' => flat_map (fun ab => map (cons (fst ab)) (rx es' (snd ab))) (splits ok s)
  | RAlt l :: es' =>
    flat_map (fun p => match strip_ci p s with
                       | Some (x, s') => map (cons x) (rx es' s') | None => [] end) l
  end.
(** [re.compile(...).match(s)]: anchored at the beginning only *)
Definition re_match (es : list relem) (s : string) : option (list string) := hd_error (rx es s).
