(** Vocabulary of the properties of the [formula_terms] attribute (C42). *)
From Coq Require Import List String Ascii.
From Verif Require Import PyRe.
Import ListNotations.
Open Scope string_scope.

Definition blank (s : string) : Prop := all_chars is_space s = true.
Definition word (s : string) : Prop := s <> "" /\ all_chars is_word s = true.

(** The attribute "t1: v1 t2: v2 ..." with any white space around the colons and between the pairs *)
Inductive written : list (string * string) -> string -> Prop :=
| w_one t v a b : word t -> word v -> blank a -> blank b ->
    written [(t, v)] (t ++ a ++ ":" ++ b ++ v)
| w_cons t v a b sep ps s : word t -> word v -> blank a -> blank b -> blank sep -> sep <> "" ->
    written ps s -> written ((t, v) :: ps) (t ++ a ++ ":" ++ b ++ v ++ sep ++ s).

(** White space between two word characters *)
Definition gap_at (s a : string) (w1 : ascii) (x : string) (w2 : ascii) (b : string) : Prop :=
  s = a ++ String w1 (x ++ String w2 b) /\
  is_word w1 = true /\ is_word w2 = true /\ x <> "" /\ blank x.
Definition has_gap (s : string) : Prop := exists a w1 x w2 b, gap_at s a w1 x w2 b.
(** A string cut at all its gaps *)
Inductive pieces : list string -> string -> Prop :=
| p_last s : ~ has_gap s -> pieces [s] s
| p_cons a w1 x w2 b l : is_word w1 = true -> is_word w2 = true -> x <> "" -> blank x ->
    ~ has_gap (a ++ String w1 "") -> pieces l (String w2 b) ->
    pieces ((a ++ String w1 "") :: l) (a ++ String w1 (x ++ String w2 b)).

Fixpoint colons (s : string) : nat :=
  match s with
  | "" => 0
  | String c s' => (if Ascii.eqb c ":" then 1 else 0) + colons s'
  end.
(** "key : value" with exactly one colon *)
Definition item_of (s k v : string) : Prop :=
  exists x y, s = x ++ ":" ++ y /\ colons x = 0 /\ colons y = 0 /\ k = rstrip x /\ v = lstrip y.

(** The last value bound to a key in a list of pairs *)
Fixpoint last_binding (ps : list (string * string)) (k : string) : option string :=
  match ps with
  | [] => None
  | (k', v) :: ps' =>
    match last_binding ps' k with
    | Some r => Some r
    | None => if String.eqb k k' then Some v else None
    end
  end.

(** *** Sigma arrays of a dataset (C45) *)
From Verif Require Import SGLoc FormulaTerms.
(** The data variable meant by a name: the first one equal up to case *)
Definition resolves (vars : list string) (name v : string) : Prop :=
  exists l1 l2, vars = (l1 ++ v :: l2)%list /\ lower v = lower name /\ forall u, In u l1 -> lower u <> lower name.
(** Term of the formula (up to case) and argument of the conversion functions *)
Definition term_args : list (string * string) :=
  [("s", "sig"); ("c", "cs"); ("eta", "ssh"); ("depth", "bathy"); ("depth_c", "hc"); ("a", "thetas"); ("b", "thetab")].
(** The types accepted in practice *)
Definition accepted_types : list string :=
  ["atmosphere_sigma_coordinate"; "ocean_sigma_coordinate"; "ocean_s_coordinateocean_s_coordinate_g1";
   "ocean_s_coordinate_g2"].
Definition good_pair (vars : list string) (ps : string * string) (va : string * string) : Prop :=
  resolves vars (snd ps) (fst va) /\ In (lower (fst ps), snd va) term_args.
(** A well declared array: standard name of type [ty] at [loc], formula terms naming the
    variables (paired with the arguments) [vas] *)
Definition declared (sg : sgloc) (vars : list string) (s : sigarr)
    (loc : option string) (ty : string) (vas : list (string * string)) : Prop :=
  exists sn ft ps, dget (s_attrs s) "standard_name" = Some sn /\
    parse_attr sg "standard_name" sn = Ok (ty, loc) /\ In ty accepted_types /\
    dget (s_attrs s) "formula_terms" = Some ft /\ written ps ft /\ NoDup (map fst ps) /\
    Forall2 (good_pair vars) ps vas.
(** What the array [s] of type [ty] says of the variables: its own name is "sig", the special
    key "type" is its type, then the terms (the last one wins) *)
Definition bindings (s : sigarr) (ty : string) (vas : list (string * string)) : list (string * string) :=
  (s_name s, "sig") :: ("type", ty) :: vas.
(** The last array at a location *)
Fixpoint last_at (loc : option string) (l : list (sigarr * (option string * string * list (string * string))))
  : option (sigarr * (string * list (string * string))) :=
  match l with
  | [] => None
  | (s, (loc', ty, vas)) :: l' =>
    match last_at loc l' with
    | Some r => Some r
    | None => if oeqb loc loc' then Some (s, (ty, vas)) else None
    end
  end.

(** Why an array is refused, and the exception *)
Inductive refused (sg : sgloc) (vars : list string) (s : sigarr) : exn -> Prop :=
| r_nostd : dget (s_attrs s) "standard_name" = None -> refused sg vars s XoaSigmaError
| r_type sn ty loc : dget (s_attrs s) "standard_name" = Some sn ->
    parse_attr sg "standard_name" sn = Ok (ty, loc) -> ~ In ty accepted_types -> refused sg vars s XoaSigmaError
| r_noterms sn ty loc : dget (s_attrs s) "standard_name" = Some sn ->
    parse_attr sg "standard_name" sn = Ok (ty, loc) -> In ty accepted_types ->
    dget (s_attrs s) "formula_terms" = None -> refused sg vars s XoaSigmaError
| r_malformed sn ty loc ft l p : dget (s_attrs s) "standard_name" = Some sn ->
    parse_attr sg "standard_name" sn = Ok (ty, loc) -> In ty accepted_types ->
    dget (s_attrs s) "formula_terms" = Some ft -> pieces l ft -> In p l -> colons p <> 1 ->
    refused sg vars s XoaSigmaError
| r_variable sn ty loc ft ps vas t v ps' : dget (s_attrs s) "standard_name" = Some sn ->
    parse_attr sg "standard_name" sn = Ok (ty, loc) -> In ty accepted_types ->
    dget (s_attrs s) "formula_terms" = Some ft -> written (ps ++ (t, v) :: ps')%list ft ->
    NoDup (map fst (ps ++ (t, v) :: ps')) -> Forall2 (good_pair vars) ps vas ->
    (forall u, In u vars -> lower u <> lower v) -> refused sg vars s AttributeError
| r_term sn ty loc ft ps vas t v u ps' : dget (s_attrs s) "standard_name" = Some sn ->
    parse_attr sg "standard_name" sn = Ok (ty, loc) -> In ty accepted_types ->
    dget (s_attrs s) "formula_terms" = Some ft -> written (ps ++ (t, v) :: ps')%list ft ->
    NoDup (map fst (ps ++ (t, v) :: ps')) -> Forall2 (good_pair vars) ps vas ->
    resolves vars v u -> ~ In (lower t) (map fst term_args) -> refused sg vars s XoaSigmaError.

(** Arguments that a conversion function takes *)
Definition takes (ty : string) (args : list string) : Prop :=
  match ty with
  | "ocean_sigma_coordinate" => (forall a, In a args <-> In a ["sig"; "ssh"; "bathy"])
  | "ocean_s_coordinate_g2" => In "sig" args /\ In "ssh" args /\ In "bathy" args /\ In "hc" args
  | _ => False
  end.
