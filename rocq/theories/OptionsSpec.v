(** Specification vocabulary for C25. *)
From Verif Require Export Options.
Open Scope nat_scope.

(** Documented options, with their type and default value *)
Definition documented (sec opt : string) : option checker :=
  if String.eqb sec "cf" then
    if String.eqb opt "accessors" || String.eqb opt "cache" then Some (CBool true) else None
  else if String.eqb sec "plot" then
    if String.eqb opt "cmapdiv" then Some (CStr "cmo.balance")
    else if String.eqb opt "cmappos" then Some (CStr "cmo.amp")
    else if String.eqb opt "cmapneg" then Some (CStr "cmo.tempo_r")
    else if String.eqb opt "cmapcyc" then Some (CStr "cmo.phase")
    else None
  else None.
(** Conversion of a value to the type of its option *)
Definition converted (sec opt : string) (v : oval) : oval :=
  match documented sec opt with Some c => check c v | None => v end.
(** The option of a configuration *)
Definition opt_of (o : options) (sec opt : string) : option oval :=
  match dget o sec with Some s => dget s opt | None => None end.
(** Value of an option in a new session: user file, then default value *)
Definition session_default (user : options) (sec opt : string) : option oval :=
  match opt_of user sec opt with
  | Some v => Some (converted sec opt v)
  | None => match documented sec opt with Some c => Some (default_of c) | None => None end
  end.
(** Option designated by a keyword: "section.option", or the common section *)
Definition designated (section : option string) (name : string) : option (string * string) :=
  match re_option name with
  | Some so => Some so
  | None => match section with Some s => Some (s, name) | None => None end
  end.
(** The value given to an option by the keywords: the last one *)
Fixpoint given (section : option string) (opts : list (string * oval)) (sec opt : string) : option oval :=
  match opts with
  | [] => None
  | (name, v) :: opts' =>
    match given section opts' sec opt with
    | Some w => Some w
    | None =>
      match designated section name with
      | Some (s, o) => if String.eqb s sec && String.eqb o opt then Some v else None
      | None => None
      end
    end
  end.
Definition answer_of (v : option oval) : answer := match v with Some v => Value v | None => ErrorObject end.
(** States reached by a session *)
Definition reachable (user : options) (st : state) : Prop := exists p, fst (run user p init) = st.
(** [get_option(sec, opt)] in a state *)
Definition seen (user : options) (st : state) (sec opt : string) : res answer :=
  snd (get_option user sec (Some opt) st).
