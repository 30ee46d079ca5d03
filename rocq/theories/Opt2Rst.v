(** Model of xoa/cfgm.py:1506-1609 opt2rst, which converts the text of a --help to rst, and of its caller
    ConfigManager.arg_long_help (1348-1398).  ASCII text; the lines of [str.splitlines] are those separated by "\n"
    (the other line boundaries, \r, \f ..., are not modelled). *)
From Verif Require Export PyRe.
From Verif Require Import ValScalar.
Open Scope string_scope.

(** ** Regular expressions with backtracking: the list of (matched, rest), in the order in which [re] tries them *)
Inductive rex := Cls (ok : ascii -> bool) | Eps | Cat (a b : rex) | Alt (a b : rex) | Rep (a : rex).
Definition glue (x : string) (l : list (string * string)) : list (string * string) := map (fun yr => (x ++ fst yr, snd yr)) l.
Fixpoint star (w : string -> list (string * string)) (n : nat) (s : string) : list (string * string) :=
  match n with
  | O => [("", s)]
  | S n' => (flat_map (fun xr => if nonempty (fst xr) then glue (fst xr) (star w n' (snd xr)) else []) (w s) ++ [("", s)])%list
  end.
Fixpoint ways (r : rex) (s : string) : list (string * string) :=
  match r with
  | Eps => [("", s)]
  | Cls ok => match s with String c s' => if ok c then [(String c "", s')] else [] | EmptyString => [] end
  | Cat a b => flat_map (fun xr => glue (fst xr) (ways b (snd xr))) (ways a s)
  | Alt a b => (ways a s ++ ways b s)%list
  | Rep a => star (ways a) (String.length s) s
  end.
Definition chr (c : ascii) : rex := Cls (Ascii.eqb c).
Definition plus (ok : ascii -> bool) : rex := Cat (Cls ok) (Rep (Cls ok)).
Definition opt (r : rex) : rex := Alt r Eps.
(** lines 1526-1536 *)
Definition in_braces (c : ascii) : bool := is_word c || Ascii.eqb c ",".
Definition word_dash (c : ascii) : bool := is_word c || Ascii.eqb c "-".
Definition eq_space (c : ascii) : bool := Ascii.eqb c "=" || Ascii.eqb c " ".
Definition s_param : rex := Alt (Cat (chr "{") (Cat (plus in_braces) (chr "}"))) (plus is_word).
Definition s_sopt : rex := Cat (chr "-") (Cat (plus is_word) (opt (Cat (chr " ") s_param))).
Definition s_lopt : rex := Cat (chr "-") (Cat (chr "-") (Cat (plus word_dash) (opt (Cat (plus eq_space) s_param)))).
Definition s_optsep : rex := Cat (chr ",") (plus (Ascii.eqb " ")).
Definition s_opts : rex := Cat (Alt s_sopt s_lopt) (Rep (Cat s_optsep (Alt s_sopt s_lopt))).
(** [^  (?:  )?(...)(?:  (.+))?$]: groups 1 and 2 *)
Definition s_prefix : rex := Cat (chr " ") (Cat (chr " ") (opt (Cat (chr " ") (chr " ")))).
Definition s_tail (r : string) : list (option string) :=
  match r with
  | EmptyString => [None]
  | String a (String b d) => if Ascii.eqb a " " then if Ascii.eqb b " " then if nonempty d then [Some d] else [] else [] else []
  | _ => []
  end.
Definition re_opt (line : string) : option (string * option string) :=
  hd_error (flat_map (fun p => flat_map (fun xr => map (fun d => (fst xr, d)) (s_tail (snd xr))) (ways s_opts (snd p))) (ways s_prefix line)).
(** line 1538 [^(?:  )?([\w\s]+):(?: (.+))?$]: as the class has no colon, group 1 ends at the first one; its leading
    spaces are stripped by the program *)
Fixpoint at_colon (s : string) : option (string * string) :=
  match s with
  | EmptyString => None
  | String c r => if Ascii.eqb c ":" then Some ("", r) else match at_colon r with Some (a, b) => Some (String c a, b) | None => None end
  end.
Definition word_space (c : ascii) : bool := is_word c || is_space c.
Definition re_sec (line : string) : option (string * option string) :=
  match at_colon line with
  | Some (a, r) =>
    if nonempty a && all_chars word_space a then
      match r with
      | EmptyString => Some (a, None)
      | String c d => if Ascii.eqb c " " && nonempty d then Some (a, Some d) else None
      end
    else None
  | None => None
  end.

(** ** str methods *)
(** [s.title()] *)
Fixpoint title_from (inside : bool) (s : string) : string :=
  match s with
  | EmptyString => ""
  | String c r => String (if inside then lower_ascii c else upper_ascii c) (title_from (is_letter c) r)
  end.
Definition title (s : string) : string := title_from false s.
Definition endswith (s suffix : string) : bool :=
  (String.length suffix <=? String.length s)%nat && String.eqb (sdrop (String.length s - String.length suffix) s) suffix.
(** [os.path.basename] *)
Fixpoint basename_from (cur s : string) : string :=
  match s with EmptyString => cur | String c r => if Ascii.eqb c "/" then basename_from "" r else basename_from (cur ++ String c "") r end.
Definition basename (s : string) : string := basename_from "" s.
Fixpoint splitlines_from (cur s : string) : list string :=
  match s with
  | EmptyString => if nonempty cur then [cur] else []
  | String c r => if Ascii.eqb c (ascii_of_nat 10) then cur :: splitlines_from "" r else splitlines_from (cur ++ String c "") r
  end.
Definition splitlines (s : string) : list string := splitlines_from "" s.
(** [secfmt.format(locals())]: the dictionary is the positional argument 0, so that a field with a name is a KeyError.
    [locals_]: its text.  (Not modelled: fields 0.x, 0[x], conversions.) *)
Fixpoint format_from (locals_ : string) (field : option string) (s : string) : res string :=
  match field, s with
  | None, EmptyString => Ok ""
  | Some _, EmptyString => Raise ValueError
  | None, String c r =>
    if Ascii.eqb c "{" then
      match r with
      | String d r' => if Ascii.eqb d "{" then let* t := format_from locals_ None r' in Ok (String c t) else format_from locals_ (Some "") r
      | EmptyString => Raise ValueError
      end
    else if Ascii.eqb c "}" then
      match r with
      | String d r' => if Ascii.eqb d "}" then let* t := format_from locals_ None r' in Ok (String c t) else Raise ValueError
      | EmptyString => Raise ValueError
      end
    else let* t := format_from locals_ None r in Ok (String c t)
  | Some f, String c r =>
    if Ascii.eqb c "}" then
      match f with
      | EmptyString => let* t := format_from locals_ None r in Ok (locals_ ++ t)
      | String d f' =>
        if String.eqb f "0" then let* t := format_from locals_ None r in Ok (locals_ ++ t)
        else if all_chars (fun c => (48 <=? nat_of_ascii c)%nat && (nat_of_ascii c <=? 57)%nat) f then Raise IndexError else Raise KeyError
      end
    else format_from locals_ (Some (f ++ String c "")) r
  end.
Definition format (locals_ secfmt : string) : res string := format_from locals_ None secfmt.

(** ** The loop of lines 1540-1609 *)
Record st := mkst { out : list string; multi : bool; sec : option string; prog : option string }.
Definition tab : string := String (ascii_of_nat 9) "".
Section Convert.
Variables (locals_ secfmt descname : string).
Definition is_sec (s : st) (n : string) : bool := match sec s with Some x => String.eqb x n | None => false end.
(** lines 1544-1566 *)
Definition section_line (s : st) (a : string) (g2 : option string) : res st :=
  let name := strip (title a) in
  match (if String.eqb name "Usage" then g2 else None) with
  | Some u =>
    let usage := strip u in
    let* p := match prog s with
              | Some p => Ok p
              | None => match words usage with w :: _ => Ok (basename w) | [] => Raise IndexError end
              end in
    let* f := format locals_ secfmt in
    Ok (mkst (out s ++ [".. program:: " ++ p ++ newline; f; newline ++ tab ++ ".. code-block:: bash" ++ newline ++ newline ++ tab ++ tab ++ usage]%string)%list
             true (Some name) (Some p))
  | None =>
    let* f := format locals_ secfmt in
    match g2 with
    | Some d => Ok (mkst (out s ++ [f; ""; ""; tab ++ d]%string)%list true (Some name) (prog s))
    | None => Ok (mkst (out s ++ [f; ""])%list (multi s) (Some name) (prog s))
    end
  end.
(** lines 1568-1607 *)
Definition other_line (s : st) (line : string) : res st :=
  match re_opt line with
  | Some (g1, g2) =>
    Ok (mkst (out s ++ [""; tab ++ ".. cmdoption:: " ++ g1; ""]%string ++ match g2 with Some d => [tab ++ tab ++ strip d]%string | None => [] end)%list
             true (sec s) (prog s))
  | None =>
    if (match sec s with Some n => nonempty n && String.eqb (lower n) "positional arguments" | None => false end) && startswith line "  " then
      match words line with
      | [] => Raise IndexError
      | w :: ws => Ok (mkst (out s ++ [""; tab ++ ".. cmdoption:: " ++ w; ""]%string ++ match ws with [] => [] | _ => [tab ++ tab ++ join_with " " ws]%string end)%list
                            true (sec s) (prog s))
      end
    else if multi s && nonempty (strip line) && startswith line "   " then
      Ok (mkst (out s ++ [tab ++ tab ++ (if is_sec s "Usage" then tab else "") ++ strip line]%string)%list (multi s) (sec s) (prog s))
    else
      let o := (out s ++ [(if is_sec s descname && nonempty descname then tab else "") ++ line]%string)%list in
      if is_sec s "Usage" then
        let* f := format locals_ secfmt in
        Ok (mkst (o ++ [f; ""])%list false (Some descname) (prog s))
      else Ok (mkst o false (sec s) (prog s))
  end.
Definition step (s : st) (line : string) : res st :=
  match re_sec line with
  | Some (a, g2) => if endswith (lower line) "ex:" then other_line s line else section_line s a g2
  | None => other_line s line
  end.
Fixpoint steps (s : st) (lines : list string) : res st :=
  match lines with [] => Ok s | l :: r => let* s' := step s l in steps s' r end.
(** lines 1506-1609 on a str *)
Definition opt2rst (shelp : string) (prog0 : option string) : res string :=
  let* s := steps (mkst [] false None prog0) (splitlines shelp) in
  Ok (join_with newline (out s)).
End Convert.
(** lines 1348-1398: [shelp] is the help of the parser; HelpFormatter needs the name of the program, which is not given
    (line 1381) *)
Definition arg_long_help (rst : bool) (shelp : string) : res string :=
  if rst then Raise TypeError else Ok shelp.
