(** Specification vocabulary for C81, the conversion of a help text to rst (xoa.cfgm.opt2rst). *)
From Verif Require Export PyRe.
Open Scope string_scope.
Definition nl : string := String (ascii_of_nat 10) "".
Definition has (ok : ascii -> bool) (s : string) : Prop := s <> "" /\ all_chars ok s = true.
(** The metavariable of an option: WORD, or {a,b,c} *)
Definition metavar (p : string) : Prop :=
  has is_word p \/ exists w, p = "{" ++ w ++ "}" /\ has (fun c => is_word c || Ascii.eqb c ",") w.
(** -x, -x WORD, --long, --long=WORD, --long WORD *)
Inductive option_text : string -> Prop :=
| Short w : has is_word w -> option_text ("-" ++ w)
| Short_param w p : has is_word w -> metavar p -> option_text ("-" ++ w ++ " " ++ p)
| Long w : has (fun c => is_word c || Ascii.eqb c "-") w -> option_text ("--" ++ w)
| Long_param w c p : has (fun c => is_word c || Ascii.eqb c "-") w -> metavar p -> (c = "="%char \/ c = " "%char) -> option_text ("--" ++ w ++ String c p).
(** The forms of an option, separated by a comma and a space *)
Inductive options_text : string -> Prop :=
| One_form o : option_text o -> options_text o
| More_forms o r : option_text o -> options_text r -> options_text (o ++ ", " ++ r).
(** argparse indents by two, or by four in a nested group *)
Definition indent (p : string) : Prop := p = "  " \/ p = "    ".
Definition spaces (s : string) : Prop := all_chars (Ascii.eqb " ") s = true.
(** Two words or more, a single space after the first one; no = at the first one, no dash at the second one *)
Definition sentence (d : string) : Prop := exists w c r, d = w ++ String " " (String c r) /\ w <> "" /\
  (forall a t, w = String a t -> a <> "="%char) /\ all_chars (fun c => negb (Ascii.eqb c " ")) w = true /\ c <> " "%char /\ c <> "-"%char.
(** The title of a section: words, a colon, nothing else or a text after a space; except "Ex:" *)
Definition section_title (line : string) : Prop := exists a r, line = a ++ ":" ++ r /\ has (fun c => is_word c || is_space c) a /\
  (r = "" \/ exists d, d <> "" /\ r = " " ++ d) /\ forall t, lower line <> t ++ "ex:".
(** A text made of lines *)
(** The ASCII line boundaries of Python: \n \v \f \r and 28, 29, 30 *)
Definition line_break (c : ascii) : bool :=
  let n := nat_of_ascii c in ((10 <=? n)%nat && (n <=? 13)%nat) || ((28 <=? n)%nat && (n <=? 30)%nat).
Definition one_line (l : string) : Prop := all_chars (fun c => negb (line_break c)) l = true.
Definition text_of (lines : list string) : string := fold_right (fun l t => l ++ nl ++ t) "" lines.
Definition occurs (p s : string) : Prop := exists a b, s = a ++ p ++ b.
Definition tabbed (n : nat) (s : string) : string := (fix go n := match n with O => s | S n' => String (ascii_of_nat 9) (go n') end) n.
(** No field *)
Definition constant_format (f : string) : Prop := all_chars (fun c => negb (Ascii.eqb c "{") && negb (Ascii.eqb c "}")) f = true.
Definition blank (s : string) : Prop := all_chars is_space s = true.

Definition begins (p s : string) : Prop := exists t, s = p ++ t.
(** Neither the title of a section nor an option: after the spaces, no dash *)
Definition plain (l : string) : Prop := ~ section_title l /\ exists s t, l = s ++ t /\ spaces s /\ ~ begins " " t /\ ~ begins "-" t.
(** The rst of lines without titles; the boolean: a description can go on *)
Inductive body : bool -> list string -> list string -> Prop :=
| body_nil m : body m [] []
| body_described m pre g pad d ls os : indent pre -> options_text g -> spaces pad -> sentence d -> body true ls os ->
  body m ((pre ++ g ++ "  " ++ pad ++ d) :: ls) ("" :: tabbed 1 (".. cmdoption:: " ++ g) :: "" :: tabbed 2 (strip d) :: os)
| body_option m pre g ls os : indent pre -> options_text g -> body true ls os ->
  body m ((pre ++ g) :: ls) ("" :: tabbed 1 (".. cmdoption:: " ++ g) :: "" :: os)
| body_more l ls os : plain l -> begins "   " l -> ~ blank l -> body true ls os -> body true (l :: ls) (tabbed 2 (strip l) :: os)
| body_plain m l ls os : plain l -> (m = false \/ ~ begins "   " l \/ blank l) -> body false ls os -> body m (l :: ls) (l :: os).
Fixpoint joined (l : list string) : string := match l with [] => "" | [x] => x | x :: r => x ++ nl ++ joined r end.
(** A title with nothing after it, of a section without special rules: not the usage, the positional arguments, the description *)
Definition ordinary (descname a : string) : Prop := has (fun c => is_word c || is_space c) a /\ (forall t, lower a <> t ++ "ex") /\
  strip (lower a) <> "usage" /\ strip (lower a) <> "positional arguments" /\ strip (lower a) <> lower descname.
(** Sections, each with its lines *)
Inductive document (f descname : string) : list string -> list string -> Prop :=
| doc_end : document f descname [] []
| doc_section a lines outs rest outs' : ordinary descname a -> (forall m, body m lines outs) -> document f descname rest outs' ->
  document f descname ((a ++ ":")%string :: lines ++ rest)%list (f :: "" :: outs ++ outs')%list
| doc_described a d lines outs rest outs' : ordinary descname a -> d <> "" -> (forall t, lower (a ++ ": " ++ d) <> t ++ "ex:") ->
  body true lines outs -> document f descname rest outs' ->
  document f descname ((a ++ ": " ++ d)%string :: lines ++ rest)%list (f :: "" :: "" :: tabbed 1 d :: outs ++ outs')%list.
(** The program of a usage: the last part of the path of its first word *)
Definition program_of (usage p : string) : Prop := exists dir w rest, usage = w ++ rest /\ (rest = "" \/ begins " " rest) /\ w <> "" /\ all_chars (fun c => negb (is_space c)) w = true /\
  w = dir ++ p /\ all_chars (fun c => negb (Ascii.eqb c "/")) p = true /\ (dir = "" \/ exists d, dir = d ++ "/").
