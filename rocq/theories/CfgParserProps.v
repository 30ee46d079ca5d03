(** C83: the options, the groups and the helps of the parser of arg_parse. *)
From Verif Require Import PyReFacts Opt2RstSpec Opt2RstProofs Opt2RstProps CfgHelp CfgHelpProps CfgParserProofs.
From Verif Require Import Opt2Rst CfgParser.
From Coq Require Import Lia Permutation.
Open Scope string_scope.

(** ** Specification *)
(** The string [f] on the command line is the option [w] *)
Definition does (P : parser) (f : string) (w : what) : Prop := exists a, In a (p_actions P) /\ In f (a_flags a) /\ a_what a = w.
Definition positional (P : parser) (w : what) : Prop := exists a, In a (p_actions P) /\ a_flags a = [] /\ a_what a = w.
(** The parser of the caller: made with the API of argparse, without repeating a string in a call *)
Definition call_ok (c : call) : Prop :=
  match c with CAdd (Some g) fl _ => (2 <= g)%nat /\ NoDup fl | CAdd None fl _ => NoDup fl | _ => True end.
Definition made (optionals : string) (usage desc epilog : option string) (h : handler) (calls : list call) (P : parser) : Prop :=
  Forall call_ok calls /\ do_calls (new_parser optionals usage desc epilog h) calls = Ok P.
(** The options of a configuration: each one is at the top or in one of the sections, which are distinct *)
Definition config_ok (c : config) : Prop :=
  NoDup (map fst (c_sections c)) /\ forall p s l, In p (c_paths c) -> parents p = s :: l -> In s (map fst (c_sections c)).
Definition help_strings : list string := ["-h"; "--help"; "--long-help"; "--short-help"].
Definition option_string (nested : option string) (p : path) : string := "--" ++ flag nested p.
(** All the strings: those of the caller that are not taken, those of the helps, of the last extra option, of the
    configuration file and of the configuration *)
Definition last_of (extras : list (list string)) : list string := List.last extras [].
Definition wanted (exc : list string) (nested : option string) (extras : list (list string)) (o : cfgopt) (c : config) (P : parser) : list string :=
  (List.filter (fun f => negb (existsb (String.eqb f) help_strings)) (flat_map a_flags (p_actions P)) ++ help_strings ++ last_of extras ++
   cfg_flags o ++ map (option_string nested) (List.filter (declared exc) (c_paths c)))%list.
(** The strings of the option of the configuration file: a tuple as it is; a text gets the dashes that it lacks *)
Definition file_strings (o : cfgopt) (l : list string) : Prop :=
  match o with
  | OptTuple m => l = m
  | OptStr "" => l = []
  | OptStr s => (exists t, s = "-" ++ t /\ l = [s]) \/ ((forall t, s <> "-" ++ t) /\ (exists x, s = String x "") /\ l = ["-" ++ s]) \/
                ((forall t, s <> "-" ++ t) /\ (exists x y t, s = String x (String y t)) /\ l = ["--" ++ s])
  end.
Definition blank (s : string) : Prop := all_chars is_space s = true.
(** A line "# -*- coding: utf-8 -*-", and what follows *)
Definition coding_line (l : string) : Prop :=
  exists a b c d w e r, l = "#" ++ a ++ "-*-" ++ b ++ "coding" ++ c ++ ":" ++ d ++ w ++ e ++ "-*-" ++ r /\
  blank a /\ blank b /\ blank c /\ blank d /\ blank e /\ w <> "" /\ all_chars (fun x => negb (is_space x)) w = true.
Definition no_colon (s : string) : Prop := all_chars (fun c => negb (Ascii.eqb c ":")) s = true.
(** The title and the description that a comment gives *)
Definition from_comment (comment title : string) (desc : option string) (default : string -> string * option string) : Prop :=
  exists t, peeled (fun c => Ascii.eqb c "#" || Ascii.eqb c " ") comment t /\
  ((exists d, t = title ++ ":" ++ d /\ no_colon title /\ desc = Some d) \/ (no_colon t /\ (title, desc) = default t)).
Definition section_title (name : string) (comment : option string) (title : string) (desc : option string) : Prop :=
  match comment with
  | None => title = name /\ desc = None
  | Some c => from_comment c title desc (fun t => (lower name, Some t))
  end.
Definition global_title (initial : list string) (title : string) (desc : option string) : Prop :=
  (exists first line rest, initial = first :: line :: rest /\ coding_line first /\ from_comment line title desc (fun t => (t, None))) \/
  ((initial = [] \/ exists first rest, initial = first :: rest /\ ~ coding_line first) /\ title = "global configuration options" /\ desc = None).
Definition section_block (b : block) : bool := match b with BSection _ _ _ => true | _ => false end.
Definition standard (b : block) : bool :=
  match b with BSection (Some t) _ _ => String.eqb t "positional arguments" || String.eqb t "optional arguments" | BSection None _ _ => false | _ => true end.

(** ** The lines *)
Lemma L_spaces s : L spaces s <-> blank s.
Proof. unfold spaces. apply St_cls. Qed.
Lemma L_word w s : L (word w) s <-> s = w.
Proof.
  revert s. induction w as [|c w IH]; intro s; cbn [word L]; [reflexivity|]. split.
  - intros (x & y & -> & (c' & Hc & ->) & Hy). apply IH in Hy. subst. apply Ascii.eqb_eq in Hc. now subst.
  - intros ->. exists (String c ""), w. split; [reflexivity|]. split; [|now apply IH]. exists c. split; [apply Ascii.eqb_refl|reflexivity].
Qed.
Lemma L_cat a b s : L (Cat a b) s <-> exists x y, s = x ++ y /\ L a x /\ L b y. Proof. reflexivity. Qed.
Ltac cat H a := apply L_cat in H; let y := fresh "y" in destruct H as (a & y & -> & ? & H).
Lemma is_coding_iff l : is_coding l = true <-> coding_line l.
Proof.
  assert (E : is_coding l = true <-> exists x r, In (x, r) (ways re_coding l)).
  { unfold is_coding. destruct (ways re_coding l) as [|[x r] t]; split; try discriminate; auto; [intros (x & r & [])|]. intros _. exists x, r. now left. }
  rewrite E. clear E. unfold re_coding, coding_line. split.
  - intros (x & r & H). apply ways_iff in H. destruct H as [-> H].
    cat H k1. cat H a. cat H k2. cat H b. cat H k3. cat H c. cat H k4. cat H d. cat H w. cat H e. apply L_cat in H. destruct H as (k5 & z & -> & ? & H).
    repeat match goal with H : L spaces _ |- _ => apply L_spaces in H | H : L (word _) _ |- _ => apply L_word in H; subst | H : L (chr _) _ |- _ => apply L_chr in H; subst | H : L (plus _) _ |- _ => apply L_plus in H; destruct H end.
    exists a, b, c, d, w, e, (z ++ r). split; [rewrite !sapp_assoc; reflexivity|]. repeat split; auto.
  - intros (a & b & c & d & w & e & r & -> & Ha & Hb & Hc & Hd & He & Nw & Hw).
    exists ("#" ++ a ++ "-*-" ++ b ++ "coding" ++ c ++ ":" ++ d ++ w ++ e ++ "-*-"), r. apply ways_iff. split; [rewrite !sapp_assoc; reflexivity|].
    exists "#", (a ++ "-*-" ++ b ++ "coding" ++ c ++ ":" ++ d ++ w ++ e ++ "-*-"). split; [reflexivity|]. split; [now apply L_chr|].
    exists a, ("-*-" ++ b ++ "coding" ++ c ++ ":" ++ d ++ w ++ e ++ "-*-"). split; [reflexivity|]. split; [now apply L_spaces|].
    exists "-*-", (b ++ "coding" ++ c ++ ":" ++ d ++ w ++ e ++ "-*-"). split; [reflexivity|]. split; [now apply L_word|].
    exists b, ("coding" ++ c ++ ":" ++ d ++ w ++ e ++ "-*-"). split; [reflexivity|]. split; [now apply L_spaces|].
    exists "coding", (c ++ ":" ++ d ++ w ++ e ++ "-*-"). split; [reflexivity|]. split; [now apply L_word|].
    exists c, (":" ++ d ++ w ++ e ++ "-*-"). split; [reflexivity|]. split; [now apply L_spaces|].
    exists ":", (d ++ w ++ e ++ "-*-"). split; [reflexivity|]. split; [now apply L_chr|].
    exists d, (w ++ e ++ "-*-"). split; [reflexivity|]. split; [now apply L_spaces|].
    exists w, (e ++ "-*-"). split; [reflexivity|]. split; [apply L_plus; split; auto|].
    exists e, "-*-". split; [reflexivity|]. split; [now apply L_spaces|].
    exists "-*-", "". split; [reflexivity|]. split; [now apply L_word|]. now apply L_spaces.
Qed.
Lemma at_colon_none s : at_colon s = None <-> no_colon s.
Proof.
  unfold no_colon. induction s as [|c s IH]; cbn [at_colon all_chars]; [split; reflexivity|]. destruct (Ascii.eqb c ":"); cbn [negb andb]; [split; discriminate|].
  destruct (at_colon s) as [[a b]|]; [split; [discriminate|]; intro H; apply IH in H; discriminate|]. split; auto. intros _. now apply IH.
Qed.
Lemma at_colon_some s a b : at_colon s = Some (a, b) -> s = a ++ ":" ++ b /\ no_colon a.
Proof. apply at_colon_iff. Qed.
Lemma section_titled name comment : section_title name comment (fst (section_desc name comment)) (snd (section_desc name comment)).
Proof.
  unfold section_desc, section_title. destruct comment as [c|]; [|auto]. exists (strip_set sharp_space c). split; [apply strip_set_peeled|].
  destruct (at_colon (strip_set sharp_space c)) as [[a b]|] eqn:E; cbn [fst snd].
  - left. exists b. apply at_colon_some in E. tauto.
  - right. split; [now apply at_colon_none|reflexivity].
Qed.
Lemma global_titled initial d : global_desc initial = Ok d -> global_title initial (fst d) (snd d).
Proof.
  unfold global_desc, global_title. destruct initial as [|f rest]; [intro E; injection E as <-; right; cbn; auto|]. destruct (is_coding f) eqn:C.
  - destruct rest as [|l rest]; [discriminate|]. intro E. injection E as <-. left. exists f, l, rest. split; auto. split; [now apply is_coding_iff|].
    exists (strip_set sharp_space l). split; [apply strip_set_peeled|]. unfold split_colon. destruct (at_colon (strip_set sharp_space l)) as [[a b]|] eqn:E; cbn [fst snd].
    + left. exists b. apply at_colon_some in E. tauto.
    + right. split; [now apply at_colon_none|reflexivity].
  - intro E. injection E as <-. right. split; [|cbn; auto]. right. exists f, rest. split; auto. rewrite <- is_coding_iff. congruence.
Qed.
Lemma global_unbound initial e : global_desc initial = Raise e <-> e = UnboundLocalError /\ exists l, initial = [l] /\ coding_line l.
Proof.
  unfold global_desc. destruct initial as [|f rest]; [split; [discriminate|intros (_ & l & E & _); discriminate]|]. destruct (is_coding f) eqn:C.
  - apply is_coding_iff in C. destruct rest as [|l rest]; split; try discriminate.
    + intro E. injection E as <-. eauto.
    + intros (-> & _). reflexivity.
    + intros (_ & l' & E & _). discriminate.
  - split; [discriminate|]. intros (_ & l & E & K). injection E as -> ->. apply is_coding_iff in K. congruence.
Qed.

Lemma dash_start c s : startswith (String c s) "-" = Ascii.eqb c "-".
Proof. unfold startswith. cbn [prefix]. destruct (ascii_dec "-" c) as [<-|N]; [destruct s; reflexivity|]. symmetry. apply Ascii.eqb_neq. congruence. Qed.
Lemma cfg_names o : file_strings o (cfg_flags o).
Proof.
  destruct o as [[|c s]|l]; [reflexivity| |reflexivity]. unfold file_strings, cfg_flags. rewrite dash_start. cbn [nonempty]. destruct (Ascii.eqb_spec c "-") as [->|N].
  - left. exists s. split; reflexivity.
  - right. assert (X : forall t, String c s <> "-" ++ t) by (intros t E; apply (f_equal (String.get 0)) in E; cbn in E; congruence). destruct s as [|y t]; [left|right]; (split; [exact X|]); cbn; eauto 6.
Qed.
(** ** The parser of the caller *)
Record inv (optionals : string) (usage desc epilog : option string) (h : handler) (P : parser) : Prop := {
  i_nodup : NoDup (flags_in (p_actions P));
  i_handler : p_handler P = h;
  i_groups : exists l, p_groups P = ([mkgroup (Some "positional arguments") None h; mkgroup (Some optionals) None h] ++ l)%list /\ forall g, In g l -> g_handler g = h;
  i_in : forall a, In a (p_actions P) -> (a_group a < List.length (p_groups P))%nat;
  i_pos : forall a, In a (p_actions P) -> a_group a = 0%nat -> a_flags a = [];
  i_opt : forall a, In a (p_actions P) -> a_group a = 1%nat -> a_flags a <> [];
  i_what : forall a, In a (p_actions P) -> a_what a = LongHelp \/ exists n, a_what a = User n;
  i_texts : p_usage P = usage /\ p_desc P = desc /\ p_epilog P = epilog }.
Section inv.
  Variables (optionals : string) (usage desc epilog : option string) (h : handler).
  Notation inv := (inv optionals usage desc epilog h).
  Lemma inv_add hh g fl w P P' : inv P -> NoDup fl -> (g < List.length (p_groups P))%nat -> (g = 0%nat -> fl = []) -> (g = 1%nat -> fl <> []) -> (w = LongHelp \/ exists n, w = User n) ->
    add_with hh g fl w P = Ok P' -> inv P'.
  Proof.
    intros [I1 I2 I3 I4 I5 I6 I7 I8] N G0 G1 G2 W E. unfold add_with in E. destruct hh.
    - destruct (existsb (taken P) fl) eqn:T; [discriminate|]. injection E as <-. constructor; cbn [p_actions set_actions p_handler p_groups p_usage p_desc p_epilog]; auto.
      + rewrite flags_app. unfold flags_in at 2. cbn [flat_map a_flags]. rewrite app_nil_r. apply nodup_app_intro; auto. intros f Hf K.
        assert (X : existsb (taken P) fl = true) by (apply existsb_exists; exists f; split; [exact K|now apply taken_in]). congruence.
      + intros a Ha. apply in_app_or in Ha. destruct Ha as [Ha|[<-|[]]]; auto.
      + intros a Ha. apply in_app_or in Ha. destruct Ha as [Ha|[<-|[]]]; auto.
      + intros a Ha. apply in_app_or in Ha. destruct Ha as [Ha|[<-|[]]]; auto.
      + intros a Ha. apply in_app_or in Ha. destruct Ha as [Ha|[<-|[]]]; auto.
    - injection E as <-. constructor; cbn [p_actions set_actions p_handler p_groups p_usage p_desc p_epilog]; auto.
      + rewrite flags_app, steal_flags. unfold flags_in at 2. cbn [flat_map a_flags]. rewrite app_nil_r. apply nodup_app_intro; auto; [now apply NoDup_filter|]. intros f Hf K. apply frees_in in Hf. tauto.
      + intros a Ha. apply in_app_or in Ha. destruct Ha as [Ha|[<-|[]]]; auto. apply steal_in in Ha. destruct Ha as (b & Hb & K1 & K2 & K3 & K4). rewrite K2. auto.
      + intros a Ha. apply in_app_or in Ha. destruct Ha as [Ha|[<-|[]]]; auto. apply steal_in in Ha. destruct Ha as (b & Hb & K1 & K2 & K3 & K4). rewrite K2, K3. intro Z. rewrite (I5 b Hb Z). reflexivity.
      + intros a Ha. apply in_app_or in Ha. destruct Ha as [Ha|[<-|[]]]; auto. apply steal_in in Ha. destruct Ha as (b & Hb & K1 & K2 & K3 & K4). rewrite K2. intro Z. destruct K4 as [K4|K4]; auto. exfalso. exact (I6 b Hb Z K4).
      + intros a Ha. apply in_app_or in Ha. destruct Ha as [Ha|[<-|[]]]; auto. apply steal_in in Ha. destruct Ha as (b & Hb & K1 & K2 & K3 & K4). rewrite K1. auto.
  Qed.
  Lemma inv_two P : inv P -> (2 <= List.length (p_groups P))%nat.
  Proof. intros [_ _ (l & -> & _) _ _ _ _ _]. cbn. lia. Qed.
  Lemma inv_call P c P' : inv P -> call_ok c -> do_call P c = Ok P' -> inv P'.
  Proof.
    intros I K E. assert (T := inv_two P I). destruct c as [[g|] fl n| |t d]; cbn [do_call] in E.
    - destruct (Nat.ltb_spec g (List.length (p_groups P))) as [Lt|]; [|discriminate]. destruct K as [K1 K2]. unfold add_to in E. eapply inv_add; eauto; try lia.
    - unfold add_argument, add_to in E. cbn [call_ok] in K. eapply inv_add; [exact I|exact K| | | | |exact E]; destruct fl; try lia; try discriminate; eauto.
    - unfold add_argument, add_to in E. eapply inv_add; [exact I| | | | | |exact E]; try lia; try discriminate; auto. repeat constructor; cbn; intuition discriminate.
    - injection E as <-. destruct I as [I1 I2 I3 I4 I5 I6 I7 I8]. constructor; cbn [p_actions add_group set_groups p_handler p_groups p_usage p_desc p_epilog]; auto.
      + destruct I3 as (l & -> & Hl). exists (l ++ [mkgroup t d (p_handler P)])%list. split; [now rewrite <- app_assoc|]. intros g Hg. apply in_app_or in Hg. destruct Hg as [Hg|[<-|[]]]; auto.
      + intros a Ha. rewrite app_length. specialize (I4 a Ha). lia.
  Qed.
  Lemma inv_new : inv (new_parser optionals usage desc epilog h).
  Proof. constructor; cbn; auto; try (intros a []); [constructor|]. exists []. split; auto. intros g []. Qed.
  Lemma made_inv calls P : made optionals usage desc epilog h calls P -> inv P.
  Proof.
    intros [W E]. assert (I := inv_new). revert I E. generalize (new_parser optionals usage desc epilog h) as Q. induction W as [|c l Hc W IH]; intros Q I E; cbn [do_calls] in E; [injection E as <-; exact I|].
    destruct (do_call Q c) as [Q'|] eqn:Eq; [|discriminate]. cbn [bind] in E. exact (IH Q' (inv_call Q c Q' I Hc Eq) E).
  Qed.
  Lemma inv_error P : h = HError -> inv P -> all_error P.
  Proof. intros -> [_ I2 (l & Eg & Hl) _ _ _ _ _]. split; [exact I2|]. rewrite Eg. intros g [<-|[<-|Hg]]; auto. Qed.
End inv.

(** ** The options that are declared *)
Lemma flags_extra extras : flags_in (extra_actions extras) = last_of extras.
Proof.
  unfold extra_actions, last_of. destruct (rev extras) as [|fl before] eqn:E.
  - assert (X : extras = []) by (rewrite <- (rev_involutive extras), E; reflexivity). now subst.
  - assert (X : extras = (rev before ++ [fl])%list) by (rewrite <- (rev_involutive extras), E; reflexivity). rewrite X, last_last. cbn. now rewrite app_nil_r.
Qed.
Lemma flags_cfg o : flags_in (cfg_actions o) = cfg_flags o.
Proof. unfold cfg_actions. destruct (cfg_flags o); [reflexivity|]. cbn. now rewrite app_nil_r. Qed.
Lemma flags_conf g nested l : flags_in (map (conf_action g nested) l) = map (option_string nested) l.
Proof. induction l as [|p l IH]; [reflexivity|]. cbn [map]. unfold flags_in in *. cbn [flat_map conf_action a_flags app]. now rewrite IH. Qed.
Lemma flags_sections exc nested paths g l : flags_in (section_actions exc nested paths g l) = map (option_string nested) (flat_map (section_paths exc paths) (map fst l)).
Proof.
  revert g. induction l as [|[n c] l IH]; intro g; [reflexivity|]. cbn [section_actions map flat_map fst]. rewrite flags_app, flags_conf, IH, map_app. reflexivity.
Qed.
Definition buckets (names : list string) (l : list path) : list path := (List.filter is_global l ++ flat_map (fun s => List.filter (in_section s) l) names)%list.
Lemma flat_none names p (l : list path) : (forall s, In s names -> in_section s p = false) ->
  flat_map (fun s => List.filter (in_section s) (p :: l)) names = flat_map (fun s => List.filter (in_section s) l) names.
Proof.
  intro H. induction names as [|s names IH]; [reflexivity|]. cbn [flat_map]. rewrite IH by (intros; apply H; now right). cbn [List.filter]. rewrite (H s) by now left. reflexivity.
Qed.
Lemma flat_one names p (l : list path) s0 rest : NoDup names -> In s0 names -> parents p = s0 :: rest ->
  Permutation (flat_map (fun s => List.filter (in_section s) (p :: l)) names) (p :: flat_map (fun s => List.filter (in_section s) l) names).
Proof.
  intros N I E. induction N as [|s names Ns N IH]; [destruct I|]. cbn [flat_map]. destruct I as [->|I].
  - assert (X : in_section s0 p = true) by (unfold in_section; rewrite E; apply String.eqb_refl). rewrite flat_none; [cbn [List.filter]; rewrite X; reflexivity|].
    intros s Hs. unfold in_section. rewrite E. apply String.eqb_neq. intros ->. contradiction.
  - assert (X : in_section s p = false) by (unfold in_section; rewrite E; apply String.eqb_neq; intros ->; contradiction). rewrite (IH I). cbn [List.filter]. rewrite X. apply Permutation_sym, Permutation_middle.
Qed.
Lemma buckets_perm names l : NoDup names -> (forall p s r, In p l -> parents p = s :: r -> In s names) -> Permutation (buckets names l) l.
Proof.
  intros N H. unfold buckets. induction l as [|p l IH].
  - cbn. assert (X : flat_map (fun _ : string => @nil path) names = []) by (clear; induction names; auto). rewrite X. constructor.
  - assert (IH' := IH (fun q s r Hq => H q s r (or_intror Hq))). destruct (parents p) as [|s0 rest] eqn:E.
    + assert (X : is_global p = true) by (unfold is_global; now rewrite E). rewrite flat_none by (intros s _; unfold in_section; now rewrite E). cbn [List.filter]. rewrite X. cbn [app]. now constructor.
    + rewrite (flat_one names p l s0 rest N (H p s0 rest (or_introl eq_refl) E) E). assert (X : is_global p = false) by (unfold is_global; now rewrite E). cbn [List.filter]. rewrite X. rewrite <- Permutation_middle. now constructor.
Qed.
Lemma filter_and {A} (f g : A -> bool) l : List.filter (fun x => f x && g x) l = List.filter f (List.filter g l).
Proof. induction l as [|x l IH]; [reflexivity|]. cbn [List.filter]. destruct (g x); cbn [List.filter]; destruct (f x); cbn [andb]; rewrite ?IH; reflexivity. Qed.
Definition declared_in (exc : list string) (c : config) : list path := (global_paths exc (c_paths c) ++ flat_map (section_paths exc (c_paths c)) (map fst (c_sections c)))%list.
Lemma declared_perm exc c : config_ok c -> Permutation (declared_in exc c) (List.filter (declared exc) (c_paths c)).
Proof.
  intros [N H]. unfold declared_in, global_paths, section_paths. rewrite filter_and.
  rewrite (flat_map_ext _ (fun s => List.filter (in_section s) (List.filter (declared exc) (c_paths c)))) by (intro s; apply filter_and).
  apply (buckets_perm _ (List.filter (declared exc) (c_paths c)) N). intros p s r Hp. apply filter_In in Hp. apply H, Hp.
Qed.
Lemma conf_flags exc nested c g : flags_in (conf_actions exc nested c g) = map (option_string nested) (declared_in exc c).
Proof. unfold conf_actions, declared_in. now rewrite flags_app, flags_conf, flags_sections, map_app. Qed.
(** The helps of any parser: the short one is the long one without the groups that have another title *)
Theorem C83_short_help P : print_short_help P (ZBool false) = List.filter standard (long_help P).
Proof.
  unfold print_short_help, long_help. cbn [kept_strings]. rewrite !filter_app. cbn [List.filter standard]. f_equal. f_equal.
  induction (numbered 0 (p_groups P)) as [|[n g] l IH]; [reflexivity|]. cbn [flat_map map List.filter standard fst snd]. rewrite IH. unfold has_string, STANDARD. destruct (g_title g) as [t|]; [|reflexivity]. cbn [existsb].
  rewrite orb_false_r. destruct (String.eqb t "positional arguments"); [reflexivity|]. cbn [orb]. destruct (String.eqb t "optional arguments"); reflexivity.
Qed.
(** With strings, its usage has only the positional arguments, the options with one of these strings, and "other-options" *)
Theorem C83_compressed_help P z : kept_strings z <> [] -> exists l,
  print_short_help P z = BUsage (p_usage P) (l ++ [mkaction ["other-options"] Fake 0]) :: List.tl (List.filter standard (long_help P)) /\
  forall a, In a l <-> In a (p_actions P) /\ (a_flags a = [] \/ exists f, In f (a_flags a) /\ In f (kept_strings z)).
Proof.
  intro N. exists (List.filter (valid_option (kept_strings z)) (p_actions P)). split.
  - rewrite <- C83_short_help. unfold print_short_help. cbn [kept_strings app List.tl]. destruct (kept_strings z); [contradiction|reflexivity].
  - intro a. rewrite filter_In. unfold valid_option. destruct (a_flags a) as [|f fl] eqn:E; [intuition|]. rewrite existsb_exists. split.
    + intros (H & x & Hx & K). split; auto. right. exists x. split; auto. now apply has_string_in.
    + intros (H & [K|(x & Hx & K)]); [discriminate|]. split; auto. exists x. split; auto. now apply has_string_in.
Qed.
Lemma numbered_app {A} n (l m : list A) : numbered n (l ++ m) = (numbered n l ++ numbered (n + List.length l) m)%list.
Proof. revert n. induction l as [|x l IH]; intro n; cbn [numbered app List.length]; [now rewrite Nat.add_0_r|]. now rewrite IH, Nat.add_succ_l, Nat.add_succ_r. Qed.
Lemma numbered_lt {A} n (l : list A) k x : In (k, x) (numbered n l) -> (n <= k < n + List.length l)%nat /\ In x l.
Proof.
  revert n. induction l as [|y l IH]; intros n H; [destruct H|]. cbn [numbered List.length] in *. destruct H as [H|H]; [injection H as <- <-; split; [lia|now left]|].
  apply IH in H. split; [lia|now right].
Qed.
Lemma filter_none {A} (f : A -> bool) l : (forall x, In x l -> f x = false) -> List.filter f l = [].
Proof. intro H. induction l as [|x l IH]; [reflexivity|]. cbn. rewrite (H x) by now left. apply IH. intros; apply H; now right. Qed.
Lemma filter_all {A} (f : A -> bool) l : (forall x, In x l -> f x = true) -> List.filter f l = l.
Proof. intro H. induction l as [|x l IH]; [reflexivity|]. cbn. rewrite (H x) by now left. f_equal. apply IH. intros; apply H; now right. Qed.
Lemma section_actions_group exc nested paths k l a : In a (section_actions exc nested paths k l) -> (k <= a_group a)%nat.
Proof.
  revert k. induction l as [|[n c] l IH]; intros k H; [destruct H|]. cbn [section_actions] in H. apply in_app_or in H. destruct H as [H|H].
  - apply in_map_iff in H. destruct H as (p & <- & _). cbn. lia.
  - apply IH in H. lia.
Qed.
Definition shown_options (nested : option string) (l : list action) (paths : list path) : Prop := Forall2 (fun a p => a_flags a = ["--" ++ flag nested p] /\ a_what a = Conf p) l paths.
Lemma shown_map g nested l : shown_options nested (map (conf_action g nested) l) l.
Proof. induction l; cbn [map]; constructor; auto. Qed.
Lemma section_blocks exc nested paths h l : forall k pre, (forall a, In a pre -> (a_group a < k)%nat) ->
  Forall2 (fun s b => exists t d l, b = BSection (Some t) d l /\ section_title (fst s) (snd s) t d /\ shown_options nested l (List.filter (fun p => in_section (fst s) p && declared exc p) paths)) l
    (map (fun ng : nat * group => BSection (g_title (snd ng)) (g_desc (snd ng)) (List.filter (fun a => (a_group a =? fst ng)%nat) (pre ++ section_actions exc nested paths k l))) (numbered k (map (section_group h) l))).
Proof.
  induction l as [|[n c] l IH]; intros k pre H; [constructor|]. cbn [map numbered section_actions fst snd]. constructor.
  - cbn [section_group g_title g_desc fst snd]. do 3 eexists. split; [reflexivity|]. split; [apply section_titled|]. rewrite !filter_app.
    rewrite filter_none by (intros a Ha; apply Nat.eqb_neq; specialize (H a Ha); lia). rewrite filter_all by (intros a Ha; apply in_map_iff in Ha; destruct Ha as (p & <- & _); apply Nat.eqb_refl).
    rewrite filter_none by (intros a Ha; apply section_actions_group in Ha; apply Nat.eqb_neq; lia). rewrite app_nil_r. cbn [app]. apply shown_map.
  - rewrite app_assoc. apply IH. intros a Ha. apply in_app_or in Ha. destruct Ha as [Ha|Ha]; [specialize (H a Ha); lia|]. apply in_map_iff in Ha. destruct Ha as (p & <- & _). cbn. lia.
Qed.
Lemma find_unique l a f : NoDup (flags_in l) -> In a l -> In f (a_flags a) -> find (fun b => has_string (a_flags b) f) l = Some a.
Proof.
  induction l as [|b l IH]; intros N H Hf; [destruct H|]. cbn [find]. unfold flags_in in N. cbn [flat_map] in N. destruct (nodup_app_split _ _ N) as (_ & N2 & N3). destruct (has_string (a_flags b) f) eqn:E.
  - apply has_string_in in E. destruct H as [->|H]; [reflexivity|]. exfalso. apply (N3 f E). apply in_flat_map. exists a. auto.
  - destruct H as [->|H]; [apply has_string_not in E; contradiction|]. now apply IH.
Qed.

Section theorems.
  Variables (optionals : string) (usage desc epilog : option string) (calls : list call) (P : parser).
  Hypothesis HP : made optionals usage desc epilog HError calls P.
  Variables (exc : list string) (nested : option string) (extras : list (list string)) (o : cfgopt) (c : config).
  Hypothesis Hex : Forall (@NoDup string) extras.
  Hypothesis Ho : NoDup (cfg_flags o).
  Hypothesis Hc : config_ok c.
  Notation decl := (declare exc nested extras o c P).
  Lemma I0 : inv optionals usage desc epilog HError P. Proof. exact (made_inv _ _ _ _ _ _ _ HP). Qed.
  Lemma wanted_perm : Permutation (all_strings exc nested extras o c P) (wanted exc nested extras o c P).
  Proof.
    unfold all_strings, wanted, before_groups. rewrite !flags_app, steal_flags, flags_extra, flags_cfg, conf_flags, <- !app_assoc. change (flags_in HELPS) with help_strings.
    change (flat_map a_flags (p_actions P)) with (flags_in (p_actions P)). repeat apply Permutation_app_head. apply Permutation_map. now apply declared_perm.
  Qed.
  Lemma got P' : decl = Ok P' -> exists d, global_desc (c_initial c) = Ok d /\ NoDup (all_strings exc nested extras o c P) /\ P' = final exc nested extras o c P d.
  Proof. intro E. eapply declare_inv; eauto; [eapply inv_error; [reflexivity|apply I0]|apply (i_nodup _ _ _ _ _ _ I0)]. Qed.

  (** *** It fails exactly when a string is wanted twice, or with a comment reduced to the coding line *)
  Theorem C83_succeeds_iff : (exists P', decl = Ok P') <-> NoDup (wanted exc nested extras o c P) /\ ~ exists l, c_initial c = [l] /\ coding_line l.
  Proof.
    split.
    - intros [P' E]. destruct (got P' E) as (d & Hd & N & _). split; [exact (Permutation_NoDup wanted_perm N)|]. intro X. assert (K := proj2 (global_unbound (c_initial c) UnboundLocalError) (conj eq_refl X)). congruence.
    - intros [N X]. destruct (global_desc (c_initial c)) as [d|e] eqn:Ed.
      + eexists. apply declare_ok with (d := d); auto; [eapply inv_error; [reflexivity|apply I0]|]. exact (Permutation_NoDup (Permutation_sym wanted_perm) N).
      + exfalso. apply X. apply global_unbound in Ed. apply Ed.
  Qed.
  Theorem C83_errors e : decl = Raise e ->
    (e = ValueError /\ ~ NoDup (wanted exc nested extras o c P)) \/ (e = UnboundLocalError /\ exists l, c_initial c = [l] /\ coding_line l).
  Proof.
    intro E. apply declare_raise in E; auto; [|eapply inv_error; [reflexivity|apply I0]|apply (i_nodup _ _ _ _ _ _ I0)]. destruct E as [[-> N]|[-> E]].
    - left. split; auto. intro K. apply N. exact (Permutation_NoDup (Permutation_sym wanted_perm) K).
    - right. apply global_unbound in E. exact E.
  Qed.

  (** *** What the strings do *)
  Lemma in_final P' a : decl = Ok P' -> (In a (p_actions P') <->
    In a (steal help_strings (p_actions P)) \/ In a HELPS \/ In a (extra_actions extras) \/ In a (cfg_actions o) \/ In a (conf_actions exc nested c (List.length (p_groups P)))).
  Proof. intro E. destruct (got P' E) as (d & Hd & N & ->). cbn [p_actions final set_groups set_actions]. unfold before_groups. rewrite !in_app_iff. change FOUR with help_strings. tauto. Qed.
  Lemma in_conf a g : In a (conf_actions exc nested c g) -> exists p, In p (declared_in exc c) /\ a_flags a = [option_string nested p] /\ a_what a = Conf p /\ (g <= a_group a)%nat.
  Proof.
    unfold conf_actions, declared_in. rewrite in_app_iff. intros [H|H].
    - apply in_map_iff in H. destruct H as (p & <- & Hp). exists p. split; [apply in_or_app; now left|]. cbn. auto.
    - revert H. generalize (c_sections c) as l. intro l. assert (G : forall k, (g <= k)%nat -> In a (section_actions exc nested (c_paths c) k l) -> exists p, In p (flat_map (section_paths exc (c_paths c)) (map fst l)) /\ a_flags a = [option_string nested p] /\ a_what a = Conf p /\ (g <= a_group a)%nat).
      { induction l as [|[n cm] l IH]; intros k Hk H; [destruct H|]. cbn [section_actions map flat_map fst] in *. apply in_app_or in H. destruct H as [H|H].
        - apply in_map_iff in H. destruct H as (p & <- & Hp). exists p. split; [apply in_or_app; now left|]. cbn. auto.
        - destruct (IH (S k) ltac:(lia) H) as (p & Hp & K). exists p. split; [apply in_or_app; now right|exact K]. }
      intro H. destruct (G (S g) ltac:(lia) H) as (p & Hp & K). exists p. split; [apply in_or_app; now right|exact K].
  Qed.
  Lemma conf_in p g : In p (declared_in exc c) -> exists a, In a (conf_actions exc nested c g) /\ a_flags a = [option_string nested p] /\ a_what a = Conf p.
  Proof.
    unfold conf_actions, declared_in. rewrite in_app_iff. intros [H|H].
    - exists (conf_action g nested p). split; [apply in_or_app; left; now apply in_map|]. auto.
    - revert H. generalize (c_sections c) as l. intro l. assert (G : forall k, In p (flat_map (section_paths exc (c_paths c)) (map fst l)) -> exists a, In a (section_actions exc nested (c_paths c) k l) /\ a_flags a = [option_string nested p] /\ a_what a = Conf p).
      { induction l as [|[n cm] l IH]; intros k H; [destruct H|]. cbn [section_actions map flat_map fst] in *. apply in_app_or in H. destruct H as [H|H].
        - exists (conf_action k nested p). split; [apply in_or_app; left; now apply in_map|]. auto.
        - destruct (IH (S k) H) as (a & Ha & K). exists a. split; [apply in_or_app; now right|exact K]. }
      intro H. destruct (G (S g) H) as (a & Ha & K). exists a. split; [apply in_or_app; now right|exact K].
  Qed.
  Theorem C83_helps P' : decl = Ok P' -> does P' "-h" ShortHelp /\ does P' "--help" ShortHelp /\ does P' "--long-help" LongHelp /\ does P' "--short-help" VeryShortHelp.
  Proof.
    intro E. repeat split.
    - exists (mkaction ["-h"; "--help"] ShortHelp 1). split; [apply (in_final P' _ E); right; left; cbn; auto|]. cbn. auto.
    - exists (mkaction ["-h"; "--help"] ShortHelp 1). split; [apply (in_final P' _ E); right; left; cbn; auto|]. cbn. auto.
    - exists (mkaction ["--long-help"] LongHelp 1). split; [apply (in_final P' _ E); right; left; cbn; auto|]. cbn. auto.
    - exists (mkaction ["--short-help"] VeryShortHelp 1). split; [apply (in_final P' _ E); right; left; cbn; auto|]. cbn. auto.
  Qed.
  (** The arguments of the caller lose at most the four strings *)
  Theorem C83_caller P' n f : decl = Ok P' -> (does P' f (User n) <-> does P f (User n) /\ ~ In f help_strings).
  Proof.
    intro E. split.
    - intros (a & Ha & Hf & Hw). apply (in_final P' a E) in Ha. destruct Ha as [Ha|[Ha|[Ha|[Ha|Ha]]]].
      + apply steal_in in Ha. destruct Ha as (b & Hb & K1 & K2 & K3 & K4). rewrite K3 in Hf. apply frees_in in Hf. split; [exists b; repeat split; try tauto; congruence|tauto].
      + cbn in Ha. destruct Ha as [<-|[<-|[<-|[]]]]; discriminate.
      + unfold extra_actions in Ha. destruct (rev extras); [destruct Ha|]. destruct Ha as [<-|[]]. discriminate.
      + unfold cfg_actions in Ha. destruct (cfg_flags o); [destruct Ha|]. destruct Ha as [<-|[]]. discriminate.
      + apply in_conf in Ha. destruct Ha as (p & _ & _ & Hp & _). congruence.
    - intros [(b & Hb & Hf & Hw) N]. exists (mkaction (frees help_strings (a_flags b)) (a_what b) (a_group b)). assert (X : In f (frees help_strings (a_flags b))) by (apply frees_in; auto). split; [|split; auto].
      apply (in_final P' _ E). left. apply steal_in. exists b. cbn [a_flags a_what a_group]. repeat split; auto. right. intro Z. rewrite Z in X. destruct X.
  Qed.
  Theorem C83_positionals P' n : decl = Ok P' -> (positional P' (User n) <-> positional P (User n)).
  Proof.
    intro E. split.
    - intros (a & Ha & Hf & Hw). apply (in_final P' a E) in Ha. destruct Ha as [Ha|[Ha|[Ha|[Ha|Ha]]]].
      + apply steal_in in Ha. destruct Ha as (b & Hb & K1 & K2 & K3 & K4). exists b. repeat split; auto; [|congruence]. destruct K4 as [K4|K4]; [exact K4|contradiction].
      + cbn in Ha. destruct Ha as [<-|[<-|[<-|[]]]]; discriminate.
      + unfold extra_actions in Ha. destruct (rev extras); [destruct Ha|]. destruct Ha as [<-|[]]. discriminate.
      + unfold cfg_actions in Ha. destruct (cfg_flags o); [destruct Ha|]. destruct Ha as [<-|[]]. discriminate.
      + apply in_conf in Ha. destruct Ha as (p & _ & _ & Hp & _). congruence.
    - intros (b & Hb & Hf & Hw). exists b. split; [|auto]. apply (in_final P' _ E). left. apply steal_in. exists b. rewrite Hf. repeat split; auto.
  Qed.
  (** The options of the configuration, of its file, and the extra ones: only the last *)
  Theorem C83_configuration P' p f : decl = Ok P' -> (does P' f (Conf p) <-> In p (c_paths c) /\ declared exc p = true /\ f = "--" ++ flag nested p).
  Proof.
    intro E. assert (D : In p (declared_in exc c) <-> In p (c_paths c) /\ declared exc p = true).
    { rewrite <- filter_In. split; apply Permutation_in; [|apply Permutation_sym]; now apply declared_perm. }
    split.
    - intros (a & Ha & Hf & Hw). apply (in_final P' a E) in Ha. destruct Ha as [Ha|[Ha|[Ha|[Ha|Ha]]]].
      + apply steal_in in Ha. destruct Ha as (b & Hb & K1 & _). assert (W := i_what _ _ _ _ _ _ I0 b Hb). rewrite <- K1, Hw in W. destruct W as [W|[n W]]; discriminate.
      + cbn in Ha. destruct Ha as [<-|[<-|[<-|[]]]]; discriminate.
      + unfold extra_actions in Ha. destruct (rev extras); [destruct Ha|]. destruct Ha as [<-|[]]. discriminate.
      + unfold cfg_actions in Ha. destruct (cfg_flags o); [destruct Ha|]. destruct Ha as [<-|[]]. discriminate.
      + apply in_conf in Ha. destruct Ha as (q & Hq & Hfl & Hp & _). assert (q = p) by congruence. subst q. rewrite Hfl in Hf. destruct Hf as [<-|[]]. apply D in Hq. tauto.
    - intros (Hp & Hd & ->). destruct (conf_in p (List.length (p_groups P)) (proj2 D (conj Hp Hd))) as (a & Ha & Hf & Hw). exists a. split; [apply (in_final P' a E); tauto|]. rewrite Hf. split; [now left|exact Hw].
  Qed.
  Theorem C83_file_option P' f : decl = Ok P' -> exists l, file_strings o l /\ (does P' f CfgFile <-> In f l).
  Proof.
    intro E. exists (cfg_flags o). split; [apply cfg_names|]. split.
    - intros (a & Ha & Hf & Hw). apply (in_final P' a E) in Ha. destruct Ha as [Ha|[Ha|[Ha|[Ha|Ha]]]].
      + apply steal_in in Ha. destruct Ha as (b & Hb & K1 & _). assert (W := i_what _ _ _ _ _ _ I0 b Hb). rewrite <- K1, Hw in W. destruct W as [W|[n W]]; discriminate.
      + cbn in Ha. destruct Ha as [<-|[<-|[<-|[]]]]; discriminate.
      + unfold extra_actions in Ha. destruct (rev extras); [destruct Ha|]. destruct Ha as [<-|[]]. discriminate.
      + unfold cfg_actions in Ha. destruct (cfg_flags o); [destruct Ha|]. destruct Ha as [<-|[]]. exact Hf.
      + apply in_conf in Ha. destruct Ha as (q & Hq & Hfl & Hp & _). congruence.
    - intro H. exists (mkaction (cfg_flags o) CfgFile 1). split; [|auto]. apply (in_final P' _ E). right; right; right; left. unfold cfg_actions. destruct (cfg_flags o); [destruct H|now left].
  Qed.
  Theorem C83_extras P' n f : decl = Ok P' -> (does P' f (Extra n) <-> n = (List.length extras - 1)%nat /\ In f (last_of extras)).
  Proof.
    intro E. unfold last_of. assert (R : forall fl before, rev extras = fl :: before -> extras = (rev before ++ [fl])%list) by (intros fl before X; rewrite <- (rev_involutive extras), X; reflexivity). split.
    - intros (a & Ha & Hf & Hw). apply (in_final P' a E) in Ha. destruct Ha as [Ha|[Ha|[Ha|[Ha|Ha]]]].
      + apply steal_in in Ha. destruct Ha as (b & Hb & K1 & _). assert (W := i_what _ _ _ _ _ _ I0 b Hb). rewrite <- K1, Hw in W. destruct W as [W|[k W]]; discriminate.
      + cbn in Ha. destruct Ha as [<-|[<-|[<-|[]]]]; discriminate.
      + unfold extra_actions in Ha. destruct (rev extras) as [|fl before] eqn:X; [destruct Ha|]. destruct Ha as [<-|[]]. cbn [a_what a_flags] in *. injection Hw as <-. rewrite (R _ _ eq_refl), last_last, app_length, rev_length. cbn. split; [lia|exact Hf].
      + unfold cfg_actions in Ha. destruct (cfg_flags o); [destruct Ha|]. destruct Ha as [<-|[]]. discriminate.
      + apply in_conf in Ha. destruct Ha as (q & Hq & Hfl & Hp & _). congruence.
    - intros [Hn H]. destruct (rev extras) as [|fl before] eqn:X.
      + assert (Z : extras = []) by (rewrite <- (rev_involutive extras), X; reflexivity). rewrite Z in H. destruct H.
      + assert (Z := R _ _ eq_refl). rewrite Z, last_last in H. rewrite Z, app_length, rev_length in Hn. cbn in Hn.
        eexists. split; [apply (in_final P' _ E); right; right; left; unfold extra_actions; rewrite X; left; reflexivity|]. cbn [a_flags a_what]. split; auto. f_equal. lia.
  Qed.

  (** *** The groups, and what the helps show *)
  Lemma before_group a : In a (before_groups extras o P) -> (a_group a < List.length (p_groups P))%nat.
  Proof.
    assert (T := inv_two _ _ _ _ _ _ I0). unfold before_groups. rewrite !in_app_iff. intros [H|[H|[H|H]]].
    - apply steal_in in H. destruct H as (b & Hb & _ & -> & _). exact (i_in _ _ _ _ _ _ I0 b Hb).
    - cbn in H. destruct H as [<-|[<-|[<-|[]]]]; cbn; lia.
    - unfold extra_actions in H. destruct (rev extras) as [|fl be]; [destruct H|]. destruct H as [<-|[]]. cbn. destruct fl; lia.
    - unfold cfg_actions in H. destruct (cfg_flags o); [destruct H|]. destruct H as [<-|[]]. cbn. lia.
  Qed.
  (** The long help: the texts of the caller, its groups, the global options, and the sections in their order, each
      with its options *)
  Theorem C83_long_help P' : decl = Ok P' -> exists own gt gd gl secs,
    long_help P' = ([BUsage usage (p_actions P'); BText desc] ++ own ++ [BSection (Some gt) gd gl] ++ secs ++ [BText epilog])%list /\
    Forall2 (fun g b => exists l, b = BSection (g_title g) (g_desc g) l /\ forall a, In a l -> forall p, a_what a <> Conf p) (p_groups P) own /\
    global_title (c_initial c) gt gd /\ shown_options nested gl (List.filter (fun p => is_global p && declared exc p) (c_paths c)) /\
    Forall2 (fun s b => exists t d l, b = BSection (Some t) d l /\ section_title (fst s) (snd s) t d /\
                        shown_options nested l (List.filter (fun p => in_section (fst s) p && declared exc p) (c_paths c))) (c_sections c) secs.
  Proof.
    intro E. destruct (got P' E) as (d & Hd & N & ->). set (n := List.length (p_groups P)).
    exists (map (fun ng => BSection (g_title (snd ng)) (g_desc (snd ng)) (members (final exc nested extras o c P d) (fst ng))) (numbered 0 (p_groups P))), (fst d), (snd d),
      (map (conf_action n nested) (global_paths exc (c_paths c))),
      (map (fun ng => BSection (g_title (snd ng)) (g_desc (snd ng)) (members (final exc nested extras o c P d) (fst ng))) (numbered (S n) (map (section_group (p_handler P)) (c_sections c)))).
    assert (M : forall g, members (final exc nested extras o c P d) g =
      List.filter (fun a => (a_group a =? g)%nat) ((before_groups extras o P ++ map (conf_action n nested) (global_paths exc (c_paths c))) ++ section_actions exc nested (c_paths c) (S n) (c_sections c))).
    { intro g. unfold members, final. cbn [p_actions set_actions set_groups]. unfold conf_actions. fold n. now rewrite app_assoc. }
    split; [|split; [|split; [now apply global_titled|split; [apply shown_map|]]]].
    - unfold long_help. destruct (i_texts _ _ _ _ _ _ I0) as (T1 & T2 & T3). cbn [p_usage p_desc p_epilog p_groups final set_actions set_groups]. rewrite T1, T2, T3. cbn [app]. do 2 f_equal.
      rewrite !numbered_app, !map_app, <- !app_assoc. f_equal. cbn [numbered map app List.length fst snd g_title g_desc Nat.add]. fold n. replace (n + 1)%nat with (S n) by lia. f_equal. f_equal.
      rewrite M, !filter_app. rewrite filter_none by (intros a Ha; apply before_group in Ha; apply Nat.eqb_neq; unfold n; lia).
      rewrite filter_all by (intros a Ha; apply in_map_iff in Ha; destruct Ha as (p & <- & _); apply Nat.eqb_refl).
      rewrite filter_none by (intros a Ha; apply section_actions_group in Ha; apply Nat.eqb_neq; unfold n in *; lia). now rewrite app_nil_r.
    - assert (G : forall l k, (forall g x, In (g, x) (numbered k l) -> (g < n)%nat) -> Forall2 (fun g b => exists l, b = BSection (g_title g) (g_desc g) l /\ forall a, In a l -> forall p, a_what a <> Conf p) l
        (map (fun ng => BSection (g_title (snd ng)) (g_desc (snd ng)) (members (final exc nested extras o c P d) (fst ng))) (numbered k l))).
      { induction l as [|g l IH]; intros k H; [constructor|]. cbn [numbered map fst snd]. constructor; [|apply IH; intros; eapply H; right; eauto]. eexists. split; [reflexivity|].
        intros a Ha p W. rewrite M in Ha. apply filter_In in Ha. destruct Ha as [Ha K]. apply Nat.eqb_eq in K. assert (Lt := H k g (or_introl eq_refl)). rewrite <- app_assoc in Ha. apply in_app_or in Ha. destruct Ha as [Ha|Ha].
        - assert (Ha' := proj2 (in_final _ a E)). assert (X : In a (steal help_strings (p_actions P)) \/ In a HELPS \/ In a (extra_actions extras) \/ In a (cfg_actions o)) by (unfold before_groups in Ha; rewrite !in_app_iff in Ha; exact Ha).
          destruct X as [X|[X|[X|X]]].
          + apply steal_in in X. destruct X as (b & Hb & K1 & _). assert (Y := i_what _ _ _ _ _ _ I0 b Hb). rewrite <- K1, W in Y. destruct Y as [Y|[m Y]]; discriminate.
          + cbn in X. destruct X as [<-|[<-|[<-|[]]]]; discriminate.
          + unfold extra_actions in X. destruct (rev extras); [destruct X|]. destruct X as [<-|[]]. discriminate.
          + unfold cfg_actions in X. destruct (cfg_flags o); [destruct X|]. destruct X as [<-|[]]. discriminate.
        - change (In a (conf_actions exc nested c n)) in Ha. apply in_conf in Ha. destruct Ha as (q & _ & _ & _ & Y). lia. }
      apply G. intros g x Hx. apply numbered_lt in Hx. unfold n. lia.
    - assert (B := section_blocks exc nested (c_paths c) (p_handler P) (c_sections c) (S n) (before_groups extras o P ++ map (conf_action n nested) (global_paths exc (c_paths c)))).
      rewrite (map_ext _ (fun ng : nat * group => BSection (g_title (snd ng)) (g_desc (snd ng)) (List.filter (fun a => (a_group a =? fst ng)%nat) ((before_groups extras o P ++ map (conf_action n nested) (global_paths exc (c_paths c))) ++ section_actions exc nested (c_paths c) (S n) (c_sections c))))) by (intro ng; now rewrite M).
      apply B. intros a Ha. apply in_app_or in Ha. destruct Ha as [Ha|Ha]; [apply before_group in Ha; unfold n; lia|]. apply in_map_iff in Ha. destruct Ha as (p & <- & _). cbn. lia.
  Qed.
  Lemma lookup_does P' f w : decl = Ok P' -> does P' f w -> lookup P' f = Some w.
  Proof.
    intros E (a & Ha & Hf & Hw). destruct (got P' E) as (d & Hd & N & ->). unfold lookup. rewrite (find_unique _ a f); [cbn; now rewrite Hw| |exact Ha|exact Hf]. exact N.
  Qed.
  (** The strings of the helps print them *)
  Theorem C83_run P' : decl = Ok P' ->
    run_flag P' "-h" = Some (List.filter standard (long_help P')) /\ run_flag P' "--help" = Some (List.filter standard (long_help P')) /\
    run_flag P' "--long-help" = Some (long_help P') /\
    exists l, run_flag P' "--short-help" = Some (BUsage usage (l ++ [mkaction ["other-options"] Fake 0]) :: List.tl (List.filter standard (long_help P'))) /\
    forall a, In a l <-> In a (p_actions P') /\ (a_flags a = [] \/ exists f, In f (a_flags a) /\ In f ["-h"; "-help"; "--long-help"; "--short-help"; "--cfgfile"]).
  Proof.
    intro E. destruct (C83_helps P' E) as (H1 & H2 & H3 & H4). unfold run_flag. rewrite (lookup_does P' _ _ E H1), (lookup_does P' _ _ E H2), (lookup_does P' _ _ E H3), (lookup_does P' _ _ E H4).
    cbn [help_of]. rewrite C83_short_help. repeat (split; [reflexivity|]). destruct (C83_compressed_help P' (ZBool true)) as (l & K & Hl); [discriminate|]. exists l. split; [|exact Hl].
    rewrite K. do 3 f_equal. destruct (got P' E) as (d & _ & _ & ->). apply (i_texts _ _ _ _ _ _ I0).
  Qed.
  Lemma groups_final P' : decl = Ok P' -> exists l, p_groups P' = ([mkgroup (Some "positional arguments") None HError; mkgroup (Some optionals) None HError] ++ l)%list.
  Proof. intro E. destruct (got P' E) as (d & _ & _ & ->). destruct (i_groups _ _ _ _ _ _ I0) as (l & El & _). cbn [final p_groups set_groups]. rewrite El, <- app_assoc. eauto. Qed.
  (** The groups of the short helps, when no other group has one of the two titles: the positional arguments, and the
      options of the program and of the helps, not those of the configuration.  Since Python 3.10 argparse calls this
      last group "options" and it is not shown. *)
  Theorem C83_short_sections P' : decl = Ok P' -> (forall g t, In g (List.skipn 2 (p_groups P')) -> g_title g = Some t -> t <> "positional arguments" /\ t <> "optional arguments") ->
    optionals = "optional arguments" \/ optionals = "options" ->
    exists pos opts, List.filter section_block (List.filter standard (long_help P')) =
      BSection (Some "positional arguments") None pos :: (if String.eqb optionals "optional arguments" then [BSection (Some "optional arguments") None opts] else []) /\
    (forall a, In a pos -> a_flags a = [] /\ forall p, a_what a <> Conf p) /\
    (forall a, In a HELPS -> In a opts) /\ (forall a, In a opts -> a_flags a <> [] /\ forall p, a_what a <> Conf p) /\
    (forall a n, In a (p_actions P) -> a_what a = User n -> a_group a = 1%nat -> (exists f, In f (a_flags a) /\ ~ In f help_strings) -> exists a', In a' opts /\ a_what a' = User n).
  Proof.
    intros E Hg Ht. exists (members P' 0), (members P' 1). destruct (groups_final P' E) as (l & El).
    assert (T := inv_two _ _ _ _ _ _ I0).
    assert (NC : forall a p, In a (p_actions P') -> a_what a = Conf p -> (2 <= a_group a)%nat).
    { intros a p Ha W. apply (in_final P' a E) in Ha. destruct Ha as [X|[X|[X|[X|X]]]].
      - apply steal_in in X. destruct X as (b & Hb & K1 & _). assert (Y := i_what _ _ _ _ _ _ I0 b Hb). rewrite <- K1, W in Y. destruct Y as [Y|[m Y]]; discriminate.
      - cbn in X. destruct X as [<-|[<-|[<-|[]]]]; discriminate.
      - unfold extra_actions in X. destruct (rev extras); [destruct X|]. destruct X as [<-|[]]. discriminate.
      - unfold cfg_actions in X. destruct (cfg_flags o); [destruct X|]. destruct X as [<-|[]]. discriminate.
      - apply in_conf in X. destruct X as (q & _ & _ & _ & Y). lia. }
    split; [|split; [|split; [|split]]].
    - rewrite <- C83_short_help. unfold print_short_help. rewrite El in Hg |- *. cbn [app kept_strings List.skipn numbered flat_map fst snd g_title g_desc] in *.
      assert (R : flat_map (fun ng : nat * group => match g_title (snd ng) with Some t => if has_string STANDARD t then [BSection (Some t) (g_desc (snd ng)) (members P' (fst ng))] else [] | None => [] end) (numbered 2 l) = []).
      { assert (G : forall k l, (forall g t, In g l -> g_title g = Some t -> t <> "positional arguments" /\ t <> "optional arguments") ->
          flat_map (fun ng : nat * group => match g_title (snd ng) with Some t => if has_string STANDARD t then [BSection (Some t) (g_desc (snd ng)) (members P' (fst ng))] else [] | None => [] end) (numbered k l) = []).
        { clear. intros k l. revert k. induction l as [|g l IH]; intros k H; [reflexivity|]. cbn [numbered flat_map fst snd]. rewrite IH by (intros; eapply H; [right|]; eauto). rewrite app_nil_r.
          destruct (g_title g) as [t|] eqn:Et; [|reflexivity]. destruct (H g t (or_introl eq_refl) Et) as [A B]. unfold has_string, STANDARD. cbn [existsb].
          rewrite (proj2 (String.eqb_neq _ _) A), (proj2 (String.eqb_neq _ _) B). reflexivity. }
        now apply G. }
      rewrite R. clear R. destruct Ht as [-> | ->]; reflexivity.
    - intros a Ha. unfold members in Ha. apply filter_In in Ha. destruct Ha as [Ha K]. apply Nat.eqb_eq in K. split; [|intros p W; specialize (NC a p Ha W); lia].
      apply (in_final P' a E) in Ha. destruct Ha as [X|[X|[X|[X|X]]]].
      + apply steal_in in X. destruct X as (b & Hb & _ & K2 & K3 & _). rewrite K3. rewrite (i_pos _ _ _ _ _ _ I0 b Hb) by congruence. reflexivity.
      + cbn in X. destruct X as [<-|[<-|[<-|[]]]]; discriminate.
      + unfold extra_actions in X. destruct (rev extras) as [|fl be]; [destruct X|]. destruct X as [<-|[]]. cbn in *. destruct fl; [reflexivity|discriminate].
      + unfold cfg_actions in X. destruct (cfg_flags o); [destruct X|]. destruct X as [<-|[]]. discriminate.
      + apply in_conf in X. destruct X as (q & _ & _ & _ & Y). lia.
    - intros a Ha. apply filter_In. split; [apply (in_final P' a E); tauto|]. cbn in Ha. destruct Ha as [<-|[<-|[<-|[]]]]; reflexivity.
    - intros a Ha. unfold members in Ha. apply filter_In in Ha. destruct Ha as [Ha K]. apply Nat.eqb_eq in K. split; [|intros p W; specialize (NC a p Ha W); lia].
      apply (in_final P' a E) in Ha. destruct Ha as [X|[X|[X|[X|X]]]].
      + apply steal_in in X. destruct X as (b & Hb & _ & K2 & _ & [K4|K4]); [|exact K4]. exfalso. exact (i_opt _ _ _ _ _ _ I0 b Hb ltac:(congruence) K4).
      + cbn in X. destruct X as [<-|[<-|[<-|[]]]]; discriminate.
      + unfold extra_actions in X. destruct (rev extras) as [|fl be]; [destruct X|]. destruct X as [<-|[]]. cbn in *. destruct fl; discriminate.
      + unfold cfg_actions in X. destruct (cfg_flags o); [destruct X|]. destruct X as [<-|[]]. discriminate.
      + apply in_conf in X. destruct X as (q & _ & _ & _ & Y). lia.
    - intros a n Ha Hw Hg1 (f & Hf & Nf). exists (mkaction (frees help_strings (a_flags a)) (a_what a) (a_group a)). split; [|exact Hw]. unfold members. apply filter_In. split; [|cbn [a_group]; rewrite Hg1; reflexivity].
      apply (in_final P' _ E). left. apply steal_in. exists a. cbn [a_flags a_what a_group]. repeat split; auto. right. intro Z. assert (X : In f (frees help_strings (a_flags a))) by (apply frees_in; auto). rewrite Z in X. destruct X.
  Qed.
End theorems.

(** ** A concrete case *)
Definition ex_calls : list call := [CHelp; CAdd None ["-v"; "--verbose"] 0; CAdd None [] 1; CGroup (Some "mine") None; CAdd (Some 2%nat) ["--mine"] 2].
Definition ex_parser (h : handler) (optionals : string) : parser :=
  match do_calls (new_parser optionals None (Some "A program") None h) ex_calls with Ok P => P | Raise _ => new_parser optionals None None None h end.
Definition ex_config : config :=
  mkconfig ["# -*- coding: utf-8 -*-"; "# Main : for all"] [("Run", Some "# Running: how it runs"); ("io", Some "# files")]
    [mkpath [] "level"; mkpath ["Run"] "fast"; mkpath ["Run"; "sub"] "x"; mkpath ["io"] "file"].
Example ex_made h optionals : made optionals None (Some "A program") None h ex_calls (ex_parser h optionals).
Proof.
  split; [|destruct h; reflexivity].
  repeat constructor; cbn; intuition discriminate.
Qed.
Example ex_config_ok : config_ok ex_config.
Proof. split; [repeat constructor; cbn; intuition discriminate|]. intros p s l H E. cbn in H. destruct H as [<-|[<-|[<-|[<-|[]]]]]; cbn in E; try discriminate; injection E as <- _; cbn; auto. Qed.
Example ex_coding : coding_line "# -*- coding: utf-8 -*-".
Proof. apply is_coding_iff. vm_compute. reflexivity. Qed.
Definition titles (l : list block) : list (option string * list (list string)) := flat_map (fun b => match b with BSection t _ l => [(t, map a_flags l)] | _ => [] end) l.
Example ex_helps : exists P', declare [] None [["--x"]; ["--y"]] (OptStr "cfgfile") ex_config (ex_parser HError "optional arguments") = Ok P' /\
  option_map titles (run_flag P' "--long-help") =
    Some [(Some "positional arguments", [[]]); (Some "optional arguments", [["-v"; "--verbose"]; ["-h"; "--help"]; ["--long-help"]; ["--short-help"]; ["--y"]; ["--cfgfile"]]);
          (Some "mine", [["--mine"]]); (Some "Main ", [["--level"]]); (Some "Running", [["--run-fast"]; ["--run-sub-x"]]); (Some "io", [["--io-file"]])] /\
  option_map titles (run_flag P' "-h") =
    Some [(Some "positional arguments", [[]]); (Some "optional arguments", [["-v"; "--verbose"]; ["-h"; "--help"]; ["--long-help"]; ["--short-help"]; ["--y"]; ["--cfgfile"]])].
Proof. eexists. split; [vm_compute; reflexivity|]. split; vm_compute; reflexivity. Qed.

(** ** What is false *)
(** -h shows the options of the program: not since Python 3.10, where their group is called "options" *)
Theorem C83_h_shows_options_refuted calls usage desc epilog P exc nested extras o c P' : made "options" usage desc epilog HError calls P ->
  Forall (@NoDup string) extras -> NoDup (cfg_flags o) -> config_ok c -> declare exc nested extras o c P = Ok P' ->
  (forall g t, In g (List.skipn 2 (p_groups P')) -> g_title g = Some t -> t <> "positional arguments" /\ t <> "optional arguments") ->
  exists b, run_flag P' "-h" = Some b /\ forall t d l a, In (BSection t d l) b -> In a l -> a_flags a = [].
Proof.
  intros M X O C E G. destruct (C83_run _ _ _ _ _ _ M exc nested extras o c X O P' E) as (H & _). eexists. split; [exact H|]. intros t d l a Hb Ha.
  destruct (C83_short_sections _ _ _ _ _ _ M exc nested extras o c X O P' E G (or_intror eq_refl)) as (pos & opts & S & Hp & _). cbn [String.eqb Ascii.eqb Bool.eqb] in S.
  assert (K : In (BSection t d l) [BSection (Some "positional arguments") None pos]) by (rewrite <- S; apply filter_In; split; [exact Hb|reflexivity]).
  destruct K as [K|[]]. injection K as _ _ <-. now apply Hp.
Qed.
(** The short helps do not show the options of the configuration: false for a section with such a title *)
Theorem C83_hides_configuration_refuted : exists P',
  declare [] None [] (OptStr "cfgfile") (mkconfig [] [("run", Some "# positional arguments: x")] [mkpath ["run"] "fast"]) (ex_parser HError "options") = Ok P' /\
  option_map titles (run_flag P' "-h") = Some [(Some "positional arguments", [[]]); (Some "positional arguments", [["--run-fast"]])].
Proof. eexists. split; vm_compute; reflexivity. Qed.
(** The help options always work: false with a parser that resolves the conflicts and an option "help" *)
Theorem C83_help_kept_refuted : exists P',
  declare [] None [] (OptStr "cfgfile") (mkconfig [] [] [mkpath [] "help"]) (ex_parser HResolve "options") = Ok P' /\ lookup P' "--help" = Some (Conf (mkpath [] "help")) /\ run_flag P' "--help" = None.
Proof. eexists. split; [vm_compute; reflexivity|]. split; vm_compute; reflexivity. Qed.
(** ... and with another parser the option "help" makes arg_parse fail *)
Theorem C83_option_help_fails optionals usage desc epilog calls P exc nested extras o c : made optionals usage desc epilog HError calls P ->
  Forall (@NoDup string) extras -> NoDup (cfg_flags o) -> config_ok c -> (exists p, In p (c_paths c) /\ declared exc p = true /\ In ("--" ++ flag nested p) help_strings) ->
  forall P', declare exc nested extras o c P <> Ok P'.
Proof.
  intros M X O C (p & Hp & Hd & Hf) P' E. destruct (proj1 (C83_succeeds_iff _ _ _ _ _ _ M exc nested extras o c X O C) (ex_intro _ P' E)) as [N _]. unfold wanted in N.
  apply nodup_app_split in N. destruct N as (_ & N & _). apply nodup_app_split in N. destruct N as (_ & _ & N). apply (N _ Hf). apply in_or_app. right. apply in_or_app. right. apply in_map_iff. exists p. split; [reflexivity|]. apply filter_In. auto.
Qed.
Example ex_option_help : declared [] (mkpath ["long"] "help") = true /\ In ("--" ++ flag None (mkpath ["long"] "help")) help_strings.
Proof. split; [reflexivity|]. vm_compute. auto. Qed.
(** --short-help shows the option of the configuration file: false with another name than the default *)
Theorem C83_file_shown_refuted : exists P' u l t,
  declare [] None [] (OptStr "config") ex_config (ex_parser HError "options") = Ok P' /\ lookup P' "--config" = Some CfgFile /\
  run_flag P' "--short-help" = Some (BUsage u l :: t) /\ map a_flags l = [[]; ["-h"; "--help"]; ["--long-help"]; ["--short-help"]; ["other-options"]].
Proof. do 4 eexists. split; [vm_compute; reflexivity|]. split; [vm_compute; reflexivity|]. split; vm_compute; reflexivity. Qed.
(** cfgargparse returns a configuration, as documented: false, with the parsed options; arg_parse does *)
Theorem C83_cfgargparse_refuted : cfgargparse_returns = Tuple [AConfig; AOptions] /\ forall x, cfgargparse_returns <> Single x.
Proof. split; [reflexivity|discriminate]. Qed.
Theorem C83_arg_parse_returns parse getparser getargs :
  (arg_parse_returns parse getparser getargs = Single AParser <-> parse = false) /\
  (arg_parse_returns parse getparser getargs = Single AConfig <-> parse = true /\ getparser = false /\ getargs = false) /\
  (forall l, arg_parse_returns parse getparser getargs = Tuple l -> hd_error l = Some AConfig /\ (In AParser l <-> getparser = true) /\ (In AOptions l <-> getargs = true)).
Proof.
  destruct parse, getparser, getargs; cbn; split; [split; auto; discriminate| |split; auto; discriminate| |split; auto; discriminate| |split; auto; discriminate| |split; auto| |split; auto| |split; auto| |split; auto|];
    (split; [intuition discriminate|intros l E; try discriminate; injection E as <-; cbn; intuition discriminate]).
Qed.
