(** C85: the values of the options of the command line. *)
From Verif Require Import PyDictFacts PyReFacts BoolSpec ValidatorsProps ValRegistry ValRegistrySpec ValRegistryProps CliValues.
From Coq Require Import Lia.
Open Scope string_scope.

(** ** Vocabulary *)
(** A specification: the name of a type, alone or with parameters *)
Definition type_word (k : string) : Prop := k <> "" /\ forall a b, k <> a ++ "(" ++ b.
Definition of_type (k spec : string) : Prop := type_word k /\ (spec = k \/ exists ps, spec = k ++ "(" ++ ps ++ ")").
(** The registry of xoa, after any calls of register_validation_functions that do not change [k] *)
Definition xoa_registry (fo : string -> nat) (h : list registry) (ks : list string) (r : registry) : Prop :=
  r = registered (import_registry fo) h /\ Forall dict_wf h /\ forall kw k, In kw h -> In k ks -> dmem kw k = false.

(** ** Facts *)
Lemma cut_word c k s : (forall a b, k <> a ++ String c b) -> cut c (k ++ String c s) = Some (k, s).
Proof.
  induction k as [|d k IH]; intro H; cbn [append cut].
  - now rewrite Ascii.eqb_refl.
  - destruct (Ascii.eqb_spec d c) as [->|N]; [now destruct (H "" k)|]. rewrite IH; [reflexivity|].
    intros a b ->. now apply (H (String d a) b).
Qed.
Lemma cut_none c k : (forall a b, k <> a ++ String c b) -> cut c k = None.
Proof.
  induction k as [|d k IH]; intro H; [reflexivity|]. cbn [cut].
  destruct (Ascii.eqb_spec d c) as [->|N]; [now destruct (H "" k)|]. rewrite IH; [reflexivity|].
  intros a b ->. now apply (H (String d a) b).
Qed.
Lemma type_name_of k spec : of_type k spec -> type_name spec = k.
Proof.
  intros [[_ H] [->|[ps ->]]]; unfold type_name.
  - now rewrite (cut_none "(" k).
  - change ("(" ++ ps ++ ")") with (String "(" (ps ++ ")")). now rewrite cut_word.
Qed.
Lemma cut_last_end c s : exists x, cut_last c (s ++ String c "") = Some x.
Proof.
  induction s as [|d s [x IH]]; cbn [append cut_last].
  - rewrite Ascii.eqb_refl. eauto.
  - rewrite IH. eauto.
Qed.
Lemma check_name k spec c : of_type k spec -> parse_check spec = Ok c -> c_name c = k.
Proof.
  intros [[Hn H] Hs] E. destruct k as [|d k]; [congruence|].
  assert (H' : forall a b, k <> a ++ String "(" b) by (intros a b ->; now apply (H (String d a) b)).
  destruct Hs as [->|[ps ->]].
  - unfold parse_check in E. rewrite (cut_none "(" k H') in E. now injection E as <-.
  - change (String d k ++ "(" ++ ps ++ ")") with (String d (k ++ String "(" (ps ++ ")"))) in E.
    unfold parse_check in E. rewrite cut_word in E by exact H'.
    destruct (cut_last_end ")" ps) as [x Ex]. change (ps ++ ")") with (ps ++ String ")" "") in E. rewrite Ex in E.
    destruct (parse_params x); [|discriminate]. now injection E as <-.
Qed.

Lemma import_kept fo h k e : Forall dict_wf h -> (forall kw, In kw h -> dmem kw k = false) ->
  dget (import_registry fo) k = Some e -> dget (registered (import_registry fo) h) k = Some e.
Proof.
  intros Wh Hh H. assert (K := C53_kept (map (fun k => (k, of_func (Base (fo k)))) names0) [] h k e (import_wf fo) Wh Hh).
  cbn zeta in K. change (registered (update_registry (map (fun k0 => (k0, of_func (Base (fo k0)))) names0)) []) with (import_registry fo) in K.
  exact (K H).
Qed.

Section Props.
Variables (params : nat -> list string) (run : nat -> yval -> list yval -> dict yval -> res yval) (to_int : yval -> res Z)
  (handle : string -> option yval) (own user : dict func).
Notation option_value := (option_value params run to_int handle own).
Notation file_value := (file_value params run to_int handle own).
Notation check := (check params run to_int).

(** The type of the option is registered as a list type (iterable), or not *)
Definition list_type (r : registry) (spec : string) : Prop := exists k e, of_type k spec /\ dget r k = Some e /\ e_iter e = Some true.
Definition other_type (r : registry) (spec : string) : Prop :=
  exists k, of_type k spec /\ (dget r k = None \/ exists e, dget r k = Some e /\ e_iter e = Some false).
Definition flag_type (r : registry) (spec : string) : Prop := exists k e, of_type k spec /\ dget r k = Some e /\ e_opttype e = Some "boolean".
Lemma not_flag r bf spec d : (bf = false \/ ~ flag_type r spec) -> (exists k, of_type k spec) ->
  action_of bf r spec d = Store (match dget r (type_name spec) with Some e => match e_iter e with Some b => b | None => false end | None => false end).
Proof.
  intros H (k & Hk). unfold action_of. destruct bf; [|reflexivity]. destruct H as [H|H]; [discriminate|]. cbn [andb].
  destruct (dget r (type_name spec)) as [e|] eqn:E; [|reflexivity]. destruct (e_opttype e) as [t|] eqn:Et; [|reflexivity].
  destruct (String.eqb_spec t "boolean") as [->|]; [|reflexivity]. destruct H. rewrite (type_name_of k) in E by exact Hk.
  exists k, e. auto.
Qed.
Lemma same_functions r top spec v k : dict_wf own -> dict_wf r -> dict_wf user -> of_type k spec -> (top = false \/ dget user k = None) ->
  check (functions_of own r user top) spec v = check (get_validator own r user) spec v.
Proof.
  intros Wo Wr Wu Hk H. unfold functions_of. destruct top; [|reflexivity]. destruct H as [H|H]; [discriminate|].
  unfold CliValues.check. destruct (parse_check spec) as [c|] eqn:E; [|reflexivity]. cbn [bind].
  rewrite (check_name k spec c Hk E), !C53_validator by (auto; constructor). rewrite H. reflexivity.
Qed.

(** A value of a list type is the one that the same text gives in a configuration file.  Exceptions: None,
    which is as if the option were not given, and top level options of types of the user *)
Theorem C85_lists r bf top spec d t v : dict_wf own -> dict_wf r -> dict_wf user ->
  list_type r spec -> (bf = false \/ ~ flag_type r spec) -> (top = false \/ forall k, of_type k spec -> dget user k = None) ->
  (file_value r user spec t = Some v /\ v <> YNone <-> option_value r user bf top spec d (With t) = Value v) /\
  (file_value r user spec t = Some YNone -> option_value r user bf top spec d (With t) = Nothing) /\
  (file_value r user spec t = None <-> option_value r user bf top spec d (With t) = Usage \/ exists e, option_value r user bf top spec d (With t) = Fails e) /\
  option_value r user bf top spec d Absent = Nothing.
Proof.
  intros Wo Wr Wu (k & e & Hk & He & Hi) Hf Hu.
  assert (Hu' : top = false \/ dget user k = None) by (destruct Hu; auto).
  unfold CliValues.option_value, CliValues.file_value. rewrite !(not_flag r bf spec) by eauto. rewrite (type_name_of k) by exact Hk.
  rewrite He, Hi. destruct (handle t) as [w|].
  - rewrite (same_functions r top spec w k) by auto. destruct (check (get_validator own r user) spec w) as [x|x]; cbn [checked].
    + destruct x; repeat split; try congruence; try (intros [? ?]; congruence); try (intros [H|[y H]]; congruence);
        try (intro H; injection H as <-; congruence); auto.
    + destruct (caught x); repeat split; try congruence; try (intros [? ?]; congruence); eauto.
  - repeat split; try congruence; try (intros [? ?]; congruence); eauto.
Qed.

(** The words of a list are validated one by one, with the function of the elements *)
Theorem C85_list_words r bf top k n b o a d t words out : dict_wf own -> dict_wf r -> dict_wf user ->
  type_word k -> dget user k = None -> (bf = false \/ o <> "boolean") ->
  dget r k = Some (mkentry (Some (WrapList (Wrap (Base n)))) b (Some true) (Some o) a) ->
  handle t = Some (YList (map YStr words)) ->
  option_value r user bf top k d (With t) = Value out <->
  exists l, Forall2 (fun w y => run n (YStr w) [] [] = Ok y) words l /\ out = YList l.
Proof.
  intros Wo Wr Wu Hk Hu Hf Hr Ht.
  assert (Ok_ : of_type k k) by (split; [exact Hk|now left]).
  assert (P : parse_check k = Ok (mkcheck k [] [] None)).
  { destruct Hk as [Hn H]. destruct k as [|c k]; [congruence|]. unfold parse_check.
    rewrite (cut_none "(" k); [reflexivity|]. intros x y ->. now apply (H (String c x) y). }
  unfold CliValues.option_value. rewrite not_flag.
  2:{ destruct Hf as [Hf|Hf]; [now left|right]. intros (k' & e & Hk' & He & Ho). apply Hf.
      assert (k' = k) as -> by (rewrite <- (type_name_of k' k), (type_name_of k k) by auto; reflexivity).
      rewrite Hr in He. injection He as <-. cbn in Ho. now injection Ho. }
  2: eauto.
  rewrite (type_name_of k) by exact Ok_. rewrite Hr. cbn [e_iter]. rewrite Ht.
  rewrite (same_functions r top k _ k) by auto. unfold CliValues.check. rewrite P. cbn [bind c_name c_args c_kwargs map].
  rewrite C53_validator by auto. rewrite Hu, Hr. cbn [option_map valwrap].
  pose proof (fun out => C53_list_call params run to_int n (YList (map YStr words)) [] [] None None None out
    ltac:(intros [H|H]; discriminate) eq_refl eq_refl eq_refl eq_refl) as L. cbn zeta in L.
  assert (Fg : flags_given (mklopts None None None None None false)) by (split; exists false; reflexivity).
  cbn [effective elements dget rebuilt List.filter] in L.
  assert (Al : allowed (mklopts None None None None None false) (List.length (map YStr words))).
  { repeat split; cbn; try discriminate. }
  assert (F2 : forall l, Forall2 (fun x y => run n x [] [] = Ok y) (map YStr words) l <-> Forall2 (fun w y => run n (YStr w) [] [] = Ok y) words l).
  { clear. induction words as [|w ws IH]; intro l; split; intro H; inversion H; subst; constructor; auto; now apply IH. }
  destruct (call params run to_int (WrapList (Wrap (Base n))) (YList (map YStr words)) [] []) as [v|e] eqn:E.
  - destruct (proj1 (L v Fg) eq_refl) as (_ & l & Hl & Ev). subst v. cbn [checked]. rewrite F2 in Hl. split.
    + intro H. injection H as <-. eauto.
    + intros (l' & Hl' & ->). assert (X := proj2 (L (YList l') Fg) (conj Al (ex_intro _ l' (conj (proj2 (F2 l') Hl') eq_refl)))). injection X as X. now rewrite X.
  - split.
    + cbn [checked]. destruct (caught e); discriminate.
    + intros (l' & Hl' & ->). assert (X := proj2 (L (YList l') Fg) (conj Al (ex_intro _ l' (conj (proj2 (F2 l') Hl') eq_refl)))). discriminate.
Qed.

(** A value of another type is the text itself, validated *)
Theorem C85_texts r bf top spec d t : other_type r spec -> (bf = false \/ ~ flag_type r spec) ->
  option_value r user bf top spec d (With t) =
    match check (functions_of own r user top) spec (YStr t) with
    | Ok YNone => Nothing
    | Ok v => Value v
    | Raise (TypeError | ValueError) => Usage
    | Raise e => Fails (Some e)
    end /\
  option_value r user bf top spec d Absent = Nothing.
Proof.
  intros (k & Hk & He) Hf. unfold CliValues.option_value. rewrite !(not_flag r bf spec) by eauto. rewrite (type_name_of k) by exact Hk.
  assert (E : match dget r k with Some e => match e_iter e with Some b => b | None => false end | None => false end = false).
  { destruct He as [->|(e & -> & ->)]; reflexivity. }
  rewrite E. split; [|reflexivity]. destruct (check _ spec (YStr t)) as [[]|[]]; reflexivity.
Qed.
(** Hence the same as in a file for the texts that the file reads as they are, ... *)
Theorem C85_plain_texts r bf top spec d t v : dict_wf own -> dict_wf r -> dict_wf user ->
  other_type r spec -> (bf = false \/ ~ flag_type r spec) -> (top = false \/ forall k, of_type k spec -> dget user k = None) ->
  handle t = Some (YStr t) ->
  (file_value r user spec t = Some v /\ v <> YNone <-> option_value r user bf top spec d (With t) = Value v).
Proof.
  intros Wo Wr Wu Ho Hf Hu Ht. rewrite (proj1 (C85_texts r bf top spec d t Ho Hf)). destruct Ho as (k & Hk & _).
  unfold CliValues.file_value. rewrite Ht. rewrite (same_functions r top spec _ k); auto.
  - destruct (check (get_validator own r user) spec (YStr t)) as [x|x].
    + destruct x; split; try congruence; try (intros [? ?]; congruence); intro H; injection H as <-; split; congruence.
    + destruct x; split; try congruence; intros [? ?]; congruence.
  - destruct Hu; auto.
Qed.
(** ... but not for the others: a function that returns its text returns it as it was typed, quotes included *)
Theorem C85_quotes_refuted r bf top k n t u d : dict_wf own -> dict_wf r -> dict_wf user ->
  type_word k -> dget user k = None -> (bf = false \/ ~ flag_type r k) ->
  dget r k = Some (mkentry (Some (Wrap (Base n))) (Some (Base n)) (Some false) (Some k) (Some (Wrap (Base n)))) ->
  (forall s args kw, run n (YStr s) args kw = Ok (YStr s)) ->
  handle t = Some (YStr u) -> t <> u ->
  option_value r user bf top k d (With t) = Value (YStr t) /\ file_value r user k t = Some (YStr u).
Proof.
  intros Wo Wr Wu Hk Hu Hf Hr Hrun Ht Htu.
  assert (Ok_ : of_type k k) by (split; [exact Hk|now left]).
  assert (P : parse_check k = Ok (mkcheck k [] [] None)).
  { destruct Hk as [Hn H]. destruct k as [|c k]; [congruence|]. unfold parse_check.
    rewrite (cut_none "(" k); [reflexivity|]. intros a b ->. now apply (H (String c a) b). }
  assert (C : forall s, check (get_validator own r user) k (YStr s) = Ok (YStr s)).
  { intro s. unfold CliValues.check. rewrite P. cbn [bind c_name]. rewrite C53_validator by auto. rewrite Hu, Hr. cbn. apply Hrun. }
  split.
  - rewrite (proj1 (C85_texts r bf top k d t ltac:(exists k; split; [exact Ok_|right; eexists; split; [exact Hr|reflexivity]]) Hf)).
    rewrite (same_functions r top k _ k) by auto. now rewrite C.
  - unfold CliValues.file_value. rewrite Ht. now rewrite C.
Qed.

(** Errors of the validation functions of configobj and xoa are no errors of usage: the exception goes up *)
Theorem C85_invalid_refuted r bf top spec d t e : other_type r spec -> (bf = false \/ ~ flag_type r spec) ->
  check (functions_of own r user top) spec (YStr t) = Raise e -> In e [ValidateError; VdtTypeError; VdtValueError; VdtSizeError] ->
  option_value r user bf top spec d (With t) = Fails (Some e).
Proof.
  intros Ho Hf E He. rewrite (proj1 (C85_texts r bf top spec d t Ho Hf)), E. cbn in He.
  repeat destruct He as [<-|He]; try reflexivity. destruct He.
Qed.

(** A type of the validator of the user: known in a section, unknown at the top level *)
Theorem C85_user_type_refuted r bf spec d t k f c : dict_wf own -> dict_wf r -> dict_wf user ->
  of_type k spec -> parse_check spec = Ok c ->
  dget user k = Some f -> dget r k = None -> dget own k = None ->
  option_value r user bf true spec d (With t) = Fails (Some ValidateError) /\
  option_value r user bf false spec d (With t) =
    checked (call params run to_int (valwrap f) (YStr t) (map YStr (c_args c)) (map (fun kv => (fst kv, YStr (snd kv))) (c_kwargs c))).
Proof.
  intros Wo Wr Wu Hk Hc Hu Hr Ho. unfold CliValues.option_value, action_of. rewrite (type_name_of k) by exact Hk. rewrite Hr, andb_false_r.
  unfold functions_of, CliValues.check. rewrite Hc. cbn [bind]. rewrite (check_name k spec c Hk Hc), !C53_validator by (auto; constructor).
  rewrite Hu, Hr, Ho. split; reflexivity.
Qed.

(** A boolean is a flag that inverts its default; a value or a repetition of the default cannot be given *)
Theorem C85_boolean fo h r top spec b : xoa_registry fo h ["boolean"] r -> of_type "boolean" spec ->
  option_value r user true top spec (YBool b) Absent = Value (YBool b) /\
  option_value r user true top spec (YBool b) Alone = Value (YBool (negb b)) /\
  forall t, option_value r user true top spec (YBool b) (With t) = Usage.
Proof.
  intros (-> & Wh & Hh) Hs. unfold CliValues.option_value, action_of. rewrite (type_name_of "boolean") by exact Hs.
  assert (E : dget (registered (import_registry fo) h) "boolean" =
    Some (mkentry (Some (Wrap (Base (fo "boolean")))) (Some (Base (fo "boolean"))) (Some false) (Some "boolean") (Some (Wrap (Base (fo "boolean")))))).
  { apply import_kept; [exact Wh|intros kw Hk; apply Hh; [exact Hk|now left]|vm_compute; reflexivity]. }
  rewrite E. destruct b; repeat split; reflexivity.
Qed.
(** A list of booleans is taken for a flag too: it becomes True when the command line does not have it, False
    when it has it, and no list can be given *)
Theorem C85_booleans_refuted fo h r k top spec l : xoa_registry fo h ["booleans"; "boolean_list"] r -> In k ["booleans"; "boolean_list"] -> of_type k spec ->
  option_value r user true top spec (YList l) Absent = Value (YBool true) /\
  option_value r user true top spec (YList l) Alone = Value (YBool false) /\
  forall t, option_value r user true top spec (YList l) (With t) = Usage.
Proof.
  intros (-> & Wh & Hh) Hk Hs. unfold CliValues.option_value, action_of. rewrite (type_name_of k) by exact Hs.
  assert (E : dget (registered (import_registry fo) h) k =
    Some (mkentry (Some (WrapList (Wrap (Base (fo "boolean"))))) (Some (Base (fo "boolean"))) (Some true) (Some "boolean") (Some (Wrap (Base (fo "boolean")))))).
  { apply import_kept; [exact Wh|intros kw Hw; now apply Hh|].
    cbn [In] in Hk. destruct Hk as [<-|[<-|[]]]; vm_compute; reflexivity. }
  rewrite E. repeat split; reflexivity.
Qed.
End Props.

(** ** Cases that meet the hypotheses *)
(** Reading of values: quotes removed, [a, b] is a list *)
Definition handle_ex (t : string) : option yval :=
  if String.eqb t "1, 2" then Some (YList [YStr "1"; YStr "2"])
  else if String.eqb t "'a b'" then Some (YStr "a b")
  else if String.eqb t "'a" then None else Some (YStr t).
Definition fo_ex (k : string) : nat := if String.eqb k "string" then 0%nat else String.length k.
(** The validators: is_string is 0; integers of one digit for the others *)
Definition run_v (n : nat) (v : yval) (args : list yval) (kw : dict yval) : res yval :=
  match n, v with
  | O, _ => Ok v
  | _, YStr "1" => Ok (YNum (Some 1%Q))
  | _, YStr "2" => Ok (YNum (Some 2%Q))
  | _, YStr "*" => Ok YNone
  | _, _ => Raise VdtTypeError
  end.
Definition toi_ex (v : yval) : res Z := match v with YStr "2" => Ok 2%Z | _ => Raise TypeError end.
Notation r_ex := (registered (import_registry fo_ex) [[("box", of_func (Base 40))]]).
Lemma word_of k : k <> "" -> existsb (Ascii.eqb "(") (list_ascii_of_string k) = false -> type_word k.
Proof.
  intros Hn H. split; [exact Hn|]. intros a b ->. clear Hn. induction a as [|c a IH]; cbn [append list_ascii_of_string existsb] in H.
  - cbn in H. discriminate.
  - apply orb_false_elim in H. tauto.
Qed.
Lemma r_ex_xoa : xoa_registry fo_ex [[("box", of_func (Base 40))]] ["boolean"; "booleans"; "boolean_list"; "integers"; "string"] r_ex.
Proof.
  split; [reflexivity|]. split; [repeat constructor; cbn; tauto|]. intros kw k [<-|[]] Hk. cbn [In] in Hk.
  repeat destruct Hk as [<-|Hk]; try destruct Hk; reflexivity.
Qed.
Lemma ex_of_type : of_type "integers" "integers(n=2)" /\ of_type "boolean" "boolean(default=True)" /\ of_type "string" "string" /\ of_type "box" "box".
Proof.
  split; [split; [apply word_of; [discriminate|reflexivity]|right; now exists "n=2"]|].
  split; [split; [apply word_of; [discriminate|reflexivity]|right; now exists "default=True"]|].
  split; split; try (now left); apply word_of; try discriminate; reflexivity.
Qed.
Example ex_list : list_type r_ex "integers(n=2)" /\ ~ flag_type r_ex "integers(n=2)" /\ other_type r_ex "string" /\
  option_value (fun _ => []) run_v toi_ex handle_ex [] r_ex [] true true "integers(n=2)" YNone (With "1, 2") = Value (YList [YNum (Some 1%Q); YNum (Some 2%Q)]) /\
  file_value (fun _ => []) run_v toi_ex handle_ex [] r_ex [] "integers(n=2)" "1, 2" = Some (YList [YNum (Some 1%Q); YNum (Some 2%Q)]) /\
  option_value (fun _ => []) run_v toi_ex handle_ex [] r_ex [] true true "integers(n=2)" YNone (With "'a") = Fails None.
Proof.
  destruct ex_of_type as (T1 & _ & T2 & _).
  split; [eexists "integers", _; split; [exact T1|]; split; [vm_compute; reflexivity|reflexivity]|].
  split; [intros (k & e & Hk & He & Ho); assert (k = "integers") as -> by (rewrite <- (type_name_of k _ Hk); reflexivity);
    vm_compute in He; injection He as <-; discriminate|].
  split; [exists "string"; split; [exact T2|]; right; eexists; split; [vm_compute; reflexivity|reflexivity]|].
  repeat split; vm_compute; reflexivity.
Qed.
Example ex_words : exists b a, dget r_ex "integer_list" = Some (mkentry (Some (WrapList (Wrap (Base 7)))) b (Some true) (Some "integer") a) /\
  handle_ex "1, 2" = Some (YList (map YStr ["1"; "2"])).
Proof. eexists _, _. split; vm_compute; reflexivity. Qed.
Example ex_texts :
  option_value (fun _ => []) run_v toi_ex handle_ex [] r_ex [] true true "string" YNone (With "'a b'") = Value (YStr "'a b'") /\
  file_value (fun _ => []) run_v toi_ex handle_ex [] r_ex [] "string" "'a b'" = Some (YStr "a b") /\
  option_value (fun _ => []) run_v toi_ex handle_ex [] r_ex [] true true "integer" YNone (With "x") = Fails (Some VdtTypeError) /\
  option_value (fun _ => []) run_v toi_ex handle_ex [] r_ex [] true true "integer" YNone (With "*") = Nothing /\
  option_value (fun _ => []) run_v toi_ex handle_ex [] r_ex [] true true "boolean(default=True)" (YBool true) Alone = Value (YBool false) /\
  option_value (fun _ => []) run_v toi_ex handle_ex [] r_ex [] false true "boolean(default=True)" (YBool true) Alone = Usage /\
  option_value (fun _ => []) run_v toi_ex handle_ex [] r_ex [("mine", Base 3)] true true "mine" YNone (With "1") = Fails (Some ValidateError) /\
  option_value (fun _ => []) run_v toi_ex handle_ex [] r_ex [("mine", Base 3)] true false "mine" YNone (With "1") = Value (YNum (Some 1%Q)).
Proof. repeat split; vm_compute; reflexivity. Qed.

Print Assumptions C85_lists.
Print Assumptions C85_list_words.
Print Assumptions C85_texts.
Print Assumptions C85_plain_texts.
Print Assumptions C85_quotes_refuted.
Print Assumptions C85_invalid_refuted.
Print Assumptions C85_user_type_refuted.
Print Assumptions C85_boolean.
Print Assumptions C85_booleans_refuted.
