(** C84: the documentation put in the docstring of a function. *)
From Verif Require Import Misc ChoiceDoc MiscProofs ChoiceDocProps.
From Coq Require Import Lia Arith.
Open Scope string_scope.

Lemma digits_iff n : digits n = true <-> a_number n.
Proof.
  unfold a_number. induction n as [|c n IH]; cbn [digits occurs]; [split; [tauto|auto]|].
  rewrite andb_true_iff, IH. assert (D : digit c = true <-> In c (list_ascii_of_string "0123456789")).
  { unfold digit. rewrite andb_true_iff, !Nat.leb_le. split.
    - intros [L U]. assert (Ec : c = ascii_of_nat (nat_of_ascii c)) by now rewrite ascii_nat_embedding.
      rewrite Ec. remember (nat_of_ascii c) as k eqn:Ek. clear Ek Ec IH.
      do 48 (destruct k as [|k]; [lia|]). do 10 (destruct k as [|k]; [cbn; tauto|]). lia.
    - cbn. intros H. repeat destruct H as [<-|H]; try destruct H; cbn; lia. }
  rewrite D. split.
  - intros [H1 H2] d [->|Hd]; auto.
  - intro H. split; [apply H; auto|]. intros d Hd. apply H. auto.
Qed.

Section Fmt.
Variables (parameter value : string) (extra : string -> res string).
Notation run := (run parameter value extra).
Notation format := (format parameter value extra).

Lemma run_doubled s r : run Lit (doubled s ++ r) = let* t := run Lit r in Ok (s ++ t).
Proof.
  induction s as [|c s IH].
  - cbn [doubled append]. destruct (run Lit r); reflexivity.
  - cbn [doubled]. destruct (ascii_dec c "{") as [->|H1]; [|destruct (ascii_dec c "}") as [->|H2]].
    + cbn [append ChoiceDoc.run step Ascii.eqb Bool.eqb]. fold run. rewrite IH. destruct (run Lit r); reflexivity.
    + cbn [append ChoiceDoc.run step Ascii.eqb Bool.eqb]. fold run. rewrite IH. destruct (run Lit r); reflexivity.
    + cbn [append ChoiceDoc.run step]. destruct (Ascii.eqb_spec c "{"); [contradiction|].
      destruct (Ascii.eqb_spec c "}"); [contradiction|]. rewrite IH. destruct (run Lit r); reflexivity.
Qed.
Lemma step_plain n c : plain_char c -> step_name n c = Go (Name (snoc n c)).
Proof.
  unfold plain_char, step_name. intro H.
  destruct (Ascii.eqb_spec c "{"); [destruct H; cbn; auto|].
  destruct (Ascii.eqb_spec c "}"); [destruct H; cbn; auto|].
  destruct (Ascii.eqb_spec c "["); [destruct H; cbn; auto|].
  destruct (Ascii.eqb_spec c "."); [destruct H; cbn; auto|].
  destruct (Ascii.eqb_spec c "!"); [destruct H; cbn; auto 6|].
  destruct (Ascii.eqb_spec c ":"); [destruct H; cbn; auto 7|]. reflexivity.
Qed.
Lemma plain_tail c n : plain (String c n) -> plain_char c /\ plain n.
Proof. intro H. split; [apply H; now left|]. intros d Hd. apply H. now right. Qed.
Lemma run_name n : forall acc r, plain n ->
  run (Name acc) (n ++ String "}" r) = let* v := field parameter value extra (acc ++ n) "" in let* t := run Lit r in Ok (v ++ t).
Proof.
  induction n as [|c n IH]; intros acc r H.
  - cbn [append ChoiceDoc.run step step_name Ascii.eqb Bool.eqb]. rewrite sapp_nil. reflexivity.
  - apply plain_tail in H. destruct H as [Hc Hn]. cbn [append ChoiceDoc.run step]. rewrite (step_plain acc c Hc).
    rewrite (IH (snoc acc c) r Hn). unfold snoc. rewrite sapp_assoc. reflexivity.
Qed.
Lemma run_field n r : plain n -> run Lit ("{" ++ n ++ String "}" r) =
  let* v := field parameter value extra n "" in let* t := run Lit r in Ok (v ++ t).
Proof.
  intro H. destruct n as [|c n].
  - reflexivity.
  - apply plain_tail in H as H'. destruct H' as [Hc Hn].
    assert (Hb : Ascii.eqb c "{" = false) by (destruct (Ascii.eqb_spec c "{") as [->|]; [destruct Hc; now left|reflexivity]).
    cbn [append ChoiceDoc.run]. cbn [step Ascii.eqb Bool.eqb]. rewrite Hb, (step_plain "" c Hc).
    rewrite (run_name n (snoc "" c) r Hn). reflexivity.
Qed.
Lemma field_own : plain parameter -> ~ a_number parameter -> field parameter value extra parameter "" = Ok value.
Proof.
  intros _ H. unfold field. destruct (digits parameter) eqn:E; [apply digits_iff in E; contradiction|].
  now rewrite String.eqb_refl.
Qed.
Lemma run_written ps : plain parameter -> ~ a_number parameter -> forall r,
  run Lit (all_of (written parameter) ps ++ r) = let* t := run Lit r in Ok (all_of (filled value) ps ++ t).
Proof.
  intros Hp Hn. induction ps as [|p ps IH]; intro r.
  - cbn. destruct (run Lit r); reflexivity.
  - rewrite !all_of_cons, sapp_assoc. destruct p as [s|]; cbn [written filled].
    + rewrite run_doubled, IH. destruct (run Lit r); [|reflexivity]. cbn [bind]. now rewrite sapp_assoc.
    + change (("{" ++ parameter ++ "}") ++ all_of (written parameter) ps ++ r)
        with ("{" ++ (parameter ++ "}") ++ all_of (written parameter) ps ++ r).
      rewrite (sapp_assoc parameter "}"). change ("}" ++ all_of (written parameter) ps ++ r)
        with (String "}" (all_of (written parameter) ps ++ r)).
      rewrite run_field by auto. rewrite field_own by auto. cbn [bind]. rewrite IH.
      destruct (run Lit r); [|reflexivity]. cbn [bind]. now rewrite sapp_assoc.
Qed.

(** Each place of the parameter is filled, doubled braces become single, the rest is kept *)
Theorem C84_filled ps : plain parameter -> ~ a_number parameter ->
  format (all_of (written parameter) ps) = Ok (all_of (filled value) ps).
Proof.
  intros Hp Hn. unfold ChoiceDoc.format. rewrite <- (sapp_nil (all_of (written parameter) ps)), run_written by auto.
  cbn. now rewrite sapp_nil.
Qed.
(** Braces with something else fail, whatever comes next *)
Theorem C84_other_field ps n r : plain parameter -> ~ a_number parameter -> plain n -> n <> parameter ->
  (a_number n -> format (all_of (written parameter) ps ++ "{" ++ n ++ "}" ++ r) = Raise IndexError) /\
  (~ a_number n -> format (all_of (written parameter) ps ++ "{" ++ n ++ "}" ++ r) = Raise KeyError).
Proof.
  intros Hp Hn H Hne. unfold ChoiceDoc.format. rewrite run_written by auto.
  change ("}" ++ r) with (String "}" r). rewrite run_field by auto. unfold field. split; intro D.
  - now rewrite (proj2 (digits_iff n) D).
  - destruct (digits n) eqn:E; [apply digits_iff in E; contradiction|].
    destruct (String.eqb_spec n parameter); [contradiction|]. reflexivity.
Qed.
(** What can follow the name of a field: attributes and indices, a conversion, a format *)
Inductive path : string -> Prop :=
| path_nil : path ""
| path_char c r : ~ In c (list_ascii_of_string "{}[!:") -> path r -> path (String c r)
| path_index i r : ~ occurs "]" i -> path r -> path ("[" ++ i ++ "]" ++ r).
Definition starts_path (p : string) : Prop := exists r, p = String "." r \/ p = String "[" r.
Definition conversion (s : string) : Prop := s = "" \/ exists c, s = String "!" (String c "").
Definition format_spec (s : string) : Prop := s = "" \/ exists t, s = String ":" t /\ ~ occurs "{" t /\ ~ occurs "}" t.
Inductive suffix : string -> Prop :=
| a_suffix p c f : path p -> p = "" \/ starts_path p -> conversion c -> format_spec f -> suffix (p ++ c ++ f).
Lemma snoc_app a c r : snoc a c ++ r = a ++ String c r.
Proof. unfold snoc. now rewrite sapp_assoc. Qed.
Lemma run_index n i : ~ occurs "]" i -> forall acc s, run (Index n acc) (i ++ "]" ++ s) = run (Path n (acc ++ i ++ "]")) s.
Proof.
  induction i as [|c i IH]; intros H acc s.
  - cbn [append ChoiceDoc.run step Ascii.eqb Bool.eqb]. reflexivity.
  - cbn [occurs] in H. cbn [append ChoiceDoc.run step]. destruct (Ascii.eqb_spec c "]") as [->|]; [tauto|].
    change (String "]" s) with ("]" ++ s). rewrite IH by tauto. now rewrite snoc_app.
Qed.
Lemma run_path p : path p -> forall n acc s, run (Path n acc) (p ++ s) = run (Path n (acc ++ p)) s.
Proof.
  induction 1 as [|c r H _ IH|i r H _ IH]; intros n acc s.
  - now rewrite sapp_nil.
  - cbn [append ChoiceDoc.run step]. cbn in H.
    destruct (Ascii.eqb_spec c "{"); [subst; tauto|]. destruct (Ascii.eqb_spec c "}"); [subst; tauto|]. destruct (Ascii.eqb_spec c "["); [subst; tauto|].
    destruct (Ascii.eqb_spec c "!"); [subst; tauto|]. destruct (Ascii.eqb_spec c ":"); [subst; tauto|]. rewrite IH. now rewrite snoc_app.
  - change (("[" ++ i ++ "]" ++ r) ++ s) with (String "[" ((i ++ "]" ++ r) ++ s)). rewrite !sapp_assoc. cbn [ChoiceDoc.run step Ascii.eqb Bool.eqb].
    rewrite run_index by auto. rewrite IH. f_equal. f_equal. unfold snoc. rewrite !sapp_assoc. reflexivity.
Qed.
Lemma run_spec n t : ~ occurs "{" t -> ~ occurs "}" t -> forall acc s,
  run (Spec n acc 0) (t ++ String "}" s) = let* v := field parameter value extra n (acc ++ t) in let* t := run Lit s in Ok (v ++ t).
Proof.
  induction t as [|c t IH]; intros H1 H2 acc s.
  - rewrite sapp_nil. reflexivity.
  - cbn [occurs] in H1, H2. cbn [append ChoiceDoc.run step]. destruct (Ascii.eqb_spec c "{") as [->|]; [tauto|]. destruct (Ascii.eqb_spec c "}") as [->|]; [tauto|].
    rewrite IH by tauto. now rewrite snoc_app.
Qed.
Lemma run_tail c f : conversion c -> format_spec f -> forall n acc s,
  run (Path n acc) (c ++ f ++ String "}" s) = (let* v := field parameter value extra n (acc ++ c ++ f) in let* t := run Lit s in Ok (v ++ t)) /\
  (acc = "" -> run (Name n) (c ++ f ++ String "}" s) = let* v := field parameter value extra n (c ++ f) in let* t := run Lit s in Ok (v ++ t)).
Proof.
  intros [->|[d ->]] [->|(t & -> & T1 & T2)] n acc s.
  - cbn [append]. rewrite sapp_nil. split; [reflexivity|intros ->; reflexivity].
  - cbn [append]. split; [|intros ->]; cbn [ChoiceDoc.run step step_name Ascii.eqb Bool.eqb]; rewrite run_spec by auto; [now rewrite snoc_app|reflexivity].
  - cbn [append]. split; [|intros ->]; cbn [ChoiceDoc.run step step_name Ascii.eqb Bool.eqb]; [unfold snoc; rewrite !sapp_assoc; reflexivity|reflexivity].
  - cbn [append]. split; [|intros ->]; cbn [ChoiceDoc.run step step_name Ascii.eqb Bool.eqb]; rewrite run_spec by auto; [now rewrite !snoc_app|reflexivity].
Qed.
Lemma run_suffix r n s : suffix r ->
  run (Name n) (r ++ String "}" s) = let* v := field parameter value extra n r in let* t := run Lit s in Ok (v ++ t).
Proof.
  intros [p c f Hp [->|(q & Hq)] Hc Hf].
  - cbn [append]. rewrite sapp_assoc. now apply (run_tail c f Hc Hf n "").
  - rewrite !sapp_assoc. destruct Hq as [->| ->].
    + inversion Hp as [|? ? Hb Hq|i r0 H Hr E]; subst.
      cbn [append ChoiceDoc.run step step_name Ascii.eqb Bool.eqb]. rewrite (run_path q Hq). rewrite (proj1 (run_tail c f Hc Hf n _ s)). now rewrite !sapp_assoc.
    + inversion Hp as [|? ? Hb Hq|i r0 H Hr E]; subst; [destruct Hb; cbn; auto|].
      match goal with |- context [run _ ?x] => replace x with (String "[" (i ++ "]" ++ (r0 ++ c ++ f ++ String "}" s))) by (cbn; rewrite !sapp_assoc; reflexivity) end.
      cbn [ChoiceDoc.run step step_name Ascii.eqb Bool.eqb]. rewrite (run_index n i H). rewrite (run_path r0 Hr).
      rewrite (proj1 (run_tail c f Hc Hf n _ s)). match goal with |- (let* v := field _ _ _ _ ?a in _) = (let* v := field _ _ _ _ ?b in _) => replace a with b by (cbn; rewrite !sapp_assoc; reflexivity) end. reflexivity.
Qed.
Lemma run_open n r s : plain n -> suffix r -> (n = "" -> r = "" \/ forall q, r <> String "{" q) -> 
  run Lit ("{" ++ n ++ r ++ String "}" s) = let* v := field parameter value extra n r in let* t := run Lit s in Ok (v ++ t).
Proof.
  intros Hn Hr H0. cbn [append ChoiceDoc.run step Ascii.eqb Bool.eqb].
  assert (X : forall a n, plain n -> run (Name a) (n ++ r ++ String "}" s) = let* v := field parameter value extra (a ++ n) r in let* t := run Lit s in Ok (v ++ t)).
  { intros a m. revert a. induction m as [|c m IH]; intros a Hm.
    - rewrite sapp_nil. now apply run_suffix.
    - apply plain_tail in Hm as [Hc Hm]. cbn [append ChoiceDoc.run step]. rewrite (step_plain a c Hc), IH by auto. now rewrite snoc_app. }
  assert (Y : forall c q, Ascii.eqb c "{" = false -> run Open (String c q) = run (Name "") (String c q)).
  { intros c q E. cbn [ChoiceDoc.run step]. now rewrite E. }
  destruct (n ++ r ++ String "}" s) as [|c q] eqn:E.
  - destruct n, r; discriminate.
  - rewrite Y; [rewrite <- E; now apply (X "")|]. destruct (Ascii.eqb_spec c "{") as [->|]; [exfalso|reflexivity]. destruct n as [|d n].
    + destruct r as [|d r]; cbn in E; [discriminate|]. injection E as -> _. destruct (H0 eq_refl) as [D|D]; [discriminate|now apply (D r)].
    + cbn in E. injection E as -> _. apply plain_tail in Hn as [Hc _]. apply Hc. now left.
Qed.
(** Braces with another name fail, whatever follows the name: for example {"a": 1} *)
Theorem C84_other_suffix ps n r s : plain parameter -> ~ a_number parameter -> plain n -> n <> "" -> n <> parameter -> suffix r ->
  format (all_of (written parameter) ps ++ "{" ++ n ++ r ++ "}" ++ s) = Raise IndexError /\ a_number n \/
  format (all_of (written parameter) ps ++ "{" ++ n ++ r ++ "}" ++ s) = Raise KeyError /\ ~ a_number n.
Proof.
  intros Hp Hn H Hz Hne Hr. unfold ChoiceDoc.format. rewrite run_written by auto.
  change ("}" ++ s) with (String "}" s). rewrite run_open by (auto; congruence). unfold field. destruct (digits n) eqn:E.
  - left. apply digits_iff in E. auto.
  - right. destruct (String.eqb_spec n parameter); [contradiction|]. split; [reflexivity|]. intro D. apply digits_iff in D. congruence.
Qed.
(** A field of the parameter with something after its name is Python's text for it *)
Theorem C84_own_suffix ps qs r : plain parameter -> ~ a_number parameter -> parameter <> "" -> suffix r -> r <> "" ->
  format (all_of (written parameter) ps ++ "{" ++ parameter ++ r ++ "}" ++ all_of (written parameter) qs) =
  let* t := extra r in Ok (all_of (filled value) ps ++ t ++ all_of (filled value) qs).
Proof.
  intros Hp Hn Hz Hr Hne. unfold ChoiceDoc.format. rewrite run_written by auto.
  change ("}" ++ all_of (written parameter) qs) with (String "}" (all_of (written parameter) qs)). rewrite run_open by (auto; congruence).
  rewrite <- (sapp_nil (all_of (written parameter) qs)), run_written by auto. cbn [ChoiceDoc.run bind]. rewrite sapp_nil. unfold field.
  destruct (digits parameter) eqn:E; [apply digits_iff in E; contradiction|]. rewrite String.eqb_refl.
  destruct (String.eqb_spec r "") as [|_]; [contradiction|]. destruct (extra r); reflexivity.
Qed.
(** Single braces fail *)
Lemma run_unclosed m s : ~ occurs "}" s -> m <> Lit -> m <> Open -> m <> Close -> run m s = Raise ValueError.
Proof.
  revert m. induction s as [|c s IH]; intros m Hs H1 H2 H3; [destruct m; try congruence; reflexivity|].
  cbn [occurs] in Hs. assert (Hc : c <> "}"%char) by (intros ->; apply Hs; auto).
  assert (Hs' : ~ occurs "}" s) by tauto.
  assert (Hcb : Ascii.eqb c "}" = false) by (now apply Ascii.eqb_neq).
  cbn [ChoiceDoc.run]. destruct m; try congruence; cbn [step]; unfold step_name; rewrite ?Hcb;
    repeat match goal with |- context [if ?b then _ else _] => destruct b end; try reflexivity; apply IH; auto; discriminate.
Qed.
Theorem C84_single_brace ps r : plain parameter -> ~ a_number parameter ->
  (* not closed *)
  (~ occurs "}" r -> (forall r', r <> String "{" r') -> format (all_of (written parameter) ps ++ "{" ++ r) = Raise ValueError) /\
  (* not opened *)
  ((forall r', r <> String "}" r') -> format (all_of (written parameter) ps ++ "}" ++ r) = Raise ValueError).
Proof.
  intros Hp Hn. unfold ChoiceDoc.format. rewrite !run_written by auto. split.
  - intros H1 H2. replace (run Lit ("{" ++ r)) with (Raise ValueError : res string); [reflexivity|].
    symmetry. destruct r as [|c r]; [reflexivity|]. cbn [append ChoiceDoc.run step Ascii.eqb Bool.eqb].
    fold run. assert (Hc : c <> "{"%char) by (intros ->; now apply (H2 r)).
    destruct (Ascii.eqb_spec c "{"); [contradiction|]. cbn [occurs] in H1.
    assert (Hc' : c <> "}"%char) by (intros ->; apply H1; auto). unfold step_name.
    destruct (Ascii.eqb_spec c "{"); [contradiction|]. destruct (Ascii.eqb_spec c "}"); [contradiction|].
    repeat match goal with |- context [if ?b then _ else _] => destruct b end; apply run_unclosed; try discriminate; tauto.
  - intro H. replace (run Lit ("}" ++ r)) with (Raise ValueError : res string); [reflexivity|].
    symmetry. destruct r as [|c r]; [reflexivity|]. cbn [append ChoiceDoc.run step Ascii.eqb Bool.eqb].
    destruct (Ascii.eqb_spec c "}") as [->|]; [now destruct (H r)|reflexivity].
Qed.
End Fmt.
Print Assumptions C84_filled.
Print Assumptions C84_other_field.
Print Assumptions C84_single_brace.
Print Assumptions C84_other_suffix.
Print Assumptions C84_own_suffix.

(** ** The decorators *)
(** The places of the parameter get its documentation, indented by 4 for a function and 8 for a method *)
Theorem C84_decorated extra c ps : plain (cd_parameter c) -> ~ a_number (cd_parameter c) ->
  let doc := all_of (written (cd_parameter c)) ps in
  format_function_docstring extra c (Some doc) = Ok (all_of (filled (text_of (the_lines c "    "))) ps) /\
  format_method_docstring extra c (Some doc) = Ok (all_of (filled (text_of (the_lines c "        "))) ps) /\
  format_function_docstring extra c None = Raise AttributeError /\
  format_method_docstring extra c None = Raise AttributeError.
Proof.
  intros Hp Hn doc. unfold format_function_docstring, format_method_docstring, decorate.
  rewrite !(proj1 (C84_lines c _)). subst doc. rewrite !C84_filled by auto. repeat split.
Qed.
Print Assumptions C84_decorated.

(** A documentation is decorated once: what is inserted has braces, so decorating the result, for
    the same or for another parameter, fails *)
Definition name_char (c : ascii) : Prop :=
  (48 <= nat_of_ascii c <= 57 \/ 65 <= nat_of_ascii c <= 90 \/ 97 <= nat_of_ascii c <= 122 \/ nat_of_ascii c = 95)%nat.
Definition is_name (s : string) : Prop := forall c, occurs c s -> name_char c.
Lemma name_char_plain c : name_char c -> plain_char c /\ c <> squote /\ c <> backslash.
Proof.
  unfold name_char, plain_char. intro H. split; [|split].
  - cbn. intros X. repeat destruct X as [<-|X]; try destruct X; cbn in H; lia.
  - intros ->. cbn in H. lia.
  - intros ->. cbn in H. lia.
Qed.
Lemma repr_char_name c : name_char c -> repr_char squote c = String c "".
Proof.
  intro H. destruct (name_char_plain c H) as (_ & H1 & H2). unfold repr_char.
  destruct (Ascii.eqb_spec c squote); [contradiction|]. destruct (Ascii.eqb_spec c backslash); [contradiction|].
  cbn [orb]. unfold name_char in H.
  destruct (Nat.eqb_spec (nat_of_ascii c) 9); [lia|]. destruct (Nat.eqb_spec (nat_of_ascii c) 10); [lia|].
  destruct (Nat.eqb_spec (nat_of_ascii c) 13); [lia|]. destruct (Nat.ltb_spec (nat_of_ascii c) 32); [lia|].
  destruct (Nat.eqb_spec (nat_of_ascii c) 127); [lia|]. reflexivity.
Qed.
Lemma repr_name s : is_name s -> repr_str s = "'" ++ s ++ "'".
Proof.
  intro H. unfold repr_str. cbv zeta.
  assert (Hq : quote_of s = squote).
  { unfold quote_of. destruct (has squote s) eqn:E; [|reflexivity]. apply has_iff in E. apply H in E.
    apply name_char_plain in E. tauto. }
  rewrite Hq. assert (Hr : repr_chars squote s = s).
  { clear Hq. induction s as [|c s IH]; [reflexivity|]. cbn [repr_chars]. rewrite repr_char_name by (apply H; now left).
    cbn [append]. rewrite IH; auto. intros d Hd. apply H. now right. }
  now rewrite Hr.
Qed.
Lemma all_of_text s : no_brace s -> doubled s = s.
Proof.
  intros [H1 H2]. induction s as [|c s IH]; [reflexivity|]. cbn [doubled occurs] in *.
  destruct (ascii_dec c "{") as [->|]; [tauto|]. destruct (ascii_dec c "}") as [->|]; [tauto|]. now rewrite IH by tauto.
Qed.
Lemma join_occurs c l : occurs c (join ", " l) -> c = ","%char \/ c = " "%char \/ exists s, In s l /\ occurs c s.
Proof.
  induction l as [|x l IH]; [intros []|]. destruct l as [|y l]; [intro H; right; right; exists x; split; [now left|exact H]|].
  cbn [join]. rewrite !occurs_app. intros [H|[H|H]].
  - right. right. exists x. split; [now left|exact H].
  - cbn in H. destruct H as [H|[H|[]]]; auto.
  - destruct (IH H) as [E|[E|(s & Hs & E)]]; auto. right. right. exists s. split; [now right|exact E].
Qed.
Theorem C84_once_refuted extra c d pre post l :
  no_brace pre -> is_name (cd_parameter c) -> ~ a_number (cd_parameter c) ->
  is_name (cd_parameter d) -> ~ a_number (cd_parameter d) ->
  cd_choices c = map CvStr l -> (forall s, In s l -> is_name s) -> l <> [] ->
  exists doc, format_function_docstring extra c (Some (pre ++ "{" ++ cd_parameter c ++ "}" ++ doubled post)) = Ok doc /\
    format_function_docstring extra d (Some doc) = Raise KeyError.
Proof.
  intros Hpre Hc Hcn Hd Hdn El Hl Hne.
  assert (Hnp : forall s, is_name s -> plain s) by (intros s H x Hx; apply name_char_plain; auto).
  assert (Hnb : forall s, is_name s -> no_brace s).
  { intros s H. split; intro X; apply H, name_char_plain in X; destruct X as [X _]; apply X; cbn; auto. }
  set (ps := [Text pre; Place; Text post]).
  assert (E : pre ++ "{" ++ cd_parameter c ++ "}" ++ doubled post = all_of (written (cd_parameter c)) ps).
  { unfold ps. rewrite !all_of_cons. cbn [written]. rewrite (all_of_text pre) by auto.
    unfold all_of. cbn [map String.concat]. rewrite sapp_nil. rewrite !sapp_assoc. reflexivity. }
  rewrite E. destruct (C84_decorated extra c ps (Hnp _ Hc) Hcn) as (F & _). rewrite F.
  eexists. split; [reflexivity|].
  unfold ps. rewrite !all_of_cons. cbn [filled]. unfold the_lines at 1. cbn [app].
  set (first := "    " ++ cd_parameter c ++ ": {" ++ join ", " (map repr (cd_choices c)) ++ "}").
  set (others := ((if string_dec (cd_description c) "" then _ else _) ++ _)%list).
  assert (Et : text_of (first :: others) = first ++ nl ++ text_of others).
  { unfold text_of. cbn [map]. rewrite concat_cons, sapp_assoc. reflexivity. }
  rewrite Et. clear Et.
  set (names := join ", " (map repr (cd_choices c))) in *.
  set (rest := nl ++ text_of others ++ post ++ "").
  assert (Ed : pre ++ (first ++ nl ++ text_of others) ++ post ++ all_of (filled (text_of (the_lines c "    "))) [] =
    all_of (written (cd_parameter d)) [Text (pre ++ "    " ++ cd_parameter c ++ ": ")] ++ "{" ++ names ++ "}" ++ rest).
  { unfold all_of at 2. cbn [map String.concat written]. rewrite all_of_text.
    - unfold all_of, rest, first. cbn [map String.concat]. rewrite !sapp_assoc. reflexivity.
    - destruct Hpre as [P1 P2]. destruct (Hnb _ Hc) as [Q1 Q2]. split; rewrite !occurs_app; cbn;
        intros [X|[X|[X|X]]]; auto; repeat destruct X as [X|X]; try discriminate X; try destruct X; tauto. }
  unfold format_function_docstring, decorate. rewrite Ed.
  assert (Hq : forall x, occurs x names -> x = ","%char \/ x = " "%char \/ x = squote \/ name_char x).
  { intros x Hx. apply join_occurs in Hx. destruct Hx as [Hx|[Hx|(s & Hs & Hx)]]; auto.
    rewrite El, map_map in Hs. apply in_map_iff in Hs. destruct Hs as (t & <- & Ht). cbn [repr] in Hx.
    rewrite repr_name in Hx by auto. rewrite !occurs_app in Hx. cbn in Hx.
    destruct Hx as [[Hx|[]]|[Hx|[Hx|[]]]]; auto. right. right. right. now apply (Hl t Ht). }
  assert (Hs : occurs squote names).
  { unfold names. rewrite El. destruct l as [|t l]; [congruence|]. cbn [map]. cbn [repr].
    rewrite repr_name by (apply Hl; now left). destruct (map repr (map CvStr l)); cbn; auto. }
  apply C84_other_field; auto.
  - intros x Hx. apply Hq in Hx. destruct Hx as [->|[->|[->|Hx]]]; [| | |now apply name_char_plain];
      cbn; intros X; repeat destruct X as [X|X]; try discriminate X; destruct X.
  - intros X. rewrite X in Hs. apply Hd in Hs. apply name_char_plain in Hs. tauto.
  - intros X. specialize (X squote Hs). cbn in X. repeat destruct X as [X|X]; try discriminate X; destruct X.
Qed.
Print Assumptions C84_once_refuted.

(** ** The documentation of ERRORS, xoa/misc.py:259-264 *)
Definition errors_doc : cdoc :=
  init (GDict [(CvStr "ignore", "silently ignore"); (CvStr "warn", "emit a warning"); (CvStr "raise", "raise an exception")])
    true (Some "errors") "In case of errors" "Choices".
Lemma errors_name : is_name "errors".
Proof. intros c H. unfold name_char. cbn in H. repeat destruct H as [->|H]; try (cbn; lia); destruct H. Qed.
Lemma errors_no_number : ~ a_number "errors".
Proof. intro H. apply (proj2 (digits_iff "errors")) in H. discriminate H. Qed.
Example C84_errors extra :
  format_function_docstring extra errors_doc (Some ("loc: {{""any"", None}}" ++ nl ++ "{errors}" ++ nl ++ "Return"))
  = Ok ("loc: {""any"", None}" ++ nl ++ "    errors: {'ignore', 'warn', 'raise'}" ++ nl ++ "        In case of errors" ++ nl ++ nl ++
        "        - ``ignore``: silently ignore" ++ nl ++ "        - ``warn``: emit a warning" ++ nl ++
        "        - ``raise``: raise an exception" ++ nl ++ nl ++ nl ++ "Return").
Proof. reflexivity. Qed.
Example C84_decorated_met : plain (cd_parameter errors_doc) /\ ~ a_number (cd_parameter errors_doc).
Proof. split; [|exact errors_no_number]. intros c H. apply name_char_plain. now apply errors_name. Qed.
Example C84_once_met extra : exists doc,
  format_function_docstring extra errors_doc (Some ("a " ++ "{" ++ "errors" ++ "}" ++ doubled " b")) = Ok doc /\
  format_function_docstring extra errors_doc (Some doc) = Raise KeyError.
Proof.
  apply (C84_once_refuted extra errors_doc errors_doc "a " " b" ["ignore"; "warn"; "raise"]);
    try exact errors_name; try exact errors_no_number; try discriminate; try reflexivity.
  - split; cbn; intros [H|[H|[]]]; discriminate H.
  - intros s Hs c H. unfold name_char. cbn in Hs. repeat destruct Hs as [<-|Hs]; try destruct Hs;
      cbn in H; repeat destruct H as [->|H]; try (cbn; lia); destruct H.
Qed.
(** A quote in a choice, an integer, and two spellings of the same choice *)
Example C84_shown_choices : let c := init (GDict [(CvStr "it's", "a"); (CvInt (-3), "b"); (CvStr "IT'S", "c")]) true None "" "Choices" in
  to_docstring c (IInt 0) = "choices: {""it's"", -3, ""it's""}" ++ nl ++ nl ++ "    - ``it's``: c" ++ nl ++ "    - ``-3``: b" ++ nl ++ nl.
Proof. reflexivity. Qed.
(** None, and the text character by character *)
Example C84_shown_none : let c := init (GDict [(CvNone, "z")]) true None "" "Choices" in
  list_ascii_of_string (to_docstring c (IInt 0)) = (list_ascii_of_string "choices: {None}" ++ ["010"; "010"] ++ list_ascii_of_string "    - ``None``: z" ++ ["010"; "010"])%char%list.
Proof. reflexivity. Qed.
(** A dictionary written in a documentation, and a field with everything *)
Example C84_suffix_met : suffix ": 1" /\ suffix "[0].x!r:>10" /\ plain """a""".
Proof.
  split; [|split].
  - apply (a_suffix "" "" ": 1"); [constructor|now left|now left|]. right. exists " 1". split; [reflexivity|]. split; cbn; intros [H|[H|H]]; try discriminate; exact H.
  - apply (a_suffix "[0].x" "!r" ":>10").
    + apply (path_index "0" ".x"); [cbn; intros [H|H]; [discriminate|exact H]|]. repeat (constructor; [cbn; intuition discriminate|]). constructor.
    + right. exists "0].x". now right.
    + right. now exists "r"%char.
    + right. exists ">10". split; [reflexivity|]. split; cbn; intuition discriminate.
  - intros c H. cbn in H. unfold plain_char. destruct H as [->|[->|[->|[]]]]; cbn; intuition discriminate.
Qed.
