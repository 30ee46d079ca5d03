(** C59: booleans of the specifications get a default value. *)
From Verif Require Import BoolSpec ValScalarProps PyReFacts PyDictFacts.
From Coq Require Import Lia.
Open Scope string_scope.

(** ** What a specification says *)
(** "boolean", or "boolean(p1, p2...)" with at least one parameter and nothing after the last one
    or after the closing parenthesis *)
Definition plain_params (s : string) : Prop := exists a c, s = a ++ String c "" /\ is_space c = false /\ c <> ","%char.
Inductive boolean_spec : string -> Prop :=
| BWord : boolean_spec "boolean"
| BCall ps : plain_params ps -> boolean_spec ("boolean(" ++ ps ++ ")").

Lemma cut_app c a b : all_chars (fun x => negb (Ascii.eqb x c)) a = true -> cut c (a ++ String c b) = Some (a, b).
Proof.
  induction a as [|x a IH]; cbn [all_chars cut append]; [now rewrite Ascii.eqb_refl|]. intro H. apply andb_true_iff in H. destruct H as [Hx H].
  destruct (Ascii.eqb x c); [discriminate|]. now rewrite IH.
Qed.
Lemma cut_last_end c a : cut_last c (a ++ String c "") = Some a.
Proof. induction a as [|x a IH]; cbn; [now rewrite Ascii.eqb_refl|now rewrite IH]. Qed.
Lemma parse_boolean ps : parse_check ("boolean(" ++ ps ++ ")") =
  match parse_params ps with
  | Some l => Ok (mkcheck "boolean" (positional l) (ddel (keywords l) "default") (dget (keywords l) "default"))
  | None => Raise ValidateError end.
Proof. change (cut_last ")" (ps ++ ")")) with (cut_last ")" (ps ++ ")")). unfold parse_check. cbn [append]. cbn [cut Ascii.eqb Bool.eqb]. rewrite cut_last_end. reflexivity. Qed.
Lemma drop_last_app a c : drop_last (a ++ String c "") = a.
Proof. induction a as [|x a IH]; [reflexivity|]. cbn [append drop_last]. rewrite IH. destruct a; reflexivity. Qed.
Lemma split_on_both sep a b : split_on sep (a ++ String sep b) = (split_on sep a ++ split_on sep b)%list.
Proof.
  induction a as [|c a IH]; cbn [append split_on].
  - now rewrite Ascii.eqb_refl.
  - destruct (Ascii.eqb c sep); [now rewrite IH|]. rewrite IH. destruct (split_on_cons sep a) as (w & l & ->). reflexivity.
Qed.
Lemma split_on_last sep a c : c <> sep -> exists l w, split_on sep (a ++ String c "") = (l ++ [(w ++ String c "")%string])%list.
Proof.
  intro N. induction a as [|x a (l & w & IH)]; cbn [append split_on].
  - destruct (Ascii.eqb_spec c sep); [contradiction|]. exists [], "". reflexivity.
  - destruct (Ascii.eqb x sep).
    + exists ("" :: l), w. now rewrite IH.
    + rewrite IH. destruct l as [|y l]; cbn [List.app]; [exists [], (String x w); reflexivity|exists (String x y :: l), w; reflexivity].
Qed.
Lemma strip_last w c : is_space c = false -> nonempty (strip (w ++ String c "")) = true.
Proof.
  intro H. unfold strip. rewrite rstrip_is, lstrip_is. induction w as [|x w IH]; cbn [append lstrip_set].
  - rewrite H. cbn. now rewrite H.
  - destruct (is_space x); [exact IH|]. cbn [rstrip_set]. rewrite rstrip_set_last by exact H. now destruct w.
Qed.
Lemma params_of_app l w e p : nonempty (strip w) = true -> param_of e = Some p -> nonempty (strip e) = true ->
  params_of ((l ++ [w]) ++ [e])%list = match params_of (l ++ [w])%list with Some ps => Some (ps ++ [p])%list | None => None end.
Proof.
  intros Hw He Hs. induction l as [|x l IH]; cbn [List.app].
  - cbn [params_of]. rewrite Hw, He, Hs. destruct (param_of w); reflexivity.
  - assert (A : params_of (x :: ((l ++ [w]) ++ [e]))%list = match param_of x, params_of ((l ++ [w]) ++ [e])%list with Some p, Some ps => Some (p :: ps) | _, _ => None end) by (destruct l; reflexivity).
    assert (B : params_of (x :: (l ++ [w]))%list = match param_of x, params_of (l ++ [w])%list with Some p, Some ps => Some (p :: ps) | _, _ => None end) by (destruct l; reflexivity).
    rewrite A, B, IH. destruct (param_of x), (params_of (l ++ [w])%list); reflexivity.
Qed.
Lemma parse_params_default ps l : plain_params ps -> parse_params ps = Some l -> parse_params (ps ++ ", default=False") = Some (l ++ [Key "default" "False"])%list.
Proof.
  intros (a & c & -> & Hc & Hn) H. assert (E : forall x, parse_params ((a ++ String c "") ++ x) = match a ++ String c "" with String d _ => if is_space d then None else params_of (split_on "," ((a ++ String c "") ++ x)) | "" => None end) by (intro; destruct a; reflexivity).
  assert (E0 := E ""). rewrite sapp_nil_r, H in E0. rewrite E. destruct (a ++ String c "") as [|d t] eqn:Ea; [discriminate|]. destruct (is_space d); [discriminate|]. rewrite <- Ea in *.
  change (", default=False") with (String "," " default=False"). rewrite split_on_both. change (split_on "," " default=False") with [" default=False"].
  destruct (split_on_last "," a c Hn) as (l' & w & Es). rewrite Es in *. rewrite (params_of_app l' _ _ (Key "default" "False")); [now rewrite <- E0|now apply strip_last|vm_compute; reflexivity|reflexivity].
Qed.
Lemma keywords_app l k v : keywords (l ++ [Key k v])%list = dset (keywords l) k v.
Proof. unfold keywords. now rewrite fold_left_app. Qed.
Lemma ddel_noop (d : dict string) k : dget d k = None -> ddel d k = d.
Proof.
  induction d as [|[k' v'] d IH]; intro H; [reflexivity|]. cbn [dget] in H. unfold ddel in *. cbn [List.filter fst]. destruct (String.eqb k k'); [discriminate|]. cbn [negb]. now rewrite IH.
Qed.
Lemma ddel_dset (d : dict string) k v : dget d k = None -> ddel (dset d k v) k = d.
Proof.
  assert (X : forall d : dict string, dget d k = None -> ddel d k = d).
  { clear. induction d as [|[k' v'] d IH]; intro H; [reflexivity|]. cbn [dget] in H. unfold ddel in *. cbn [List.filter fst]. destruct (String.eqb k k'); [discriminate|]. cbn. now rewrite IH. }
  intro H. assert (E := X d H). induction d as [|[k' v'] d IH].
  - cbn. now rewrite String.eqb_refl.
  - cbn [dset]. cbn [dget] in H. destruct (String.eqb k k') eqn:Ek; [discriminate|]. unfold ddel in *. cbn [List.filter fst]. rewrite Ek. cbn. rewrite IH; [reflexivity|exact H|now apply X].
Qed.
Lemma nonempty_parts l : l <> [] -> dget (keywords l) "default" = None -> positional l <> [] \/ ddel (keywords l) "default" <> [].
Proof.
  intros N H. destruct l as [|p l] using rev_ind; [contradiction|]. clear IHl N. destruct p as [v|k v].
  - left. unfold positional. rewrite flat_map_app. cbn. destruct (flat_map _ l); discriminate.
  - right. rewrite keywords_app in *. rewrite dget_dset in H. destruct (String.eqb_spec "default" k) as [->|Hk]; [discriminate|].
    intro E. assert (X : dget (ddel (dset (keywords l) k v) "default") k = Some v).
    { unfold ddel. rewrite (dget_filter (fun x => negb (String.eqb "default" x))). destruct (String.eqb_spec "default" k); [contradiction|]. cbn. rewrite dget_dset, String.eqb_refl. reflexivity. }
    rewrite E in X. discriminate.
Qed.

Lemma existsb_In_ascii c l : existsb (Ascii.eqb c) l = true <-> In c l.
Proof. rewrite existsb_exists. split; [intros (x & Hx & E); apply Ascii.eqb_eq in E; now subst|]. intro H. exists c. split; auto. apply Ascii.eqb_refl. Qed.
(** The names of the keyword parameters: a letter or an underscore, then letters, digits and
    underscores. *)
Definition letter_or_underscore (c : ascii) : Prop := In c (list_ascii_of_string "abcdefghijklmnopqrstuvwxyzABCDEFGHIJKLMNOPQRSTUVWXYZ_").
Definition digit (c : ascii) : Prop := In c (list_ascii_of_string "0123456789").
Theorem C59_keyword_names k : is_id k = true <->
  exists c r, k = String c r /\ letter_or_underscore c /\ forall d, In d (list_ascii_of_string r) -> letter_or_underscore d \/ digit d.
Proof.
  assert (A : forall c, is_alpha_ c = true <-> letter_or_underscore c).
  { intro c. unfold letter_or_underscore. rewrite <- (existsb_In_ascii c). destruct c as [[] [] [] [] [] [] [] []]; vm_compute; tauto. }
  assert (B : forall c, is_alnum_ c = true <-> letter_or_underscore c \/ digit c).
  { intro c. unfold letter_or_underscore, digit. rewrite <- !(existsb_In_ascii c), <- orb_true_iff. destruct c as [[] [] [] [] [] [] [] []]; vm_compute; tauto. }
  assert (C : forall r, all_chars is_alnum_ r = true <-> forall d, In d (list_ascii_of_string r) -> letter_or_underscore d \/ digit d).
  { induction r as [|c r IH]; cbn [all_chars list_ascii_of_string]; [split; [intros _ d []|auto]|]. rewrite andb_true_iff, B, IH. split.
    - intros [H1 H2] d [<-|H]; auto.
    - intro H. split; [apply H; now left|]. intros d Hd. apply H. now right. }
  destruct k as [|c r]; cbn [is_id].
  - split; [discriminate|]. intros (c & r & E & _). discriminate.
  - rewrite andb_true_iff, A, C. split; [intro H; exists c, r; tauto|]. intros (c' & r' & E & H). injection E as -> ->. tauto.
Qed.
(** ** Booleans without default value get False, and keep their parameters *)
Theorem C59_default s c : boolean_spec s -> parse_check s = Ok c -> c_default c = None ->
  exists s', set_false s = Ok s' /\ parse_check s' = Ok (mkcheck "boolean" (c_args c) (c_kwargs c) (Some "False")).
Proof.
  intros B Hp Hd. destruct B as [|ps Hps].
  - injection Hp as <-. exists "boolean(default=False)". vm_compute. auto.
  - unfold set_false. rewrite Hp. cbn [bind]. rewrite parse_boolean in Hp. destruct (parse_params ps) as [l|] eqn:El; [|discriminate]. injection Hp as <-. cbn [c_name c_default c_args c_kwargs] in *. rewrite Hd. cbn [String.eqb Ascii.eqb Bool.eqb andb].
    assert (Nl : l <> []).
    { intros ->. destruct Hps as (a & ch & -> & Hc & Hn). revert El. unfold parse_params. destruct (a ++ String ch "") as [|d t] eqn:Ea; [destruct a; discriminate|]. destruct (is_space d); [discriminate|].
      rewrite <- Ea. destruct (split_on_last "," a ch Hn) as (l' & w & ->). destruct l' as [|x l']; cbn [List.app params_of].
      - rewrite strip_last by exact Hc. destruct (param_of _); discriminate.
      - destruct (l' ++ [(w ++ String ch "")%string])%list eqn:E; [destruct l'; discriminate|]. destruct (param_of x); [|discriminate]. destruct (params_of (s :: l)); discriminate. }
    exists ("boolean(" ++ (ps ++ ", default=False") ++ ")"). split.
    + assert (D : drop_last ("boolean(" ++ ps ++ ")") ++ ", default=False)" = "boolean(" ++ (ps ++ ", default=False") ++ ")").
      { change ("boolean(" ++ ps ++ ")") with (("boolean(" ++ ps) ++ String ")" ""). rewrite drop_last_app. change (", default=False)") with (", default=False" ++ ")"). now rewrite <- !sapp_assoc. }
      rewrite D. destruct (nonempty_parts l Nl Hd) as [X|X]; destruct (positional l), (ddel (keywords l) "default"); try contradiction; reflexivity.
    + rewrite parse_boolean, (parse_params_default _ _ Hps El). rewrite keywords_app, dget_dset, String.eqb_refl.
      rewrite ddel_dset by exact Hd.
      assert (P : positional (l ++ [Key "default" "False"])%list = positional l) by (unfold positional; rewrite flat_map_app; cbn; apply app_nil_r).
      assert (K := ddel_noop _ _ Hd).
      rewrite P, K. reflexivity.
Qed.
(** Other specifications are not changed *)
Theorem C59_other s c : parse_check s = Ok c -> c_name c <> "boolean" \/ c_default c <> None -> set_false s = Ok s.
Proof.
  intros Hp H. unfold set_false. rewrite Hp. cbn [bind]. destruct (String.eqb_spec (c_name c) "boolean"); [|reflexivity]. destruct (c_default c); [reflexivity|].
  destruct H as [H|H]; contradiction.
Qed.
(** A specification that can not be parsed is an error *)
Theorem C59_bad s e : parse_check s = Raise e -> set_false s = Raise e.
Proof. intro H. unfold set_false. now rewrite H. Qed.
Theorem C59_section d d' : set_false_all d = Ok d' -> Forall2 (fun ks ks' => fst ks' = fst ks /\ set_false (snd ks) = Ok (snd ks')) d d'.
Proof.
  revert d'. induction d as [|[k s] d IH]; intros d' H; cbn in H; [injection H as <-; constructor|].
  destruct (set_false s) as [s'|] eqn:E; cbn [bind] in H; [|discriminate]. destruct (set_false_all d) as [r|]; cbn [bind] in H; [|discriminate]. injection H as <-. constructor; auto.
Qed.
(** Doing it twice changes nothing more *)
Theorem C59_twice s c s' : boolean_spec s -> parse_check s = Ok c -> set_false s = Ok s' -> set_false s' = Ok s'.
Proof.
  intros B Hp Hs. destruct (c_default c) eqn:Hd.
  - assert (N : c_default c <> None) by (rewrite Hd; discriminate). assert (X := C59_other s c Hp (or_intror N)). congruence.
  - destruct (C59_default s c B Hp Hd) as (s'' & Hs'' & Hp''). rewrite Hs in Hs''. injection Hs'' as <-. apply (C59_other s' _ Hp''). right. discriminate.
Qed.

(** False: this is so for any boolean that can be parsed.  With empty parentheses, or after a
    last comma, the specification becomes an error. *)
Theorem C59_empty_refuted : parse_check "boolean()" = Ok (mkcheck "boolean" [] [] None) /\
  set_false "boolean()" = Ok "boolean()(default=False)" /\ parse_check "boolean()(default=False)" = Raise ValidateError.
Proof. vm_compute. auto. Qed.
Theorem C59_comma_refuted : parse_check "boolean(help=x,)" = Ok (mkcheck "boolean" [] [("help", "x")] None) /\
  set_false "boolean(help=x,)" = Ok "boolean(help=x,, default=False)" /\ parse_check "boolean(help=x,, default=False)" = Raise ValidateError.
Proof. vm_compute. auto. Qed.

Example ex_bool : boolean_spec "boolean(0, help = a text)" /\
  set_false "boolean(0, help = a text)" = Ok "boolean(0, help = a text, default=False)" /\
  parse_check "boolean(0, help = a text, default=False)" = Ok (mkcheck "boolean" ["0"] [("help", "a text")] (Some "False")).
Proof. split; [|vm_compute; auto]. apply (BCall "0, help = a text"). exists "0, help = a tex", "t"%char. split; auto. split; [reflexivity|discriminate]. Qed.
