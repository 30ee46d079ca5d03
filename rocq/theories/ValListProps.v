(** C86: the listing of the validation functions *)
From Coq Require Import Sorted Permutation Lia.
From Verif Require Import ValListSpec ValRegistryProps PyDictFacts.
Open Scope string_scope.

(** ** Sets *)
Lemma until_close_iff s : forall b r, until_close s = Some (b, r) <-> (no_close b /\ s = b ++ "]" ++ r).
Proof.
  induction s as [|c s IH]; intros b r.
  - split; [discriminate|]. intros [_ H]. now destruct b.
  - cbn. destruct (Ascii.eqb_spec c "]") as [->|N].
    + split.
      * intro H. injection H as <- <-. split; [constructor|reflexivity].
      * intros [H E]. destruct b as [|d b]; cbn in E.
        -- injection E as ->. reflexivity.
        -- injection E as E1 E2. inversion H as [|? ? N _]; subst. now destruct N.
    + destruct (until_close s) as [[b0 r0]|] eqn:E.
      * split.
        -- intro H. injection H as <- <-. destruct (proj1 (IH b0 r0) eq_refl) as [H1 H2]. split; [now constructor|cbn; now rewrite H2].
        -- intros [H E']. destruct b as [|d b]; cbn in E'; [injection E' as E1 E2; subst; congruence|].
           injection E' as <- E'. inversion H as [|? ? ? H']; subst. 
           assert (X := proj2 (IH b r) (conj H' eq_refl)). cbn in X. now injection X as -> ->.
      * split; [discriminate|]. intros [H E']. destruct b as [|d b]; cbn in E'; [injection E' as E1 E2; subst; congruence|].
        injection E' as <- E'. inversion H as [|? ? ? H']; subst. assert (X := proj2 (IH b r) (conj H' eq_refl)). discriminate.
Qed.
Lemma split_set_iff p neg body rest : split_set p = Some (neg, body, rest) <-> set_text p neg body rest.
Proof.
  assert (G : forall n0 s, match s with "" => None | String c r => match until_close r with Some (b, r') => Some (n0, String c b, r') | None => None end end
     = Some (neg, body, rest) <-> (n0 = neg /\ exists c t, body = String c t /\ no_close t /\ s = body ++ "]" ++ rest)).
  { intros n0 [|c r]; [split; [discriminate|]; intros (_ & c & t & -> & _ & H); discriminate|].
    destruct (until_close r) as [[b r']|] eqn:E.
    - split.
      + intro H. injection H as <- <- <-. split; auto. apply until_close_iff in E as [H1 ->]. exists c, b. repeat split; auto.
      + intros (<- & c' & t & -> & H & E'). cbn in E'. injection E' as <- E'.
        assert (X := proj2 (until_close_iff r t rest) (conj H E')). rewrite E in X. now injection X as -> ->.
    - split; [discriminate|]. intros (<- & c' & t & -> & H & E'). cbn in E'. injection E' as <- E'.
      assert (X := proj2 (until_close_iff r t rest) (conj H E')). congruence. }
  unfold split_set, set_text. destruct p as [|c p].
  - split; [discriminate|]. intros (c & t & -> & _ & _ & H). now destruct neg.
  - destruct (Ascii.eqb_spec c "!") as [->|N].
    + eapply iff_trans; [exact (G true p)|]. split.
      * intros (<- & c & t & -> & H & ->). exists c, t. repeat split; auto. discriminate.
      * intros (c & t & -> & H & Hn & E). destruct neg; cbn in E.
        -- injection E as ->. split; auto. exists c, t. auto.
        -- injection E as <- E. now destruct (Hn eq_refl).
    + eapply iff_trans; [exact (G false (String c p))|]. split.
      * intros (<- & c' & t & -> & H & E). exists c', t. cbn in E. injection E as -> ->. repeat split; auto.
      * intros (c' & t & -> & H & Hn & E). destruct neg; cbn in E.
        -- now injection E as -> E.
        -- injection E as -> ->. split; auto. exists c', t. auto.
Qed.
Lemma in_items_iff c : forall n s, (String.length s <= n)%nat -> (in_items s c = true <-> in_set s c).
Proof.
  induction n as [|n IH]; intros s L.
  - destruct s; [|cbn in L; lia]. split; [discriminate|inversion 1].
  - destruct s as [|a r]; [split; [discriminate|inversion 1]|]. cbn in L.
    destruct r as [|m [|b r']].
    + cbn. rewrite Bool.orb_false_r. split.
      * intro H. apply Ascii.eqb_eq in H as ->. constructor. intros x y z; discriminate.
      * inversion 1; subst; [apply Ascii.eqb_refl|]. inversion H4.
    + assert (NR : no_range (String a (String m ""))) by (intros x y z; discriminate).
      change (((c =? a)%char || in_items (String m "") c)%bool = true <-> in_set (String a (String m "")) c).
      rewrite Bool.orb_true_iff, (IH (String m "")) by (cbn in *; lia). split.
      * intros [H|H]; [apply Ascii.eqb_eq in H as ->; now constructor|now apply is_after_char].
      * inversion 1; subst; auto. left. apply Ascii.eqb_refl.
    + destruct (Ascii.eqb_spec m "-") as [->|N].
      * change ((within a b c || in_items r' c)%bool = true <-> in_set (String a ("-" ++ String b r')) c).
        rewrite Bool.orb_true_iff, (IH r') by (cbn in *; lia). unfold within.
        rewrite Bool.andb_true_iff, !PeanoNat.Nat.leb_le. split.
        -- intros [H|H]; [now apply is_range|now apply is_after_range].
        -- inversion 1; subst; auto; match goal with N : no_range _ |- _ => exfalso; eapply N; reflexivity end.
      * assert (NR : no_range (String a (String m (String b r')))) by (intros x y z E; injection E; congruence).
        cbn [in_items]. apply Ascii.eqb_neq in N as N'. rewrite N'.
        change (((c =? a)%char || in_items (String m (String b r')) c)%bool = true <-> in_set (String a (String m (String b r'))) c).
        rewrite Bool.orb_true_iff, (IH (String m (String b r'))) by (cbn in *; lia). split.
        -- intros [H|H]; [apply Ascii.eqb_eq in H as ->; now constructor|now apply is_after_char].
        -- inversion 1; subst; try (exfalso; eapply NR; reflexivity); auto. left. apply Ascii.eqb_refl.
Qed.

(** ** Patterns *)
Lemma set_text_length p neg body rest : set_text p neg body rest -> (String.length rest < String.length p)%nat.
Proof.
  intros (c & t & -> & _ & _ & ->). assert (A : forall a b, String.length (a ++ b) = (String.length a + String.length b)%nat).
  { induction a; cbn; auto. }
  destruct neg; cbn; rewrite A; cbn; lia.
Qed.
Lemma gmatch_iff : forall n p s, (String.length p <= n)%nat -> (gmatch (tokens n p) s = true <-> matches p s).
Proof.
  induction n as [|n IH]; intros p s L.
  - destruct p; [|cbn in L; lia]. cbn. destruct s; split; try discriminate; try constructor. inversion 1.
  - destruct p as [|c p]; [cbn; destruct s; split; try discriminate; try constructor; inversion 1|]. cbn in L.
    assert (Lp : (String.length p <= n)%nat) by lia. cbn [tokens].
    destruct (Ascii.eqb_spec c "*") as [->|Ns].
    { induction s as [|d s IHs].
      - cbn. rewrite Bool.orb_false_r, (IH p "" Lp). split; [now constructor|]. inversion 1; subst; auto; congruence.
      - change ((gmatch (tokens n p) (String d s) || gmatch (TStar :: tokens n p) s)%bool = true <-> matches (String "*" p) (String d s)).
        rewrite Bool.orb_true_iff, (IH p _ Lp), IHs. split.
        + intros [H|H]; [now apply m_star_none|now apply m_star_more].
        + inversion 1; subst; auto; congruence. }
    destruct (Ascii.eqb_spec c "?") as [->|Nq].
    { cbn. destruct s as [|d s]; [split; [discriminate|inversion 1]|]. rewrite (IH p s Lp). split; [now constructor|].
      inversion 1; subst; auto. }
    destruct (Ascii.eqb_spec c "[") as [->|Nb].
    { destruct (split_set p) as [[[neg body] rest]|] eqn:E.
      - assert (T := proj1 (split_set_iff _ _ _ _) E). assert (Lr := set_text_length _ _ _ _ T).
        cbn [gmatch]. destruct s as [|d s]; [split; [discriminate|inversion 1]|].
        rewrite Bool.andb_true_iff, (IH rest s) by lia.
        assert (I := in_items_iff d _ body (le_n _)). split.
        + intros [H1 H2]. destruct neg; cbn [tok_ok] in H1; [rewrite Bool.xorb_true_l in H1|rewrite Bool.xorb_false_l in H1].
          * apply m_out with body rest; auto. intro X. apply I in X. now rewrite X in H1.
          * apply m_in with body rest; auto. now apply I.
        + inversion 1; subst.
          * match goal with ST : set_text p _ body0 _ |- _ => assert (X := proj2 (split_set_iff _ _ _ _) ST) end. rewrite E in X. injection X as -> -> ->. cbn [tok_ok]. rewrite Bool.xorb_false_l. split; auto. now apply I.
          * match goal with ST : set_text p _ body0 _ |- _ => assert (X := proj2 (split_set_iff _ _ _ _) ST) end. rewrite E in X. injection X as -> -> ->. cbn [tok_ok]. rewrite Bool.xorb_true_l. split; auto.
            destruct (in_items body0 d); auto. exfalso. match goal with N : ~ in_set _ _ |- _ => apply N; now apply I end.
          * match goal with NS : forall neg body rest, ~ set_text p neg body rest |- _ => now destruct (NS _ _ _ T) end.
          * congruence.
      - assert (T : forall neg body rest, ~ set_text p neg body rest) by (intros a b d X; apply split_set_iff in X; congruence).
        cbn. destruct s as [|d s]; [split; [discriminate|inversion 1]|].
        rewrite Bool.andb_true_iff, (IH p s Lp). split.
        + intros [H1 H2]. apply Ascii.eqb_eq in H1 as ->. now apply m_bracket.
        + inversion 1; subst; try congruence; try (match goal with ST : set_text p _ _ _ |- _ => now destruct (T _ _ _ ST) end). split; auto. }
    cbn. destruct s as [|d s]; [split; [discriminate|inversion 1; congruence]|].
    rewrite Bool.andb_true_iff, (IH p s Lp). split.
    + intros [H1 H2]. apply Ascii.eqb_eq in H1 as ->. now apply m_char.
    + inversion 1; subst; try congruence. split; auto. apply Ascii.eqb_refl.
Qed.
Lemma fnmatch_iff name pattern : fnmatch name pattern = true <-> matches pattern name.
Proof. now apply gmatch_iff. Qed.

(** ** Order *)
Lemma leb_lt a : forall b, String.leb a b = true -> a = b \/ str_lt a b.
Proof.
  unfold String.leb. induction a as [|c a IH]; intros [|d b]; cbn; intro H; auto; try discriminate; try (right; now constructor).
  unfold Ascii.compare in H. destruct (BinNat.N.compare_spec (N_of_ascii c) (N_of_ascii d)) as [E|E|E].
  - assert (c = d) as -> by (rewrite <- (ascii_N_embedding c), <- (ascii_N_embedding d); congruence).
    destruct (IH b H) as [->|X]; [now left|]. right. now apply lt_tail.
  - right. constructor. unfold nat_of_ascii. lia.
  - discriminate.
Qed.
Lemma str_lt_trans a b c : str_lt a b -> str_lt b c -> str_lt a c.
Proof.
  intro H. revert c. induction H; intros x Hx; inversion Hx; subst; solve [constructor; auto; lia | apply lt_tail; auto].
Qed.
Lemma str_lt_irr a : ~ str_lt a a.
Proof. intro H. remember a as b in H at 2. revert Heqb. induction H; intro E; try discriminate; injection E; intros; subst; auto. lia. Qed.
Lemma leb_false a : forall b, String.leb a b = false -> str_lt b a.
Proof.
  unfold String.leb. induction a as [|c a IH]; intros [|d b]; cbn; intro H; auto; try discriminate; try (now constructor).
  unfold Ascii.compare in H. destruct (BinNat.N.compare_spec (N_of_ascii c) (N_of_ascii d)) as [E|E|E].
  - assert (c = d) as -> by (rewrite <- (ascii_N_embedding c), <- (ascii_N_embedding d); congruence).
    apply lt_tail. now apply IH.
  - discriminate.
  - constructor. unfold nat_of_ascii. lia.
Qed.
Lemma insert_perm x l : Permutation (x :: l) (insert x l).
Proof.
  induction l as [|y l IH]; cbn; auto. destruct (String.leb x y); auto.
  rewrite perm_swap. now constructor.
Qed.
Lemma sort_perm l : Permutation l (sort l).
Proof. induction l as [|x l IH]; cbn; auto. rewrite <- insert_perm. now constructor. Qed.
Lemma insert_sorted x l : ~ In x l -> StronglySorted str_lt l -> StronglySorted str_lt (insert x l).
Proof.
  induction l as [|y l IH]; intros N S; cbn; [repeat constructor|]. inversion S as [|? ? S' F]; subst.
  destruct (String.leb x y) eqn:E.
  - destruct (leb_lt _ _ E) as [->|H]; [destruct N; now left|]. constructor; auto. constructor; auto.
    eapply Forall_impl; [|exact F]. intros z Hz. cbn in Hz. eapply str_lt_trans; eauto.
  - apply leb_false in E. constructor; [apply IH; auto; intro; apply N; now right|].
    apply Forall_forall. intros z Hz. apply (Permutation_in z (Permutation_sym (insert_perm x l))) in Hz as [<-|Hz]; auto.
    rewrite Forall_forall in F. auto.
Qed.
Lemma sort_sorted l : NoDup l -> StronglySorted str_lt (sort l).
Proof.
  induction 1 as [|x l N H IH]; cbn; [constructor|]. apply insert_sorted; auto.
  intro X. apply N. eapply Permutation_in; [symmetry; apply sort_perm|exact X].
Qed.
Lemma types_in r k : In k (types r) <-> dmem r k = true.
Proof.
  rewrite dmem_in. unfold types. split; apply Permutation_in; [symmetry|]; apply sort_perm.
Qed.

(** ** Texts *)
Lemma first_line_spec doc : is_first_line doc (first_line doc).
Proof.
  induction doc as [|c d [H1 H2]]; cbn.
  - split; auto. intros a b E. now destruct a.
  - destruct (Ascii.eqb_spec c "010") as [->|N].
    + split; [intros a b E; now destruct a|]. right. now exists d.
    + split.
      * intros [|x a] b E; cbn in E; injection E as E1 E2; [congruence|]. now apply (H1 a b).
      * destruct H2 as [E|(rest & E)]; [left; congruence|]. right. exists rest. cbn. congruence.
Qed.
Lemma shown_text signature getdoc name f : entry_text name (signature f) (getdoc f) (shown_entry signature getdoc name f).
Proof.
  unfold shown_entry. destruct (getdoc f) as [[|c d]|].
  - rewrite (PyReFacts.sapp_nil_r (signature f)). constructor.
  - apply et_doc; [discriminate|]. apply first_line_spec.
  - rewrite (PyReFacts.sapp_nil_r (signature f)). constructor.
Qed.

(** ** Theorems *)
(** The list of types after any history of registrations: the registered names, each once, in
    the order of strings. *)
Theorem C86_types r0 h : dict_wf r0 ->
  let r := registered (update_registry r0) h in
  StronglySorted str_lt (types r) /\ NoDup (types r) /\ forall k, In k (types r) <-> dmem r k = true.
Proof.
  intros W r. assert (Wr : dict_wf r) by (apply registered_wf; now apply update_wf).
  split; [now apply sort_sorted|]. split; [|intro; apply types_in].
  eapply Permutation_NoDup; [apply sort_perm|exact Wr].
Qed.
Definition has_base (r : registry) : Prop := forall k e, dget r k = Some e -> exists f, e_base e = Some f.
Lemma settled_base r : settled r -> has_base r.
Proof. intros S k e H. apply S in H as <-. unfold complete. cbn. eauto. Qed.
Lemma listing_ok signature getdoc r pattern : has_base r -> forall names, (forall k, In k names -> dmem r k = true) ->
  exists out, listing signature getdoc r pattern names = Ok out /\
  Forall2 (fun k text => exists e f, dget r k = Some e /\ e_base e = Some f /\ entry_text k (signature f) (getdoc f) text)
          (filter (fun k => fnmatch k pattern) names) out.
Proof.
  intros B. induction names as [|k names IH]; intros H; [exists []; split; [reflexivity|constructor]|].
  assert (X := H k (or_introl eq_refl)). unfold dmem in X. cbn [listing]. destruct (dget r k) as [e|] eqn:E; [|discriminate].
  destruct (B k e E) as [f Ef]. rewrite Ef. destruct IH as (out & -> & F); [intros; apply H; now right|]. cbn.
  destruct (fnmatch k pattern); eexists; (split; [reflexivity|]); auto. constructor; auto.
  exists e, f. repeat split; auto. apply shown_text.
Qed.
(** Printing the functions never fails, and prints one text for each of the registered names
    that match the pattern and for no other name, in the order of strings: the signature of
    the function that was registered and the first line of its documentation. *)
Theorem C86_printed signature getdoc r0 h pattern : dict_wf r0 ->
  let r := registered (update_registry r0) h in
  exists names out, print_validation_functions signature getdoc r pattern = Ok out /\
    StronglySorted str_lt names /\
    (forall k, In k names <-> dmem r k = true /\ matches pattern k) /\
    Forall2 (fun k text => exists e f, dget r k = Some e /\ e_base e = Some f /\ entry_text k (signature f) (getdoc f) text) names out.
Proof.
  intros W r. assert (S : settled r) by (apply settled_registered; [now apply update_wf|now apply update_settled]).
  destruct (C86_types r0 h W) as (T1 & _ & T2). fold r in T1, T2.
  destruct (listing_ok signature getdoc r pattern (settled_base r S) (types r)) as (out & E & F); [intros k; apply T2|].
  exists (filter (fun k => fnmatch k pattern) (types r)), out. split; [exact E|]. split; [|split; [|exact F]].
  - revert T1. generalize (types r). induction l as [|x l IH]; intro X; [constructor|]. inversion X as [|? ? X1 X2]; subst.
    cbn. destruct (fnmatch x pattern); auto. constructor; auto. apply Forall_forall. intros y Hy. apply filter_In in Hy as [Hy _].
    rewrite Forall_forall in X2. auto.
  - intro k. rewrite filter_In, T2, fnmatch_iff. reflexivity.
Qed.
(** Patterns *)
Theorem C86_everything s : matches "*" s.
Proof. induction s as [|c s IH]; [apply m_star_none; constructor|now apply m_star_more]. Qed.
Theorem C86_literal p : literal p -> forall s, matches p s <-> s = p.
Proof.
  induction p as [|c p IH]; intros L s.
  - split; [now inversion 1|]. intros ->. constructor.
  - destruct (L "" p c eq_refl) as (N1 & N2 & N3).
    assert (Lp : literal p) by (intros a b d ->; now apply (L (String c a) b d)).
    split; [|intros ->; apply m_char; auto; now apply IH].
    inversion 1; subst; try congruence. f_equal. now apply IH.
Qed.
Lemma star_iff p s : matches (String "*" p) s <-> exists a b, s = a ++ b /\ matches p b.
Proof.
  split.
  - intro H. remember (String "*" p) as q eqn:E. revert E. induction H; intro E; try discriminate; try (injection E; congruence).
    + injection E as ->. exists "", s. auto.
    + injection E as ->. destruct (IHmatches eq_refl) as (a & b & -> & M). exists (String c a), b. auto.
  - intros (a & b & -> & M). induction a as [|c a IH]; [now apply m_star_none|now apply m_star_more].
Qed.
Lemma literal_app p q s : literal p -> (matches (p ++ q) s <-> exists b, s = p ++ b /\ matches q b).
Proof.
  revert s. induction p as [|c p IH]; intros s L.
  - cbn. split; [eauto|]. now intros (b & -> & M).
  - destruct (L "" p c eq_refl) as (N1 & N2 & N3).
    assert (Lp : literal p) by (intros a b d ->; now apply (L (String c a) b d)). cbn.
    split.
    + inversion 1; subst; try congruence. apply IH in H6 as (b & -> & M); auto. now exists b.
    + intros (b & -> & M). apply m_char; auto. apply IH; auto. now exists b.
Qed.
(** "*text*": the names that contain the text *)
Theorem C86_contains p s : literal p -> (matches ("*" ++ p ++ "*") s <-> exists a b, s = a ++ p ++ b).
Proof.
  intro L. cbn. rewrite star_iff. split.
  - intros (a & b & -> & M). apply literal_app in M as (d & -> & _); auto. now exists a, d.
  - intros (a & b & ->). exists a, (p ++ b). split; auto. apply literal_app; auto. exists b. split; auto. apply C86_everything.
Qed.
(** After a function is registered, its name alone as a pattern prints it, and only it; the name
    of the type of its lists prints the same function: that of one value. *)
Lemma one_name (P : string -> string -> Prop) k names out : StronglySorted str_lt names -> (forall k', In k' names <-> k' = k) ->
  Forall2 P names out -> exists text, out = [text] /\ P k text.
Proof.
  intros S I F. destruct names as [|a names]; [now destruct (proj2 (I k) eq_refl)|].
  assert (a = k) as -> by (apply I; now left). inversion F as [|? t ? out' H1 H2]; subst.
  destruct names as [|b names].
  - inversion H2; subst. eauto.
  - assert (b = k) as -> by (apply I; right; now left). inversion S as [|? ? _ X]; subst. inversion X; subst. now apply str_lt_irr in H3.
Qed.
Theorem C86_registered signature getdoc r0 h kw k n : dict_wf r0 -> dict_wf kw -> dget kw k = Some (of_func (Base n)) ->
  let before := registered (update_registry r0) h in
  let r := registered (update_registry r0) (h ++ [kw]) in
  (literal k -> exists text, print_validation_functions signature getdoc r k = Ok [text] /\
     entry_text k (signature (Base n)) (getdoc (Base n)) text) /\
  (literal (k ++ "_list") -> dmem before (k ++ "_list") = false -> dmem kw (k ++ "_list") = false ->
     exists text, print_validation_functions signature getdoc r (k ++ "_list") = Ok [text] /\
     entry_text (k ++ "_list") (signature (Base n)) (getdoc (Base n)) text).
Proof.
  intros W Wk H before r.
  assert (E : r = register before kw) by (unfold r, registered; now rewrite fold_left_app).
  assert (Wb : dict_wf before) by (apply registered_wf; now apply update_wf).
  assert (G : forall x e, literal x -> dget r x = Some e -> e_base e = Some (Base n) ->
     exists text, print_validation_functions signature getdoc r x = Ok [text] /\ entry_text x (signature (Base n)) (getdoc (Base n)) text).
  { intros x e L Dx B. destruct (C86_printed signature getdoc r0 (h ++ [kw]) x W) as (names & out & E1 & S & I & F). fold r in E1, I, F.
    eapply one_name in F as (text & -> & (e' & f & D' & B' & T)).
    - exists text. split; [exact E1|]. rewrite Dx in D'. injection D' as <-. rewrite B in B'. injection B' as <-. exact T.
    - exact S.
    - intro k'. rewrite I, C86_literal by auto. split; [tauto|]. intros ->. split; auto. unfold dmem. now rewrite Dx. }
  split.
  - intro L. eapply G; [exact L|rewrite E; apply C53_register; [exact Wb|exact Wk|exact H]|reflexivity].
  - intros L N1 N2. destruct (C53_lists before kw k n Wb Wk H) as [X _]. eapply G; [exact L|rewrite E; apply X; now split|reflexivity].
Qed.
(** Texts of patterns *)
Example C86_case :
  let sig f := match f with Base 1 => "(value, default=None)" | _ => "(value)" end in
  let doc f := match f with Base 1 => Some ("Validate a color" ++ String "010" "more") | _ => None end in
  let r := registered (update_registry [("date", of_func (Base 2)); ("color", of_func (Base 1))]) [] in
  print_validation_functions sig doc r "*[!e]?ist" =
    Ok ["color_list(value, default=None)" ++ String "010" "    Validate a color"; "date_list(value)"] /\
  print_validation_functions sig doc r "date[r-t]" = Ok ["dates(value)"] /\
  matches "[]a-]*" "-x" /\ ~ matches "[!]a-]*" "-x" /\ matches "[a" "[a".
Proof.
  cbn zeta. split; [vm_compute; reflexivity|]. split; [vm_compute; reflexivity|].
  split; [apply fnmatch_iff; vm_compute; reflexivity|]. split; [|apply fnmatch_iff; vm_compute; reflexivity].
  intro M. apply (proj2 (fnmatch_iff _ _)) in M. vm_compute in M. discriminate.
Qed.
Print Assumptions C86_types.
Print Assumptions C86_registered.
Print Assumptions C86_printed.
Print Assumptions C86_contains.
