(** Facts for C74. *)
From Verif Require Import CfgNamesSpec CfgNamesProps ValScalarProps CfgHelpProps PyReFacts PyDictFacts.
From Verif Require Export CfgRstSpec.
From Coq Require Import Lia.
Open Scope string_scope.
Open Scope nat_scope.

Lemma split_sep c a b : split_on c (a ++ String c b) = (split_on c a ++ split_on c b)%list.
Proof.
  induction a as [|x a IH]; cbn [append split_on].
  - rewrite Ascii.eqb_refl. reflexivity.
  - rewrite IH. destruct (Ascii.eqb x c); [reflexivity|]. destruct (split_on_cons c a) as (w & l & ->). reflexivity.
Qed.
Lemma split_joined l : l <> [] -> split_on nl (PyDict.join snl l) = flat_map (split_on nl) l.
Proof.
  destruct l as [|x l]; [congruence|]. intros _. revert x. induction l as [|y l IH]; intro x.
  - cbn. now rewrite app_nil_r.
  - change (PyDict.join snl (x :: y :: l)) with (x ++ String nl (PyDict.join snl (y :: l))). rewrite split_sep.
    change (flat_map (split_on nl) (x :: y :: l)) with (split_on nl x ++ flat_map (split_on nl) (y :: l))%list. f_equal. apply IH.
Qed.
Lemma split_no_nl c s x : In x (split_on c s) -> all_chars (fun a => negb (Ascii.eqb a c)) x = true.
Proof.
  revert x. induction s as [|a s IH]; intro x; cbn [split_on].
  - intros [<-|[]]. reflexivity.
  - destruct (Ascii.eqb a c) eqn:E.
    + intros [<-|H]; [reflexivity|auto].
    + destruct (split_on_cons c s) as (w & l & Es). rewrite Es in *. intros [<-|H].
      * cbn [all_chars]. rewrite E. cbn. apply IH. now left.
      * apply IH. now right.
Qed.
Lemma spaces_nl n : no_nl (spaces n).
Proof. unfold no_nl. induction n; cbn [spaces append all_chars]; auto. Qed.
Lemma no_nl_app a b : no_nl a -> no_nl b -> no_nl (a ++ b).
Proof. unfold no_nl. intros Ha Hb. rewrite all_chars_app. now rewrite Ha, Hb. Qed.
Lemma split_redent t n : split_on nl (redent t n) = map (fun l => spaces n ++ l) (split_on nl t).
Proof.
  unfold redent. destruct (split_on_cons nl t) as (w & l & E). rewrite split_joined by (rewrite E; discriminate).
  assert (H : forall x, In x (split_on nl t) -> no_nl x) by (intros x Hx; exact (split_no_nl nl t x Hx)).
  revert H. generalize (split_on nl t) as L. clear. induction L as [|x L IH]; intro H; cbn [map flat_map]; [reflexivity|].
  rewrite IH by (intros; apply H; now right). rewrite split_on_none; [reflexivity|]. apply no_nl_app; [apply spaces_nl|apply H; now left].
Qed.
Lemma spaces_S n : spaces n ++ "    " = spaces (S n).
Proof. induction n; [reflexivity|]. cbn [spaces] in *. rewrite CfgNamesProps.sapp_assoc, IHn. reflexivity. Qed.
Lemma spaces_more n l : spaces n ++ ("    " ++ l) = spaces (S n) ++ l.
Proof. rewrite <- spaces_S, CfgNamesProps.sapp_assoc. reflexivity. Qed.
Lemma split_items (its : dict rval) X : (forall i v, In (i, v) its -> no_nl i /\ no_nl (shown (joined v))) ->
  split_on nl (String.concat "" (map item_line its) ++ X) =
  (map (fun kv => ("| " ++ fst kv ++ ": ``" ++ shown (joined (snd kv)) ++ "``")%string) its ++ split_on nl X)%list.
Proof.
  intro H.
  assert (C : forall x l, String.concat "" (x :: l) = x ++ String.concat "" l).
  { intros x [|y l]; cbn; [now rewrite CfgNamesProps.sapp_nil_r|reflexivity]. }
  induction its as [|[i v] its IH]; cbn [map]; [reflexivity|]. rewrite C, CfgNamesProps.sapp_assoc. unfold item_line at 1. cbn [fst snd].
  destruct (H i v (or_introl eq_refl)) as [Hi Hv].
  set (L := "| " ++ i ++ ": ``" ++ shown (joined v) ++ "``").
  replace ("| " ++ i ++ ": ``" ++ shown (joined v) ++ "``" ++ snl) with (L ++ snl).
  2: { unfold L. now rewrite !CfgNamesProps.sapp_assoc. }
  rewrite CfgNamesProps.sapp_assoc. change (snl ++ ?x) with (String nl x).
  change (L ++ snl ++ String.concat "" (map item_line its) ++ X) with (L ++ String nl (String.concat "" (map item_line its) ++ X)).
  rewrite split_on_sep.
  - cbn [app]. f_equal. apply IH. intros. eapply H. right. eauto.
  - unfold L. repeat first [apply no_nl_app; [try reflexivity; try assumption|]]; try reflexivity; assumption.
Qed.
(** The lines of a directive *)
Lemma split_directive s ty name desc its : no_nl ty -> no_nl name -> no_nl desc ->
  (forall i v, In (i, v) its -> no_nl i /\ no_nl (shown (joined v))) ->
  split_on nl (directive s ty name desc its) =
  let d := depth s in
  ([(spaces d ++ ".. " ++ ty ++ ":: " ++ name)%string; spaces d] ++
   match its with [] => [] | _ => map (fun kv => (spaces (S d) ++ "| " ++ fst kv ++ ": ``" ++ shown (joined (snd kv)) ++ "``")%string) its ++ [spaces (S d)] end ++
   [(spaces (S d) ++ desc)%string; spaces d])%list.
Proof.
  intros Ht Hn Hd Hi. unfold directive. cbv zeta. rewrite split_redent.
  set (desc' := match its with [] => desc | _ :: _ => _ end).
  set (h := ".. " ++ ty ++ ":: " ++ name).
  assert (Hh : no_nl h) by (unfold h; repeat (apply no_nl_app; [reflexivity || assumption|]); assumption).
  replace (".. " ++ ty ++ ":: " ++ name ++ snl ++ snl ++ redent desc' 1 ++ snl) with (h ++ String nl (String nl (redent desc' 1 ++ String nl ""))).
  2: { unfold h, snl. rewrite !CfgNamesProps.sapp_assoc. reflexivity. }
  rewrite split_on_sep by exact Hh. cbn [split_on]. rewrite Ascii.eqb_refl. rewrite split_sep, split_redent. cbn [map app split_on spaces append].
  rewrite !CfgNamesProps.sapp_nil_r. f_equal. f_equal. rewrite map_app, map_map. cbn [map].  rewrite CfgNamesProps.sapp_nil_r.
  assert (E : map (fun x => spaces (depth s) ++ String " " (String " " (String " " (String " " x)))) (split_on nl desc') =
    (match its with [] => [] | _ => map (fun kv => (spaces (S (depth s)) ++ "| " ++ fst kv ++ ": ``" ++ shown (joined (snd kv)) ++ "``")%string) its ++ [spaces (S (depth s))] end ++
     [(spaces (S (depth s)) ++ desc)%string])%list).
  { assert (M : forall l, map (fun x => spaces (depth s) ++ String " " (String " " (String " " (String " " x)))) l = map (fun x => spaces (S (depth s)) ++ x) l).
    { intro l. apply map_ext. intro x. exact (spaces_more (depth s) x). }
    rewrite M. unfold desc'. destruct its as [|i its].
    - rewrite split_on_none by exact Hd. reflexivity.
    - rewrite split_items by exact Hi. change (snl ++ desc) with (String nl desc). cbn [split_on]. rewrite Ascii.eqb_refl.
      rewrite split_on_none by exact Hd. rewrite map_app, map_map. cbn [map]. rewrite CfgNamesProps.sapp_nil_r. rewrite <- app_assoc. reflexivity. }
  rewrite E, <- app_assoc. reflexivity.
Qed.

(** *** From the walk to the entries *)
Lemma display_shown v : display v = shown (joined v).
Proof.
  destruct v as [s|l|s]; cbn [display joined shown value_text]; [| |reflexivity].
  - destruct s; reflexivity.
  - destruct (PyDict.join ", " l); reflexivity.
Qed.
Lemma dset_new {V} (d : dict V) k v : ~ In k (dkeys d) -> dset d k v = (d ++ [(k, v)])%list.
Proof.
  induction d as [|[k' v'] d IH]; cbn [dset]; [reflexivity|]. intro H. cbn in H.
  destruct (String.eqb_spec k k') as [->|]; [tauto|]. cbn. f_equal. apply IH. tauto.
Qed.
Lemma dkeys_app {V} (a b : dict V) : dkeys (a ++ b)%list = (dkeys a ++ dkeys b)%list.
Proof. apply map_app. Qed.
Lemma dupdate_new {V} (e d : dict V) : NoDup (dkeys e) -> (forall k, In k (dkeys e) -> ~ In k (dkeys d)) -> dupdate d e = (d ++ e)%list.
Proof.
  unfold dupdate. revert d. induction e as [|[k v] e IH]; intros d N H; cbn [fold_left]; [now rewrite app_nil_r|].
  cbn in N. inversion N; subst. rewrite dset_new by (apply H; now left). rewrite IH; auto.
  - rewrite <- app_assoc. reflexivity.
  - intros k' Hk'. rewrite dkeys_app, in_app_iff. intros [X|[X|[]]]; [apply (H k'); [now right|exact X]|]. cbn in X. subst. contradiction.
Qed.
Section walk.
Variable parse : string -> res optspec.
Variables (optrole secrole : string) (mode : rmode).
Hypothesis roles : no_nl optrole /\ no_nl secrole.
Hypothesis plain_specs : mode = RSpecs -> forall s sp, parse s = Ok sp -> plain_spec sp.
Definition pairs (its : dict rval) := map (fun kv => (fst kv, shown (joined (snd kv)))) its.
Lemma items_listed name v its : (mode = RSpecs -> name <> "choice") -> items parse mode name v = Ok its -> pairs its = listed parse mode v.
Proof.
  intros Hn. unfold items, listed. destruct mode; try discriminate.
  - intro E. injection E as <-. reflexivity.
  - intro E. injection E as <-. cbn. now rewrite display_shown.
  - specialize (Hn eq_refl). specialize (plain_specs eq_refl). destruct (parse (value_text v)) as [sp|] eqn:Ep; [|discriminate].
    destruct (plain_specs _ _ Ep) as [N D]. cbn [bind]. intro E. apply (f_equal (fun r => match r with Ok x => x | _ => its end)) in E. cbv beta iota in E. subst its.
    destruct (String.eqb_spec name "choice"); [contradiction|].
    set (d := match o_args sp with [] => _ | _ => _ end).
    assert (Ed : d = ([("default", o_default sp); ("type", RText (o_func sp))] ++ match o_args sp with [] => [] | a => [("args", RList a)] end)%list).
    { unfold d. destruct (o_args sp); [reflexivity|]. rewrite dset_new; [reflexivity|]. cbn. intuition discriminate. }
    assert (Eu : match o_kwargs sp with [] => d | kw => dupdate d kw end = (d ++ o_kwargs sp)%list).
    { destruct (o_kwargs sp) as [|kv kw] eqn:Ek; [now rewrite app_nil_r|]. rewrite <- Ek. rewrite <- Ek in N, D. apply dupdate_new; [exact N|].
      intros k Hk Hd. apply (D k Hk). rewrite Ed in Hd. rewrite dkeys_app in Hd. apply in_app_or in Hd. cbn in Hd. cbn.
      destruct (o_args sp); cbn in Hd; tauto. }
    rewrite Eu, Ed. unfold pairs. rewrite !map_app. cbn [map fst snd]. rewrite <- app_assoc, !display_shown.
    assert (Em : forall l : dict rval, map (fun kv => (fst kv, shown (joined (snd kv)))) l = map (fun kv => (fst kv, display (snd kv))) l)
      by (intro l; apply map_ext; intros []; now rewrite display_shown).
    rewrite !Em. destruct (o_args sp); reflexivity.
Qed.
Lemma depth_names s : List.length (top_names s) = depth s.
Proof. induction s as [|n p IH]; cbn [top_names depth]; [reflexivity|]. rewrite app_length, IH. cbn. lia. Qed.
Lemma option_lines s inline kv t : (s = Root -> mode = RSpecs -> fst kv <> "choice") ->
  option_text parse optrole mode s inline kv = Ok t ->
  no_nl (fst kv) -> Forall no_nl (top_names s) -> no_nl (describe inline (fst kv)) ->
  (forall i v, In (i, v) (listed parse mode (snd kv)) -> no_nl i /\ no_nl v) ->
  split_on nl t = block optrole secrole (mkentry (top_names s) (fst kv) false (describe inline (fst kv)) (listed parse mode (snd kv))).
Proof.
  intros Hc. unfold option_text. rewrite C34_sec_names.
  set (name := match top_names s with [] => _ | _ => _ end). destruct (items parse mode name (snd kv)) as [its|] eqn:Ei; [|discriminate].
  cbn [bind]. intros E Hk Hs Hd Hi. injection E as <-.
  assert (Et : title (mkentry (top_names s) (fst kv) false (describe inline (fst kv)) (listed parse mode (snd kv))) = name)
    by (unfold title, name; cbn [e_path e_section e_key]; destruct (top_names s); reflexivity).
  assert (L : pairs its = listed parse mode (snd kv)).
  { apply (items_listed name); [|exact Ei]. intros Hm. unfold name. destruct s as [|n p]; [apply Hc; auto|]. cbn [top_names].
    destruct (top_names p ++ [n])%list eqn:X; [now destruct (top_names p)|discriminate]. }
  rewrite split_directive; [|apply roles| |exact Hd|].
  - cbv zeta. unfold block. cbn [e_path e_section e_items e_desc]. rewrite Et, depth_names, <- L. cbn [app]. f_equal. f_equal.
    destruct its as [|i its]; [reflexivity|]. unfold pairs. cbn [map]. rewrite map_map. reflexivity.
  - assert (J : no_nl (PyDict.join "][" (top_names s))).
    { revert Hs. generalize (top_names s). clear. intro l. induction l as [|x [|y l] IH]; intro F; [reflexivity|now inversion F|].
      inversion F; subst. change (PyDict.join "][" (x :: y :: l)) with (x ++ "][" ++ PyDict.join "][" (y :: l)).
      apply no_nl_app; [auto|]. apply no_nl_app; [reflexivity|]. auto. }
    unfold name. destruct (top_names s) eqn:X; [exact Hk|]. rewrite <- X in *.
    apply no_nl_app; [reflexivity|]. apply no_nl_app; [exact J|]. apply no_nl_app; [reflexivity|exact Hk].
  - intros i v Hin. apply Hi. rewrite <- L. unfold pairs. apply in_map_iff. exists (i, v). auto.
Qed.
Lemma join_no_nl l : Forall no_nl l -> no_nl (PyDict.join "][" l).
Proof.
  clear. induction l as [|x [|y l] IH]; intro F; [reflexivity|now inversion F|].
  inversion F; subst. change (PyDict.join "][" (x :: y :: l)) with (x ++ "][" ++ PyDict.join "][" (y :: l)).
  apply no_nl_app; [auto|]. apply no_nl_app; [reflexivity|]. auto.
Qed.
Lemma section_lines s inline key t : section_text secrole mode s inline key = Ok t ->
  no_nl key -> Forall no_nl (top_names s) -> no_nl (describe inline key) ->
  split_on nl t = block optrole secrole (mkentry (top_names s) key true (describe inline key) []).
Proof.
  unfold section_text. rewrite C34_sec_names. intros E Hk Hs Hd.
  assert (E' : t = directive s secrole ("[" ++ PyDict.join "][" (top_names s ++ [key])%list ++ "]") (describe inline key) []) by (destruct mode; congruence).
  subst t. rewrite split_directive; [|apply roles| |exact Hd|intros i v []].
  - cbv zeta. unfold block. cbn [e_path e_section e_items e_desc]. rewrite depth_names. reflexivity.
  - apply no_nl_app; [reflexivity|]. apply no_nl_app; [|reflexivity]. apply join_no_nl. apply Forall_app. auto.
Qed.
Lemma seq_in {A B} (f : A -> res (list B)) : forall l out, seq (map f l) = Ok out -> exists outs, out = List.concat outs /\ Forall2 (fun x o => f x = Ok o) l outs.
Proof.
  clear. induction l as [|x l IH]; intros out E; cbn [map seq] in E.
  - injection E as <-. exists []. split; [reflexivity|constructor].
  - destruct (f x) as [a|] eqn:Ea; [|discriminate]. cbn [bind] in E. destruct (seq (map f l)) as [b|]; [|discriminate]. cbn [bind] in E. injection E as <-.
    destruct (IH b eq_refl) as (outs & -> & F). exists (a :: outs). split; [reflexivity|]. constructor; auto.
Qed.
Section conf_ind.
Variable P : conf -> Prop.
Hypothesis step : forall opts subs inline, Forall (fun kc => P (snd kc)) subs -> P (Conf opts subs inline).
Fixpoint conf_ind' (c : conf) : P c :=
  match c with
  | Conf opts subs inline => step opts subs inline
      ((fix go (l : list (string * conf)) : Forall (fun kc => P (snd kc)) l :=
          match l with [] => Forall_nil _ | kc :: l' => Forall_cons kc (conf_ind' (snd kc)) (go l') end) subs)
  end.
End conf_ind.
Lemma fm_map {A B C} (f : B -> list C) (g : A -> B) l : flat_map f (map g l) = flat_map (fun x => f (g x)) l.
Proof. clear. induction l; cbn; [reflexivity|]. now f_equal. Qed.
Lemma walk_lines c : forall s ls, walk parse optrole secrole mode s c = Ok ls -> one_line (doc_of parse mode c) -> Forall no_nl (top_names s) ->
  (s = Root -> mode = RSpecs -> match c with Conf opts _ _ => ~ In "choice" (map fst opts) end) ->
  flat_map (split_on nl) ls = flat_map (block optrole secrole) (entries (top_names s) (doc_of parse mode c)).
Proof.
  induction c as [opts subs inline IH] using conf_ind'. intros s ls E O Hs Hc. cbn [walk] in E. cbn [doc_of] in O.
  inversion O as [o0 s0 O1 O2]; subst o0 s0. 
  destruct (seq (map _ opts)) as [a|] eqn:Ea; [|discriminate]. cbn [bind] in E.
  destruct (seq (map _ subs)) as [b|] eqn:Eb; [|discriminate]. cbn [bind] in E. injection E as <-.
  cbn [doc_of entries]. rewrite !flat_map_app. f_equal.
  - apply seq_in in Ea. destruct Ea as (outs & -> & F). rewrite map_map.
    assert (H : forall kv, In kv opts -> forall t, option_text parse optrole mode s inline kv = Ok t ->
      split_on nl t = block optrole secrole (mkentry (top_names s) (fst kv) false (describe inline (fst kv)) (listed parse mode (snd kv)))).
    { intros kv Hin t Et.
      destruct (O1 (fst kv) (describe inline (fst kv)) (listed parse mode (snd kv))) as (X1 & X2 & X3).
      { apply in_map_iff. exists kv. auto. }
      apply option_lines; auto. intros Hr Hm. specialize (Hc Hr Hm). intro X. apply Hc. rewrite <- X. now apply in_map. }
    clear O1 O Hc. induction F as [|kv o opts outs Ho F IHF]; cbn [map List.concat flat_map]; [reflexivity|].
    rewrite flat_map_app, IHF by (intros; apply H; auto; now right). f_equal.
    destruct (option_text parse optrole mode s inline kv) as [t|] eqn:Et; [|discriminate]. cbn [bind] in Ho. injection Ho as <-.
    cbn [flat_map]. rewrite app_nil_r. apply H; auto. now left.
  - apply seq_in in Eb. destruct Eb as (outs & -> & F). rewrite fm_map.
    assert (H : forall kc, In kc subs -> forall o, (let* t := section_text secrole mode s inline (fst kc) in
        let* l := walk parse optrole secrole mode (Sub (fst kc) s) (snd kc) in Ok (t :: l)) = Ok o ->
      flat_map (split_on nl) o = flat_map (block optrole secrole) (mkentry (top_names s) (fst kc) true (describe inline (fst kc)) [] ::
         entries (top_names s ++ [fst kc]) (doc_of parse mode (snd kc)))).
    { intros kc Hin o Eo.
      destruct (O2 (fst kc) (describe inline (fst kc)) (doc_of parse mode (snd kc))) as (X1 & X2 & X3).
      { apply in_map_iff. exists kc. auto. }
      destruct (section_text secrole mode s inline (fst kc)) as [t|] eqn:Et; [|discriminate]. cbn [bind] in Eo.
      destruct (walk parse optrole secrole mode (Sub (fst kc) s) (snd kc)) as [l|] eqn:El; [|discriminate]. cbn [bind] in Eo. injection Eo as <-.
      cbn [flat_map]. rewrite (section_lines s inline (fst kc) t) by auto. f_equal.
      rewrite Forall_forall in IH. apply (IH kc Hin (Sub (fst kc) s) l); auto; [|discriminate]. cbn [top_names]. apply Forall_app. auto. }
    clear O1 O2 O Hc IH. induction F as [|kc o subs outs Ho F IHF]; cbn [map List.concat flat_map]; [reflexivity|].
    rewrite flat_map_app, IHF by (intros; apply H; auto; now right). rewrite (H kc (or_introl eq_refl) o Ho). cbn [flat_map]. rewrite flat_map_app. rewrite <- app_assoc. reflexivity.
Qed.
End walk.

(** *** Reading the document back *)
Definition without (c : ascii) (s : string) : Prop := all_chars (fun a => negb (Ascii.eqb a c)) s = true.
Lemma sep_inv c : forall a b x y, without c a -> without c b -> a ++ String c x = b ++ String c y -> a = b /\ x = y.
Proof.
  unfold without. induction a as [|p a IH]; intros [|q b] x y Ha Hb E; cbn [append all_chars] in *.
  - injection E as E. auto.
  - injection E as E1 E2. subst q. rewrite Ascii.eqb_refl in Hb. discriminate.
  - injection E as E1 E2. subst p. rewrite Ascii.eqb_refl in Ha. discriminate.
  - injection E as E1 E2. subst q. apply andb_true_iff in Ha, Hb. destruct (IH b x y) as [-> ->]; tauto.
Qed.
Lemma spaces_inv : forall d d' x y, spaces d ++ String "." x = spaces d' ++ String "." y -> d = d' /\ x = y.
Proof.
  induction d as [|d IH]; intros [|d'] x y E; cbn [spaces append] in E; try discriminate.
  - injection E as ->. auto.
  - injection E as E. destruct (IH _ _ _ E) as [-> ->]. auto.
Qed.
Lemma no_bracket_without s : no_bracket s -> without "]" s.
Proof.
  unfold no_bracket, without. induction s as [|c s IH]; cbn [all_chars]; [auto|]. intro H. apply andb_true_iff in H. destruct H as [H1 H2].
  rewrite IH by exact H2. unfold bracket in H1. destruct (Ascii.eqb c "["), (Ascii.eqb c "]"); try discriminate; reflexivity.
Qed.
Definition closed (x : string) : Prop := match x with "" => True | String c _ => c <> "["%char end.
Lemma names_inv : forall l l' x y, Forall no_bracket l -> Forall no_bracket l' -> l <> [] -> l' <> [] -> closed x -> closed y ->
  PyDict.join "][" l ++ String "]" x = PyDict.join "][" l' ++ String "]" y -> l = l' /\ x = y.
Proof.
  induction l as [|a l IH]; [congruence|]. intros [|b l'] x y F F' _ N C C' E; [congruence|]. inversion F; inversion F'; subst.
  destruct l as [|a2 l], l' as [|b2 l'].
  - cbn [PyDict.join] in E. apply sep_inv in E; [destruct E as [-> ->]; auto|now apply no_bracket_without|now apply no_bracket_without].
  - change (PyDict.join "][" (b :: b2 :: l')) with (b ++ "][" ++ PyDict.join "][" (b2 :: l')) in E. cbn [PyDict.join] in E.
    rewrite !CfgNamesProps.sapp_assoc in E.
    apply (sep_inv "]" a b x ("[" ++ PyDict.join "][" (b2 :: l') ++ String "]" y)) in E; [|now apply no_bracket_without|now apply no_bracket_without].
    destruct E as [_ ->]. now destruct C.
  - change (PyDict.join "][" (a :: a2 :: l)) with (a ++ "][" ++ PyDict.join "][" (a2 :: l)) in E. cbn [PyDict.join] in E.
    rewrite !CfgNamesProps.sapp_assoc in E.
    apply (sep_inv "]" a b ("[" ++ PyDict.join "][" (a2 :: l) ++ String "]" x) y) in E; [|now apply no_bracket_without|now apply no_bracket_without].
    destruct E as [_ <-]. now destruct C'.
  - change (PyDict.join "][" (a :: a2 :: l)) with (a ++ "][" ++ PyDict.join "][" (a2 :: l)) in E.
    change (PyDict.join "][" (b :: b2 :: l')) with (b ++ "][" ++ PyDict.join "][" (b2 :: l')) in E.
    rewrite !CfgNamesProps.sapp_assoc in E.
    apply (sep_inv "]" a b ("[" ++ PyDict.join "][" (a2 :: l) ++ String "]" x) ("[" ++ PyDict.join "][" (b2 :: l') ++ String "]" y)) in E;
      [|now apply no_bracket_without|now apply no_bracket_without].
    destruct E as [-> E]. apply (PyReFacts.sapp_inv_head "[") in E.
    destruct (IH (b2 :: l') x y) as [X ->]; auto; [discriminate|discriminate|]. rewrite X. auto.
Qed.
Lemma slen a b : String.length (a ++ b) = String.length a + String.length b.
Proof. induction a; cbn; auto. Qed.
Definition title_of (p : list string) (k : string) (b : bool) : string := title (mkentry p k b "" []).
Lemma bracket_starts x : startswith (String "[" x) "[" <> false.
Proof. now destruct x. Qed.
Lemma title_of_inj p k b p' k' b' : Forall no_bracket p -> (b = true -> no_bracket k) -> (b = false -> p = [] -> startswith k "[" = false) ->
  Forall no_bracket p' -> (b' = true -> no_bracket k') -> (b' = false -> p' = [] -> startswith k' "[" = false) ->
  title_of p k b = title_of p' k' b' -> p = p' /\ k = k' /\ b = b'.
Proof.
  intros F K R F' K' R' E. 
  set (tl := fun (k : string) (b : bool) => if b then "" else " " ++ k).
  set (ns := fun p (k : string) (b : bool) => if b then (p ++ [k])%list else p).
  assert (T : forall p k b, ns p k b <> [] -> title_of p k b = "[" ++ PyDict.join "][" (ns p k b) ++ String "]" (tl k b)).
  { intros p0 k0 []; unfold title_of, title, ns, tl; cbn [e_section e_path e_key]; intros N; [reflexivity|]. destruct p0; [congruence|reflexivity]. }
  assert (C : forall k b, closed (tl k b)) by (intros k0 []; unfold tl; [exact Logic.I|cbn [append closed]; congruence]).
  assert (NB : forall p k b, Forall no_bracket p -> (b = true -> no_bracket k) -> Forall no_bracket (ns p k b)).
  { intros p0 k0 [] X Y; unfold ns; [|auto]. apply Forall_app. auto. }
  assert (Z : forall p k b, {ns p k b = [] /\ p = [] /\ b = false} + {ns p k b <> []}).
  { intros p0 k0 []; unfold ns; [right; now destruct p0|]. destruct p0; [left; auto|right; discriminate]. }
  destruct (Z p k b) as [(_ & -> & ->)|Z1], (Z p' k' b') as [(_ & -> & ->)|Z2].
  - cbn in E. auto.
  - rewrite (T _ _ _ Z2) in E. cbn in E. specialize (R eq_refl eq_refl). rewrite E in R. exfalso. revert R. apply bracket_starts.
  - rewrite (T _ _ _ Z1) in E. cbn in E. specialize (R' eq_refl eq_refl). rewrite <- E in R'. exfalso. revert R'. apply bracket_starts.
  - rewrite (T _ _ _ Z1), (T _ _ _ Z2) in E. apply (PyReFacts.sapp_inv_head "[") in E. apply names_inv in E; auto.
    destruct E as [E1 E2]. unfold ns, tl in E1, E2. destruct b, b'; try discriminate.
    + apply app_inj_tail in E1. tauto.
    + cbn in E2. injection E2 as ->. auto.
Qed.
Lemma title_key p k k' b : title_of p k b = title_of p k' b -> k = k'.
Proof.
  unfold title_of, title. cbn [e_section e_path e_key]. destruct b.
  - intro E. apply (PyReFacts.sapp_inv_head "[") in E. 
    assert (L := f_equal String.length E). rewrite !slen in L.
    apply PyReFacts.sapp_inv_len in E; [|lia]. destruct E as [E _]. clear L. revert E. induction p as [|x p IH]; [auto|].
    destruct p as [|y p].
    + cbn. intro E. apply PyReFacts.sapp_inv_head in E. now injection E.
    + change ((x :: y :: p) ++ [k])%list with (x :: y :: (p ++ [k]))%list. change ((x :: y :: p) ++ [k'])%list with (x :: y :: (p ++ [k']))%list.
      change (PyDict.join "][" (x :: y :: (p ++ [k])%list)) with (x ++ "][" ++ PyDict.join "][" ((y :: p) ++ [k])%list).
      change (PyDict.join "][" (x :: y :: (p ++ [k'])%list)) with (x ++ "][" ++ PyDict.join "][" ((y :: p) ++ [k'])%list).
      intro E. apply PyReFacts.sapp_inv_head in E. apply (PyReFacts.sapp_inv_head "][") in E. auto.
  - destruct p; [auto|]. intro E. apply (PyReFacts.sapp_inv_head "[") in E. apply PyReFacts.sapp_inv_head in E.
    now apply (PyReFacts.sapp_inv_head "] ") in E.
Qed.
Definition wf_entry (e : entry) : Prop := forall i v, In (i, v) (e_items e) -> no_colon i.
Definition weak (e : entry) := (List.length (e_path e), e_section e, title e, e_desc e, e_items e).
Lemma spaces_len n : String.length (spaces n) = 4 * n.
Proof. induction n; cbn [spaces append String.length]; lia. Qed.
Definition said (d : nat) (kv : string * string) : string := spaces d ++ "| " ++ fst kv ++ ": ``" ++ snd kv ++ "``".
Lemma said_inj d kv kv' : no_colon (fst kv) -> no_colon (fst kv') -> said d kv = said d kv' -> kv = kv'.
Proof.
  intros N N' E. unfold said in E. apply PyReFacts.sapp_inv_head in E. apply (PyReFacts.sapp_inv_head "| ") in E.
  apply (sep_inv ":" (fst kv) (fst kv') (" ``" ++ snd kv ++ "``") (" ``" ++ snd kv' ++ "``")) in E; [|exact N|exact N'].
  destruct E as [E1 E2]. apply (PyReFacts.sapp_inv_head " ``") in E2.
  assert (L := f_equal String.length E2). rewrite !slen in L. apply PyReFacts.sapp_inv_len in E2; [|lia]. destruct kv, kv'. cbn in *. destruct E2; congruence.
Qed.
Lemma said_not d kv n : n <= d -> said d kv <> spaces n.
Proof. intros H E. apply (f_equal String.length) in E. unfold said in E. rewrite slen, !spaces_len in E. cbn in E. lia. Qed.
Lemma spaces_not n : spaces (S n) <> spaces n.
Proof. intro E. apply (f_equal String.length) in E. rewrite !spaces_len in E. lia. Qed.
Lemma items_inv d its its' r r' : (forall i v, In (i, v) its -> no_colon i) -> (forall i v, In (i, v) its' -> no_colon i) ->
  (map (said d) its ++ spaces d :: r)%list = (map (said d) its' ++ spaces d :: r')%list -> its = its' /\ r = r'.
Proof.
  revert its'. induction its as [|kv its IH]; intros [|kv' its'] N N' E; cbn [map app] in E.
  - injection E as E. auto.
  - injection E as E1 E2. symmetry in E1. now apply said_not in E1.
  - injection E as E1 E2. now apply said_not in E1.
  - injection E as E1 E2. apply said_inj in E1.
    + destruct (IH its') as [-> ->]; auto; [intros i v H; eapply N; right; exact H|intros i v H; eapply N'; right; exact H|]. subst. auto.
    + destruct kv. eapply N. now left.
    + destruct kv'. eapply N'. now left.
Qed.
Section read.
Variables optrole secrole : string.
Hypotheses (R1 : role_ok optrole) (R2 : role_ok secrole) (R3 : optrole <> secrole).
Lemma block_inv e e' r r' : wf_entry e -> wf_entry e' ->
  (block optrole secrole e ++ r)%list = (block optrole secrole e' ++ r')%list -> weak e = weak e' /\ r = r'.
Proof.
  intros W W' E. unfold block in E. cbv zeta in E. cbn [app] in E.
  change (fun kv : string * string => spaces (S (List.length (e_path e))) ++ "| " ++ fst kv ++ ": ``" ++ snd kv ++ "``") with (said (S (List.length (e_path e)))) in E.
  change (fun kv : string * string => spaces (S (List.length (e_path e'))) ++ "| " ++ fst kv ++ ": ``" ++ snd kv ++ "``") with (said (S (List.length (e_path e')))) in E.
  injection E as E1 E2 E3.
  set (role := if e_section e then secrole else optrole) in E1. set (role' := if e_section e' then secrole else optrole) in E1.
  apply (spaces_inv (List.length (e_path e)) (List.length (e_path e')) (". " ++ role ++ ":: " ++ title e) (". " ++ role' ++ ":: " ++ title e')) in E1.
  destruct E1 as [L E1]. apply (PyReFacts.sapp_inv_head ". ") in E1.
  apply (sep_inv ":" role role' (": " ++ title e) (": " ++ title e')) in E1;
    [|unfold role; destruct (e_section e); [apply R2|apply R1]|unfold role'; destruct (e_section e'); [apply R2|apply R1]].
  destruct E1 as [Er E1]. apply (PyReFacts.sapp_inv_head ": ") in E1.
  assert (Es : e_section e = e_section e').
  { unfold role, role' in Er. destruct (e_section e), (e_section e'); congruence. }
  rewrite <- L in E3.
  set (d := List.length (e_path e)) in *.
  assert (D : forall x y, spaces (S d) ++ x = spaces (S d) ++ y -> x = y) by (intros x y; apply PyReFacts.sapp_inv_head).
  assert (N := W). assert (N' := W'). unfold wf_entry in N, N'. clear W W'.
  assert (Fin : e_desc e = e_desc e' -> e_items e = e_items e' -> weak e = weak e').
  { unfold weak. intros -> ->. fold d. rewrite <- L, Es, E1. reflexivity. }
  destruct (e_items e) as [|i its] eqn:Ei, (e_items e') as [|i' its'] eqn:Ei'.
  - cbn [map app] in E3. injection E3 as X1 X2. split; [apply Fin; [eapply PyReFacts.sapp_inv_head; exact X1|reflexivity]|exact X2].
  - cbn [map app] in E3. injection E3 as X1 X2. destruct its' as [|i2 its']; cbn [map app] in X2; injection X2 as X2 X3.
    + symmetry in X2. now apply spaces_not in X2.
    + symmetry in X2. apply said_not in X2; [contradiction|lia].
  - cbn [map app] in E3. injection E3 as X1 X2. destruct its as [|i2 its]; cbn [map app] in X2; injection X2 as X2 X3.
    + now apply spaces_not in X2.
    + apply said_not in X2; [contradiction|lia].
  - rewrite <- !app_assoc in E3. cbn [app] in E3. apply items_inv in E3; [|exact N|exact N']. destruct E3 as [X1 X2]. injection X2 as X2 X3.
    split; [apply Fin; [eapply PyReFacts.sapp_inv_head; exact X2|exact X1]|exact X3].
Qed.
Lemma blocks_inv : forall es es', Forall wf_entry es -> Forall wf_entry es' ->
  flat_map (block optrole secrole) es = flat_map (block optrole secrole) es' -> map weak es = map weak es'.
Proof.
  induction es as [|e es IH]; intros [|e' es'] W W' E; cbn [flat_map] in E.
  - reflexivity.
  - unfold block in E at 1. discriminate.
  - unfold block in E at 1. discriminate.
  - inversion W; inversion W'; subst. apply block_inv in E; auto. destruct E as [E1 E]. cbn [map]. rewrite E1. f_equal. auto.
Qed.
End read.
Section doc_ind.
Variable P : doc -> Prop.
Hypothesis step : forall opts subs, Forall (fun s => P (snd s)) subs -> P (Doc opts subs).
Fixpoint doc_ind' (d : doc) : P d :=
  match d with
  | Doc opts subs => step opts subs
      ((fix go (l : list (string * string * doc)) : Forall (fun s => P (snd s)) l :=
          match l with [] => Forall_nil _ | s :: l' => Forall_cons s (doc_ind' (snd s)) (go l') end) subs)
  end.
End doc_ind.
Lemma wf_entries d : forall p, readable d -> Forall wf_entry (entries p d).
Proof.
  induction d as [opts subs IH] using doc_ind'. intros p R. inversion R as [o s R1 R2]; subst. cbn [entries]. apply Forall_app. split.
  - apply Forall_map. apply Forall_forall. intros [[k desc] its] Hin. intros i v Hi. eapply R1; eauto.
  - rewrite Forall_forall in IH. clear R. induction subs as [|[[k desc] d'] subs IHs]; cbn [flat_map]; [constructor|].
    constructor; [|apply Forall_app; split].
    + intros i v [].
    + apply (IH (k, desc, d') (or_introl eq_refl)). eapply R2. now left.
    + apply IHs; intros; [eapply IH; [right|..]; eauto|eapply R2; right; eauto].
Qed.
Definition w_entry := (nat * bool * string * string * list (string * string))%type.
Definition w_depth (w : w_entry) : nat := let '(n, _, _, _, _) := w in n.
Definition w_section (w : w_entry) : bool := let '(_, b, _, _, _) := w in b.
Definition outside (n : nat) (r : list w_entry) : Prop := match r with [] => True | w :: _ => w_depth w < n end.
Definition not_opt (n : nat) (r : list w_entry) : Prop := match r with [] => True | w :: _ => w_section w = true \/ w_depth w < n end.
Lemma weak_is p k b de its : weak (mkentry p k b de its) = (List.length p, b, title_of p k b, de, its).
Proof. reflexivity. Qed.
Lemma opts_inv p : forall (o o' : list (string * string * list (string * string))) r r', not_opt (List.length p) r -> not_opt (List.length p) r' ->
  (map (fun o => let '(k, desc, its) := o in weak (mkentry p k false desc its)) o ++ r)%list =
  (map (fun o => let '(k, desc, its) := o in weak (mkentry p k false desc its)) o' ++ r')%list -> o = o' /\ r = r'.
Proof.
  induction o as [|[[k de] its] o IH]; intros [|[[k' de'] its'] o'] r r' N N' E; cbn [map app] in E.
  - auto.
  - subst r. cbn in N. destruct N; [discriminate|lia].
  - subst r'. cbn in N'. destruct N'; [discriminate|lia].
  - rewrite !weak_is in E. apply (f_equal (fun l => match l with x :: _ => Some x | [] => None end)) in E as E1. injection E1 as E1 E2 E3.
    apply (f_equal (@tl w_entry)) in E. cbn [tl] in E. apply title_key in E1. subst. apply IH in E; auto. destruct E as [-> ->]. auto.
Qed.
Lemma entries_inv d : forall d' p r r', outside (List.length p) r -> outside (List.length p) r' ->
  (map weak (entries p d) ++ r)%list = (map weak (entries p d') ++ r')%list -> d = d' /\ r = r'.
Proof.
  induction d as [opts subs IH] using doc_ind'. intros [opts' subs'] p r r' O O' E. cbn [entries] in E. rewrite !map_app, !map_map, <- !app_assoc in E.
  set (f := fun s : string * string * doc => let '(k, desc, d') := s in mkentry p k true desc [] :: entries (p ++ [k]) d') in *.
  assert (N : forall l q, outside (List.length p) q -> not_opt (List.length p) (map weak (flat_map f l) ++ q)).
  { intros [|[[k de] d] l] q Hq; cbn; [|now left]. destruct q; cbn in *; auto. }
  assert (ME : forall l : list (string * string * list (string * string)),
    map (fun x => weak (let '(k, desc, its) := x in mkentry p k false desc its)) l = map (fun x => let '(k, desc, its) := x in weak (mkentry p k false desc its)) l)
    by (intro l; apply map_ext; intros [[? ?] ?]; reflexivity).
  rewrite !ME in E.
  apply opts_inv in E; [|now apply N|now apply N]. destruct E as [-> E].
  assert (X : subs = subs' /\ r = r'); [|destruct X as [-> ->]; auto].
  revert subs' E. induction IH as [|[[k de] d] subs Hd _ IHs]; intros [|[[k' de'] d'] subs'] E; cbn [flat_map map app] in E.
  - auto.
  - subst r. cbn in O. lia.
  - subst r'. cbn in O'. lia.
  - cbn [f map app] in E. rewrite !weak_is in E. apply (f_equal (fun l => match l with x :: _ => Some x | [] => None end)) in E as E1. injection E1 as E1 E2.
    apply (f_equal (@tl w_entry)) in E. cbn [tl] in E. apply (f_equal (String "[")) in E1. apply (title_key p k k' true) in E1. subst k' de'. rewrite !map_app, <- !app_assoc in E. cbn [snd] in Hd.
    assert (U : forall l q, outside (List.length p) q -> outside (List.length (p ++ [k])) (map weak (flat_map f l) ++ q)).
    { intros [|[[k2 de2] d2] l] q Hq; cbn; [|rewrite app_length; cbn; lia]. destruct q; cbn in *; [auto|]. rewrite app_length. cbn. lia. }
    apply Hd in E; [|now apply U|now apply U]. destruct E as [-> E]. apply IHs in E. destruct E as [-> ->]. auto.
Qed.
