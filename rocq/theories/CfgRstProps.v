(** C74: the documentation of a configuration (cfg2rst). *)
From Verif Require Import CfgNamesSpec CfgNamesProps ValScalarProps CfgHelpProps PyReFacts PyDictFacts.
From Verif Require Export CfgRstProofs.
From Coq Require Import Lia.
Open Scope string_scope.
Open Scope nat_scope.

Lemma entries_nil parse mode c : entries [] (doc_of parse mode c) = [] <-> exists i, c = Conf [] [] i.
Proof.
  destruct c as [o s i]. cbn [doc_of entries]. split.
  - intro H. apply app_eq_nil in H. destruct H as [H1 H2]. destruct o; [|discriminate]. destruct s; [|discriminate]. eauto.
  - intros [j E]. injection E as -> -> ->. reflexivity.
Qed.
(** The lines of the document are those of the directives of its options and sections, in order, each once and nothing
    else: options first, then every subsection followed by what it holds *)
Theorem C74_lines : forall parse optrole secrole mode c text, cfg2rst parse optrole secrole mode c = Ok text ->
  no_nl optrole -> no_nl secrole -> plain parse mode c -> one_line (doc_of parse mode c) ->
  match entries [] (doc_of parse mode c) with
  | [] => text = ""
  | es => split_on nl text = flat_map (block optrole secrole) es
  end.
Proof.
  intros parse optrole secrole mode c text E R1 R2 P O. unfold cfg2rst in E.
  destruct (walk parse optrole secrole mode Root c) as [ls|] eqn:W; [|discriminate]. cbn [bind] in E. injection E as <-.
  assert (L : flat_map (split_on nl) ls = flat_map (block optrole secrole) (entries [] (doc_of parse mode c))).
  { apply (walk_lines parse optrole secrole mode (conj R1 R2) (fun Hm => proj1 (P Hm)) c Root ls W O (Forall_nil _)). intros _ Hm. exact (proj2 (P Hm)). }
  destruct (entries [] (doc_of parse mode c)) as [|e es] eqn:Ee.
  - apply (proj1 (entries_nil _ _ _)) in Ee. destruct Ee as [i ->]. cbn in W. injection W as <-. reflexivity.
  - rewrite split_joined; [exact L|]. intros ->. cbn [flat_map] in L. unfold block in L at 1. discriminate.
Qed.
(** Nothing documented is lost: two configurations that have the same document have the same options and sections, at the
    same places and in the same order, with the same descriptions, and the same is said of their options *)
Theorem C74_faithful : forall parse optrole secrole mode c c' text,
  cfg2rst parse optrole secrole mode c = Ok text -> cfg2rst parse optrole secrole mode c' = Ok text ->
  role_ok optrole -> role_ok secrole -> optrole <> secrole -> plain parse mode c -> plain parse mode c' ->
  one_line (doc_of parse mode c) -> one_line (doc_of parse mode c') -> readable (doc_of parse mode c) -> readable (doc_of parse mode c') ->
  doc_of parse mode c = doc_of parse mode c'.
Proof.
  intros parse optrole secrole mode c c' text E E' R1 R2 R3 P P' O O' D D'.
  assert (L := C74_lines _ _ _ _ _ _ E (proj1 R1) (proj1 R2) P O). assert (L' := C74_lines _ _ _ _ _ _ E' (proj1 R1) (proj1 R2) P' O').
  assert (X : forall e es, split_on nl "" <> flat_map (block optrole secrole) (e :: es)) by (intros e es H; discriminate H).
  assert (W : Forall wf_entry (entries [] (doc_of parse mode c))) by now apply wf_entries.
  assert (W' : Forall wf_entry (entries [] (doc_of parse mode c'))) by now apply wf_entries.
  assert (M : map weak (entries [] (doc_of parse mode c)) = map weak (entries [] (doc_of parse mode c'))).
  { apply (blocks_inv optrole secrole R1 R2 R3); auto. 
    destruct (entries [] (doc_of parse mode c)) as [|e es] eqn:Ee, (entries [] (doc_of parse mode c')) as [|e' es'] eqn:Ee'; auto.
    - subst text. now apply X in L'.
    - subst text. now apply X in L.
    - now rewrite <- L, <- L'. }
  apply (entries_inv _ _ [] [] []); [exact Logic.I|exact Logic.I|]. now rewrite !app_nil_r.
Qed.
(** The names of the directives tell options and sections apart *)
Theorem C74_names : forall c p k b p' k' b', unambiguous c -> holds c p k b -> holds c p' k' b' ->
  title (mkentry p k b "" []) = title (mkentry p' k' b' "" []) -> p = p' /\ k = k' /\ b = b'.
Proof.
  intros c p k b p' k' b' [U1 U2] H H' E. apply title_of_inj; auto; try (eapply U1; eassumption);
    try (intros -> ->; now apply U2); try (intros ->; now apply (proj2 (U1 _ _ _ H) eq_refl)); try (intros ->; now apply (proj2 (U1 _ _ _ H') eq_refl)).
Qed.
(** ... and there is one directive for each of them *)
Theorem C74_all : forall parse mode c p k b, holds c p k b <->
  exists desc its, In (mkentry p k b desc its) (entries [] (doc_of parse mode c)).
Proof.
  intros parse mode c p k b.
  assert (A : forall c q p k b, holds c p k b -> exists desc its, In (mkentry (q ++ p) k b desc its) (entries q (doc_of parse mode c))).
  { clear. intros c q p k b H. revert q. induction H as [opts subs inline k v H|opts subs inline k c H|opts subs inline k c p key b H _ IH]; intro q; cbn [doc_of entries].
    - rewrite app_nil_r. eexists _, _. apply in_or_app. left. rewrite map_map. apply in_map_iff. exists (k, v). split; [reflexivity|exact H].
    - rewrite app_nil_r. eexists _, _. apply in_or_app. right. rewrite fm_map. apply in_flat_map. exists (k, c). split; [exact H|]. now left.
    - destruct (IH (q ++ [k])%list) as (desc & its & X). exists desc, its. apply in_or_app. right. rewrite fm_map. apply in_flat_map.
      exists (k, c). split; [exact H|]. right. rewrite <- app_assoc in X. exact X. }
  assert (B : forall c q e, In e (entries q (doc_of parse mode c)) -> exists p, e_path e = (q ++ p)%list /\ holds c p (e_key e) (e_section e)).
  { clear. induction c as [opts subs inline IH] using conf_ind'. intros q e H. cbn [doc_of entries] in H. apply in_app_or in H. destruct H as [H|H].
    - rewrite map_map in H. apply in_map_iff in H. destruct H as ([k v] & <- & H). exists []. rewrite app_nil_r. split; [reflexivity|]. cbn. econstructor; eauto.
    - rewrite fm_map in H. apply in_flat_map in H. destruct H as ([k c] & H & [<-|X]).
      + exists []. rewrite app_nil_r. split; [reflexivity|]. cbn. econstructor; eauto.
      + rewrite Forall_forall in IH. destruct (IH _ H _ _ X) as (p & E & Hp). exists (k :: p). rewrite E, <- app_assoc. split; [reflexivity|]. econstructor; eauto. }
  split; [intro H; exact (A c [] p k b H)|]. intros (desc & its & H). destruct (B c [] _ H) as (p' & E & X). cbn in *. now subst.
Qed.
(** The description is the inline comment without the sharps and the blanks around it, with a capital; other capitals are
    lost *)
Definition hash_or_blank (c : ascii) : bool := Ascii.eqb c "#" || is_space c.
Theorem C74_description : forall inline k, exists a t b,
  match dget inline k with Some c => c | None => "" end = a ++ t ++ b /\
  all_chars hash_or_blank a = true /\ all_chars hash_or_blank b = true /\
  (t = "" \/ ((exists x s, t = String x s /\ is_space x = false) /\ exists s x, t = s ++ String x "" /\ is_space x = false)) /\
  describe inline k = match t with "" => "" | String x t' => String (upper_ascii x) (lower t') end.
Proof.
  intros inline k. unfold describe. generalize (match dget inline k with Some c => c | None => "" end) as c. intro c.
  destruct (strip_set_peeled sharp c) as (a & b & E & Ha & Hb & _). rewrite strip_is.
  destruct (strip_set_peeled is_space (strip_set sharp c)) as (a' & b' & E' & Ha' & Hb' & Ht).
  set (t := strip_set is_space (strip_set sharp c)) in *. exists (a ++ a'), t, (b' ++ b).
  assert (M : forall (ok : ascii -> bool) s, (forall x, ok x = true -> hash_or_blank x = true) -> all_chars ok s = true -> all_chars hash_or_blank s = true).
  { intros ok s H. induction s as [|x s IH]; cbn [all_chars]; [auto|]. intro X. apply andb_true_iff in X. rewrite H, IH; tauto. }
  assert (M1 : forall s, only sharp s -> all_chars hash_or_blank s = true) by (intros s; apply M; unfold sharp, hash_or_blank; intros x ->; reflexivity).
  assert (M2 : forall s, only is_space s -> all_chars hash_or_blank s = true) by (intros s; apply M; unfold hash_or_blank; intros x ->; apply orb_true_r).
  split; [rewrite E at 1; rewrite E'; rewrite !PyReFacts.sapp_assoc; reflexivity|].
  split; [rewrite all_chars_app, (M1 a Ha), (M2 a' Ha'); auto|]. split; [rewrite all_chars_app, (M2 b' Hb'), (M1 b Hb); auto|].
  split; [|reflexivity]. destruct Ht as [Ht|[Ht1 Ht2]]; [now left|right]. split; [exact Ht1|exact Ht2].
Qed.
(** It fails in no other case than a bad mode or a specification that cannot be parsed *)
Inductive has_value : conf -> rval -> Prop :=
| has_here opts subs inline k v : In (k, v) opts -> has_value (Conf opts subs inline) v
| has_inside opts subs inline k c v : In (k, c) subs -> has_value c v -> has_value (Conf opts subs inline) v.
Lemma seq_ok {A B} (f : A -> res (list B)) l : (forall x, In x l -> exists o, f x = Ok o) -> exists out, seq (map f l) = Ok out.
Proof.
  induction l as [|x l IH]; intro H; cbn [map seq]; [eauto|]. destruct (H x (or_introl eq_refl)) as [o ->]. cbn [bind].
  destruct IH as [out ->]; [intros; apply H; now right|]. cbn [bind]. eauto.
Qed.
Theorem C74_succeeds : forall parse optrole secrole mode c, mode <> RBad ->
  (mode = RSpecs -> forall v, has_value c v -> exists sp, parse (value_text v) = Ok sp) ->
  exists text, cfg2rst parse optrole secrole mode c = Ok text.
Proof.
  intros parse optrole secrole mode c Hm Hp. assert (W : forall s, exists ls, walk parse optrole secrole mode s c = Ok ls).
  { induction c as [opts subs inline IH] using conf_ind'. intro s. cbn [walk].
    destruct (seq_ok (fun kv => let* t := option_text parse optrole mode s inline kv in Ok [t]) opts) as [a ->].
    { intros [k v] Hin. unfold option_text. cbn [snd fst].
      set (name := match get_sec_names s with [] => _ | _ => _ end). assert (X : exists its, items parse mode name v = Ok its).
      { unfold items. destruct mode; [eauto|eauto| |congruence]. destruct (Hp eq_refl v) as [sp ->]; [econstructor; eauto|]. cbn [bind]. eauto. }
      destruct X as [its ->]. cbn [bind]. eauto. }
    cbn [bind].
    destruct (seq_ok (fun kc => let* t := section_text secrole mode s inline (fst kc) in let* l := walk parse optrole secrole mode (Sub (fst kc) s) (snd kc) in Ok (t :: l)) subs) as [b ->].
    { intros [k c] Hin. rewrite Forall_forall in IH. destruct (IH _ Hin) with (s := Sub k s) as [ls E].
      { intros X v Hv. apply Hp; [exact X|]. eapply has_inside; eauto. }
      cbn [fst snd] in *. rewrite E. unfold section_text. destruct mode; try congruence; cbn [bind]; eauto. }
    cbn [bind]. eauto. }
  destruct (W Root) as [ls E]. unfold cfg2rst. rewrite E. cbn [bind]. eauto.
Qed.

(** *** What does not hold *)
(** The capitals of a comment are kept *)
Theorem C74_refuted_case : exists inline k, dget inline k = Some "# Units of the CF convention" /\
  describe inline k = "Units of the cf convention".
Proof. exists [("units", "# Units of the CF convention")], "units". split; reflexivity. Qed.
(** The names of the directives are unambiguous whatever the names *)
Theorem C74_refuted_names : exists c p k b p' k' b', holds c p k b /\ holds c p' k' b' /\ (p, k, b) <> (p', k', b') /\
  title (mkentry p k b "" []) = title (mkentry p' k' b' "" []).
Proof.
  exists (Conf [("[a] b", RText "")] [("a", Conf [("b", RText "")] [] [])] []), [], "[a] b", false, ["a"], "b", false.
  split; [eapply holds_option; left; reflexivity|]. split; [eapply holds_inside; [left; reflexivity|]; eapply holds_option; left; reflexivity|].
  split; [discriminate|reflexivity].
Qed.
(** The choices of an option are labelled as such in mode "specs" (xoa/cfgm.py:2102 compares the name of the option with
    "choice") *)
Definition parse1 (s : string) : res optspec := Ok (mkospec (RText "red") "choice" ["red"; "blue"] []).
Definition choice_conf := Conf [("color", RText "choice(red, blue, default=red)")] [] [("color", "# the color")].
Theorem C74_refuted_choice : exists text, cfg2rst parse1 "confopt" "confsec" RSpecs choice_conf = Ok text /\ plain parse1 RSpecs choice_conf /\
  split_on nl text = [".. confopt:: color"; ""; "    | default: ``red``"; "    | type: ``choice``"; "    | args: ``red, blue``"; "    "; "    The color"; ""].
Proof.
  eexists. split; [vm_compute; reflexivity|]. split; [|vm_compute; reflexivity]. intros _. split.
  - intros s sp E. injection E as <-. split; [constructor|intros k []].
  - cbn. intuition discriminate.
Qed.

(** *** The example of the documentation of cfg2rst *)
Definition docs_conf : conf :=
  Conf [("a", RText "1")] [("s1", Conf [("b", RText "2")] [("s2", Conf [("c", RList ["x"; "y"])] [] [("c", "# desd c")])] [("b", "# desc b"); ("s2", "# desc s2")])]
    [("a", "# desc a"); ("s1", "# desc s1")].
Ltac dis := repeat match goal with
  | H : _ \/ _ |- _ => destruct H as [H|H] | H : False |- _ => destruct H | H : _ = _ |- _ => injection H; clear H; intros; subst end.
Example C74_example : exists text, cfg2rst parse1 "confopt" "confsec" RValues docs_conf = Ok text /\
  plain parse1 RValues docs_conf /\ one_line (doc_of parse1 RValues docs_conf) /\ readable (doc_of parse1 RValues docs_conf) /\
  unambiguous docs_conf /\ role_ok "confopt" /\ role_ok "confsec" /\
  split_on nl text = [".. confopt:: a"; ""; "    | default: ``1``"; "    "; "    Desc a"; "";
    ".. confsec:: [s1]"; ""; "    Desc s1"; "";
    "    .. confopt:: [s1] b"; "    "; "        | default: ``2``"; "        "; "        Desc b"; "    ";
    "    .. confsec:: [s1][s2]"; "    "; "        Desc s2"; "    ";
    "        .. confopt:: [s1][s2] c"; "        "; "            | default: ``x, y``"; "            "; "            Desd c"; "        "].
Proof.
  eexists. split; [vm_compute; reflexivity|]. split; [discriminate|]. split; [|split; [|split; [|split; [|split; [|vm_compute; reflexivity]]]]].
  - vm_compute doc_of. repeat (constructor; intros ? ? ? Hin; cbn in Hin; dis; (split; [reflexivity|split; [reflexivity|]]); try (intros ? ? Hin; cbn in Hin; dis; (split; reflexivity))).
  - vm_compute doc_of. repeat (constructor; intros ? ? ? Hin; cbn in Hin; dis; try (intros ? ? Hin; cbn in Hin; dis; reflexivity)).
    all: cbn in *; dis; reflexivity.
  - assert (H : forall p k b, holds docs_conf p k b -> In (p, k, b) [([], "a", false); ([], "s1", true); (["s1"], "b", false); (["s1"], "s2", true); (["s1"; "s2"], "c", false)]).
    { assert (I : forall c p k b, holds c p k b -> match c with Conf opts subs _ =>
         (p = [] /\ b = false /\ exists v, In (k, v) opts) \/ (p = [] /\ b = true /\ exists c', In (k, c') subs) \/
         exists k' c' p', p = k' :: p' /\ In (k', c') subs /\ holds c' p' k b end).
      { intros c p k b [opts subs i k0 v Hi|opts subs i k0 c0 Hi|opts subs i k0 c0 p0 k1 b1 Hi Hh]; [left|right; left|right; right]; eauto 10. }
      intros p k b H. apply I in H. cbn in H. destruct H as [(-> & -> & v & [H|[]])|[(-> & -> & c & [H|[]])|(k1 & c & p1 & -> & [H|[]] & X)]].
      - injection H as <- <-. cbn. tauto.
      - injection H as <- <-. cbn. tauto.
      - injection H as <- <-. apply I in X. cbn in X. destruct X as [(-> & -> & v & [H|[]])|[(-> & -> & c & [H|[]])|(k1 & c & p2 & -> & [H|[]] & X)]].
        + injection H as <- <-. cbn. tauto.
        + injection H as <- <-. cbn. tauto.
        + injection H as <- <-. apply I in X. cbn in X. destruct X as [(-> & -> & v & [H|[]])|[(-> & -> & c & [])|(k1 & c & p3 & -> & [] & X)]].
          injection H as <- <-. cbn. tauto. }
    split.
    + intros p k b X. apply H in X. cbn in X. repeat destruct X as [X|X]; try contradiction; injection X as <- <- <-; split; try discriminate; try reflexivity; repeat constructor.
    + intros k X. apply H in X. cbn in X. repeat destruct X as [X|X]; try contradiction; try discriminate X. injection X as <-. reflexivity.
  - split; reflexivity.
  - split; reflexivity.
Qed.
