(** Lemmas for C65-C67: an evaluation of the matching that knows the roots of the name and of the
    standard name only. *)
From Verif Require Export CFShippedSpec.
From Verif Require Import CFSearchProofs PyReFacts SGLocProofs SGLocProps MiscFacts CFSearchProps.
From Verif Require Import SGLoc.
Open Scope string_scope.

Definition root_of (attr v : string) : string :=
  match parse_attr shipped_sg attr (lower v) with Ok (r, _) => lower r | Raise _ => "" end.

(** What is known of an attribute: nothing, absent, its root, its text, or that no entry accepts
    it; the text of a name *)
Inductive reading := AAny | AAbs | ARoot (r : string) | AText (s : string) | AUnlike | AExact (s r : string).
Definition accepts_none (cs : catspecs) (attr v : string) : Prop :=
  forall n sp r ref, In (n, sp) cs -> In (attr, r) (criteria n sp) -> In ref (ref_list r) -> ~ fits shipped_sg MAny attr v ref.
Definition reads (cs : catspecs) (da : darr) (attr : string) (rd : reading) : Prop :=
  match rd with
  | AAny => True
  | AAbs => da_get da attr = VNone
  | ARoot r => known_attr attr /\ exists v, da_get da attr = VStr v /\ strip v = v /\ root_of attr v = r
  | AText s => ~ known_attr attr /\ exists v, da_get da attr = VStr v /\ v <> "" /\ lower (strip v) = s
  | AUnlike => da_get da attr = VNone \/ exists v, da_get da attr = VStr v /\ accepts_none cs attr v
  | AExact s r => known_attr attr /\ s <> "" /\ r = root_of attr s /\ all_chars is_word s = true /\ exists v, da_get da attr = VStr v /\ lower v = s
  end.
(** References with their forms that are compared *)
Record pref := mkpref { p_ref : string; p_low : string; p_text : string }.
Definition prep_ref (r : string) : pref := mkpref r (lower r) (lower (strip r)).
Definition mid_of (attr : string) : string := mid (format_of shipped_sg attr).
Definition eval_ref (attr : string) (rd : reading) (p : pref) : option bool :=
  match rd with
  | AAny => None
  | AAbs | AUnlike => Some false
  | ARoot r => if String.eqb r (p_low p) then Some true
               else if String.eqb r (p_text p) then None
               else if startswith (p_text p) r
               then if startswith (p_text p) (r ++ mid_of attr)
                    then if String.eqb r (root_of attr (p_text p)) then None else Some false
                    else Some false
               else Some false
  | AText s => Some (if String.eqb s (p_text p) then nonempty (p_ref p) else false)
  | AExact s r => Some (if String.eqb r (p_low p) then true
                        else if String.eqb s (p_text p) then nonempty (p_ref p) else false)
  end.
Fixpoint eval_refs (attr : string) (rd : reading) (l : list pref) : option bool :=
  match l with
  | [] => Some false
  | r :: l' => match eval_ref attr rd r with
               | Some true => Some true
               | Some false => eval_refs attr rd l'
               | None => match eval_refs attr rd l' with Some true => Some true | _ => None end
               end
  end.
Definition prep_crit (c : string * refs) : string * bool * list pref :=
  (fst c, match snd c with RefNone => true | _ => false end, map prep_ref (ref_list (snd c))).
Definition prepared : Type := list (string * list (string * bool * list pref)).
Definition prep (cs : catspecs) : prepared := map (fun e => (fst e, map prep_crit (criteria (fst e) (snd e)))) cs.
Fixpoint eval_specs (rd : string -> reading) (ms : list (string * bool * list pref)) : option (res bool) :=
  match ms with
  | [] => Some (Ok false)
  | (attr, none, l) :: ms' =>
    match rd attr with
    | AAny => None
    | AAbs => eval_specs rd ms'
    | a => if none then match a with AUnlike => None | _ => Some (Raise TypeError) end
           else match eval_refs attr a l with
                | Some false => eval_specs rd ms'
                | Some true => Some (Ok true)
                | None => None
                end
    end
  end.
Fixpoint eval_any (rd : string -> reading) (cs : prepared) : option (res (option string)) :=
  match cs with
  | [] => Some (Ok None)
  | (n, ms) :: cs' =>
    match eval_specs rd ms with
    | Some (Ok true) => Some (Ok (Some n))
    | Some (Ok false) => eval_any rd cs'
    | Some (Raise e) => Some (Raise e)
    | None => None
    end
  end.

Lemma word_lower s : all_chars is_word (lower s) = all_chars is_word s.
Proof. induction s; simpl; auto. now rewrite is_word_lower, IHs. Qed.
Lemma word_strip s : all_chars is_word s = true -> strip s = s.
Proof.
  intro H. symmetry. apply strip_unique. exists "", "". rewrite sapp_nil_r. split; auto. split; [intros c [[]|[]]|].
  assert (HS : forall c, is_word c = true -> is_space c = false) by (intro c; destruct c as [[] [] [] [] [] [] [] []]; (reflexivity || discriminate)).
  assert (HA : forall c, In c (list_ascii_of_string s) -> is_space c = false).
  { induction s as [|d s IH]; [intros c []|]. cbn in H. apply andb_true_iff in H. destruct H as [H1 H2].
    intros c [<-|Hc]; auto. }
  destruct (list_ascii_of_string s) as [|c l]; [exact I|]. split; [apply HA; now left|].
  apply HA. clear HA. revert c. induction l as [|d l IH]; intro c; [now left|].
  change (List.last (c :: d :: l) c) with (List.last (d :: l) c). right.
  assert (EL : forall x y, List.last (d :: l) x = List.last (d :: l) y).
  { clear. revert d. induction l as [|e l IH]; intros d x y; [reflexivity|]. cbn [List.last]. cbn [List.last] in IH. apply IH. }
  rewrite (EL c d). apply IH.
Qed.
Lemma fits_lower attr v ref : all_chars is_word v = true -> (fits shipped_sg MAny attr v ref <-> fits shipped_sg MAny attr (lower v) ref).
Proof.
  intro Hw. assert (Hs := word_strip v Hw). assert (Hs' : strip (lower v) = lower v) by (apply word_strip; now rewrite word_lower).
  unfold fits, same_text. rewrite Hs, Hs', lower_idem.
  assert (HE : v <> "" <-> lower v <> "") by (destruct v; cbn; split; congruence). now rewrite HE.
Qed.
Lemma root_prefix attr v : known_attr attr -> startswith (lower v) (root_of attr v) = true.
Proof.
  intro Hk. unfold root_of. destruct (C26_parse shipped_sg attr (lower v) Hk) as (r & ol & Hp & C). rewrite Hp.
  apply startswith_app. destruct ol as [l|].
  - destruct C as (l' & rest & _ & (_ & _ & p & m & q & Ep & _ & _ & Ev)).
    assert (E0 : p = "" /\ root_first (format_of shipped_sg attr) = true).
    { destruct Hk as [->|[->| ->]]; cbn in Ep; (destruct p; [auto|discriminate]). }
    destruct E0 as [-> E0]. rewrite E0 in Ev. exists (lower (m ++ l' ++ q ++ rest)). rewrite <- lower_app.
    rewrite <- (lower_idem v), Ev. reflexivity.
  - destruct C as [-> _]. exists "". now rewrite lower_idem, sapp_nil_r.
Qed.
Lemma fits_root attr v ref : known_attr attr -> strip v = v -> fits shipped_sg MAny attr v ref ->
  root_of attr v = lower ref \/ root_of attr v = root_of attr (strip ref).
Proof.
  intros Hk Hs [(_ & _ & H)|(_ & r & ol & Hp & Hr & _)].
  - right. unfold root_of. rewrite Hs in H. now rewrite H.
  - left. unfold root_of. now rewrite Hp.
Qed.
Lemma root_fits attr v ref : known_attr attr -> root_of attr v = lower ref -> fits shipped_sg MAny attr v ref.
Proof.
  intros Hk H. right. split; auto. unfold root_of in H. destruct (C26_parse shipped_sg attr (lower v) Hk) as (r & ol & Hp & _).
  rewrite Hp in H. exists r, ol. cbn. auto.
Qed.
Lemma match_value_any attr v ref : exists b, match_value shipped_sg attr v ref MAny = Ok b /\ (b = true <-> fits shipped_sg MAny attr v ref).
Proof.
  assert (H : exists b, match_value shipped_sg attr v ref MAny = Ok b).
  { unfold match_value. destruct (is_valid_attr attr) eqn:E; [|cbn; eauto].
    unfold match_attr. rewrite E. cbn [negb]. apply valid_attr_iff in E.
    destruct (C26_parse shipped_sg attr (lower v) E) as (r & ol & Hp & _). rewrite Hp. cbn [bind].
    destruct (String.eqb _ _); cbn [negb bind]; eauto. }
  destruct H as (b & H). exists b. split; auto. eapply match_value_iff; eauto.
Qed.
Lemma root_of_lower attr v : root_of attr (lower v) = root_of attr v.
Proof. unfold root_of. now rewrite lower_idem. Qed.
Lemma root_mid attr v : known_attr attr -> root_of attr v = lower v \/ startswith (lower v) (root_of attr v ++ mid_of attr) = true.
Proof.
  intro Hk. unfold root_of. destruct (C26_parse shipped_sg attr (lower v) Hk) as (r & ol & Hp & C). rewrite Hp.
  destruct ol as [l|]; [right|left; destruct C as [-> _]; apply lower_idem].
  apply startswith_app. destruct C as (l' & rest & _ & (_ & _ & p & m & q & Ep & Em & _ & Ev)).
  assert (E0 : p = "" /\ root_first (format_of shipped_sg attr) = true /\ lower (mid_of attr) = mid_of attr).
  { destruct Hk as [->|[->| ->]]; cbn in Ep; (destruct p; [auto|discriminate]). }
  destruct E0 as (-> & E0 & E1). rewrite E0 in Ev. exists (lower (l' ++ q ++ rest)).
  rewrite <- E1. unfold mid_of. rewrite <- Em, <- !lower_app, sapp_assoc, <- (lower_idem v), Ev. reflexivity.
Qed.
Lemma eval_ref_sound cs da attr rd v ref b n sp r : reads cs da attr rd -> da_get da attr = VStr v ->
  In (n, sp) cs -> In (attr, r) (criteria n sp) -> In ref (ref_list r) ->
  eval_ref attr rd (prep_ref ref) = Some b -> match_value shipped_sg attr v ref MAny = Ok b.
Proof.
  intros Hr Hv Hin Hc Hi E. destruct (match_value_any attr v ref) as (b' & Hm & Hb). rewrite Hm. f_equal.
  unfold eval_ref, prep_ref in E. cbn [p_ref p_low p_text] in E. destruct rd; cbn [reads] in Hr; try discriminate.
  - congruence.
  - destruct Hr as (Hk & v' & Hv' & Hs & <-). rewrite Hv in Hv'. injection Hv' as <-.
    destruct (String.eqb_spec (root_of attr v) (lower ref)) as [E1|N1].
    + injection E as <-. apply Hb. now apply root_fits.
    + destruct (String.eqb_spec (root_of attr v) (lower (strip ref))) as [E2|N2]; [discriminate|].
      destruct b'.
      * destruct (fits_root attr v ref Hk Hs (proj1 Hb eq_refl)) as [F|F]; [contradiction|].
        assert (P1 := root_prefix attr (strip ref) Hk). assert (P2 := root_mid attr (strip ref) Hk).
        destruct P2 as [P2|P2]; [exfalso; congruence|]. rewrite F, P1 in E. rewrite P2, root_of_lower, String.eqb_refl in E. discriminate.
      * repeat (match type of E with (if ?c then _ else _) = _ => destruct c end); congruence.
  - destruct Hr as (Hk & v' & Hv' & Hne & <-). rewrite Hv in Hv'. injection Hv' as <-. injection E as <-.
    apply CFSearchProps.bool_eq. rewrite Hb. unfold fits, same_text.
    destruct (String.eqb_spec (lower (strip v)) (lower (strip ref))) as [E|N].
    + rewrite nonempty_iff. tauto.
    + split; [|discriminate]. intros [(_ & _ & H)|[H _]]; contradiction.
  - injection E as <-. destruct Hr as [Hr|(v' & Hv' & Hn)]; [congruence|]. rewrite Hv in Hv'. injection Hv' as <-.
    destruct b'; auto. exfalso. exact (Hn _ _ _ _ Hin Hc Hi (proj1 Hb eq_refl)).
  - destruct Hr as (Hk & Hse & Er & Hw & v' & Hv' & El). rewrite Hv in Hv'. injection Hv' as <-. injection E as <-. subst r0 s.
    rewrite root_of_lower. rewrite word_lower in Hw.
    apply CFSearchProps.bool_eq. rewrite Hb. destruct (String.eqb_spec (root_of attr v) (lower ref)) as [E1|N1].
    + split; auto. intros _. now apply root_fits.
    + assert (Hs := word_strip v Hw). destruct (String.eqb_spec (lower v) (lower (strip ref))) as [E2|N2].
      * rewrite nonempty_iff. unfold fits, same_text. rewrite Hs. split.
        -- intros [(_ & H & _)|(_ & r1 & ol & Hp & Hr & _)]; auto. exfalso. apply N1. unfold root_of. rewrite Hp. exact Hr.
        -- intro Hne. left. repeat split; auto. intros ->. now apply Hse.
      * split; [|discriminate]. intro F. exfalso. destruct F as [(_ & _ & H)|(_ & r1 & ol & Hp & Hr & _)].
        -- rewrite Hs in H. contradiction.
        -- apply N1. unfold root_of. rewrite Hp. exact Hr.
Qed.
Lemma eval_refs_sound cs da attr rd v r n sp : reads cs da attr rd -> da_get da attr = VStr v ->
  In (n, sp) cs -> In (attr, r) (criteria n sp) -> forall l b, (forall x, In x l -> In x (ref_list r)) ->
  eval_refs attr rd (map prep_ref l) = Some b -> match_refs shipped_sg attr v l MAny = Ok b.
Proof.
  intros Hr Hv Hin Hc l. induction l as [|ref l IH]; cbn [map eval_refs match_refs]; intros b Hl E; [congruence|].
  assert (Hl' : forall x, In x l -> In x (ref_list r)) by (intros x Hx; apply Hl; now right).
  destruct (eval_ref attr rd (prep_ref ref)) as [b0|] eqn:E0.
  2:{ destruct (match_value_any attr v ref) as (b0 & Hm & _). rewrite Hm. cbn [bind].
      destruct (eval_refs attr rd (map prep_ref l)) as [[|]|] eqn:E1; try discriminate. injection E as <-. destruct b0; auto. }
  rewrite (eval_ref_sound cs da attr rd v ref b0 n sp r) by (auto; apply Hl; now left). cbn [bind].
  destruct b0; [congruence|]. apply IH; auto.
Qed.
Lemma iter_ref_list r : r <> RefNone -> iter_refs r = Ok (ref_list r).
Proof. destruct r; cbn; congruence. Qed.
Lemma eval_specs_sound cs da rd n sp : (forall attr, reads cs da attr (rd attr)) -> In (n, sp) cs ->
  forall ms r, (forall x, In x ms -> In x (criteria n sp)) -> eval_specs rd (map prep_crit ms) = Some r -> match_specs shipped_sg da ms MAny = r.
Proof.
  intros Hr Hin ms. induction ms as [|[attr rf] ms IH]; intros r Hm E; cbn [map eval_specs match_specs prep_crit fst snd] in *; [congruence|].
  assert (Hms : forall x, In x ms -> In x (criteria n sp)) by (intros x Hx; apply Hm; now right).
  assert (Hc : In (attr, rf) (criteria n sp)) by (apply Hm; now left).
  specialize (IH r Hms). assert (Ha := Hr attr).
  assert (CASES : rd attr = AAbs \/ (rd attr = AUnlike /\ da_get da attr = VNone) \/ exists v, da_get da attr = VStr v \/ rd attr = AAny).
  { destruct (rd attr); cbn [reads] in Ha.
    - right. right. exists "". now right.
    - now left.
    - right. right. destruct Ha as (_ & v & Hv & _). eauto.
    - right. right. destruct Ha as (_ & v & Hv & _). eauto.
    - destruct Ha as [Ha|(v & Hv & _)]; eauto.
    - right. right. destruct Ha as (_ & _ & _ & _ & v & Hv & _). eauto. }
  destruct CASES as [C|[[C C2]|(v & [C|C])]].
  - rewrite C in *. cbn [reads] in Ha. rewrite Ha. cbn [bind]. auto.
  - rewrite C in E. rewrite C2. cbn [bind]. apply IH.
    assert (HF : forall z, eval_refs attr AUnlike z = Some false) by (intro z; induction z; cbn; auto).
    destruct rf; [| |discriminate]; rewrite HF in E; exact E.
  - rewrite C.
    assert (NA : rd attr <> AAbs) by (intro X; rewrite X in Ha; cbn [reads] in Ha; congruence).
    assert (NY : rd attr <> AAny) by (intro X; rewrite X in E; discriminate).
    destruct rf as [l|s|].
    + cbn [iter_refs bind]. cbn [ref_list] in E. destruct (eval_refs attr (rd attr) (map prep_ref l)) as [b|] eqn:Eb.
      * rewrite (eval_refs_sound cs da attr (rd attr) v (RefList l) n sp Ha C Hin Hc l b (fun x H => H) Eb). cbn [bind].
        destruct (rd attr); try (exfalso; congruence); cbv beta iota in E; rewrite Eb in E; destruct b; auto; congruence.
      * exfalso. destruct (rd attr); try congruence; cbv beta iota in E; rewrite Eb in E; discriminate.
    + cbn [iter_refs bind]. cbn [ref_list] in E. destruct (eval_refs attr (rd attr) (map prep_ref (chars s))) as [b|] eqn:Eb.
      * rewrite (eval_refs_sound cs da attr (rd attr) v (RefStr s) n sp Ha C Hin Hc (chars s) b (fun x H => H) Eb). cbn [bind].
        destruct (rd attr); try (exfalso; congruence); cbv beta iota in E; rewrite Eb in E; destruct b; auto; congruence.
      * exfalso. destruct (rd attr); try congruence; cbv beta iota in E; rewrite Eb in E; discriminate.
    + cbn [iter_refs bind]. destruct (rd attr); congruence.
  - rewrite C in E. discriminate.
Qed.
Lemma eval_any_sound cs da rd : (forall attr, reads cs da attr (rd attr)) ->
  forall todo r, (forall x, In x todo -> In x cs) -> eval_any rd (prep todo) = Some r -> match_any shipped_sg todo da MAny = r.
Proof.
  intros Hr todo. induction todo as [|[n sp] todo IH]; intros r Ht E; cbn [prep map eval_any match_any fst snd] in *; [congruence|].
  destruct (eval_specs rd (map prep_crit (criteria n sp))) as [x|] eqn:Ex; [|discriminate].
  rewrite ordered_criteria, (eval_specs_sound cs da rd n sp Hr (Ht _ (or_introl eq_refl)) (criteria n sp) x (fun x H => H) Ex).
  destruct x as [[|]|e]; cbn [bind]; try congruence. apply IH; auto. intros y Hy. apply Ht. now right.
Qed.
Theorem eval_sound cs P da rd r : P = prep cs -> (forall attr, reads cs da attr (rd attr)) -> eval_any rd P = Some r ->
  match_any shipped_sg cs da MAny = r.
Proof. intros -> Hr. apply (eval_any_sound cs da rd Hr cs r (fun x H => H)). Qed.
Definition prep_vars : prepared := Eval vm_compute in prep shipped_vars.
Definition prep_coords : prepared := Eval vm_compute in prep shipped_coords.
Lemma prep_vars_ok : prep_vars = prep shipped_vars.
Proof. vm_compute. reflexivity. Qed.
Lemma prep_coords_ok : prep_coords = prep shipped_coords.
Proof. vm_compute. reflexivity. Qed.

(** ** Roots of names *)
Lemma letters_word s : all_chars is_letter s = true -> all_chars is_word s = true.
Proof. apply all_chars_mono. apply is_letter_word. Qed.
Lemma root_name_loc r l : is_root "name" r -> lower r = r -> letters l -> root_of "name" (r ++ "_" ++ l) = r.
Proof.
  intros Hr El Hl. unfold root_of. rewrite !lower_app, El.
  assert (HL : letters (lower l)).
  { destruct Hl as [H1 H2]. split; [destruct l; [congruence|discriminate]|]. now rewrite letters_lower. }
  assert (H := C26_roundtrip "name" r (lower l) (or_introl eq_refl) Hr HL).
  unfold apply_format in H. cbn [format_of String.eqb Ascii.eqb Bool.eqb default_sg name_format default_name_format root_first pre mid post append] in H.
  rewrite sapp_nil_r in H. change (lower "_") with "_". change default_sg with shipped_sg in H. cbn [append] in *. rewrite H. exact El.
Qed.
Lemma root_title_loc r l : is_root "standard_name" r -> lower r = r -> letters l ->
  root_of "standard_name" (r ++ "_at_" ++ l ++ "_location") = r.
Proof.
  intros Hr El Hl. unfold root_of. rewrite !lower_app, El.
  assert (HL : letters (lower l)).
  { destruct Hl as [H1 H2]. split; [destruct l; [congruence|discriminate]|]. now rewrite letters_lower. }
  assert (H := C26_roundtrip "standard_name" r (lower l) (or_intror (or_introl eq_refl)) Hr HL).
  unfold apply_format in H. cbn [format_of String.eqb Ascii.eqb Bool.eqb standard_format root_first pre mid post append] in H.
  change (lower "_at_") with "_at_". change (lower "_location") with "_location". change default_sg with shipped_sg in H.
  cbn [append] in *. rewrite H. exact El.
Qed.
Lemma root_of_ci attr v w : lower v = lower w -> root_of attr v = root_of attr w.
Proof. unfold root_of. now intros ->. Qed.
Lemma is_root_word attr r : attr = "name" \/ attr = "standard_name" -> (is_root attr r <-> r <> "" /\ all_chars is_word r = true).
Proof. intros [->| ->]; reflexivity. Qed.

Definition plain_root (attr n : string) : bool :=
  nonempty n && all_chars is_word n && String.eqb (lower n) n &&
  if contains n (mid_of attr) then String.eqb (root_of attr n) n else is_valid_attr attr.
Lemma plain_root_iff attr n : plain_root attr n = true -> n <> "" /\ all_chars is_word n = true /\ lower n = n /\ root_of attr n = n.
Proof.
  unfold plain_root. rewrite !andb_true_iff, !String.eqb_eq, nonempty_iff. intros [[[H1 H2] H3] H4]. repeat split; auto.
  destruct (contains n (mid_of attr)) eqn:E; [now apply String.eqb_eq|]. apply valid_attr_iff in H4.
  destruct (root_mid attr n H4) as [H|H]; [congruence|]. exfalso. apply startswith_app in H. destruct H as (t & H).
  rewrite <- not_true_iff_false in E. apply E. apply contains_iff. exists (root_of attr n), t. rewrite <- sapp_assoc. congruence.
Qed.
Lemma called_reads cs n da : plain_root "name" n = true -> called n da -> reads cs da "name" (ARoot n).
Proof.
  intros Hp (v & Hv & H). apply plain_root_iff in Hp. destruct Hp as (P1 & P2 & P3 & P4).
  split; [now left|]. exists v. split; [unfold da_get; cbn; now rewrite Hv|].
  destruct H as [H|(l & Hl & H)].
  - split; [apply word_strip; rewrite <- word_lower, H; exact P2|]. rewrite <- P4. apply root_of_ci. congruence.
  - split.
    + apply word_strip. rewrite <- word_lower, H, !all_chars_app, P2. cbn. apply letters_word. apply Hl.
    + rewrite <- (root_name_loc n l) by (auto; split; auto). apply root_of_ci. rewrite H, !lower_app, P3.
      assert (EL : lower l = l).
      { assert (E : lower (lower v) = lower v) by apply lower_idem. rewrite H, !lower_app, P3 in E.
        cbn [lower append] in E. apply sapp_inv_len in E; [|reflexivity]. destruct E as [_ E]. now injection E. }
      now rewrite EL.
Qed.
Lemma lower_split v r m : lower v = r ++ m -> exists a b, v = a ++ b /\ lower a = r /\ lower b = m.
Proof.
  revert v. induction r as [|c r IH]; intros v H.
  - exists "", v. auto.
  - destruct v as [|d v]; [discriminate|]. cbn in H. injection H as Hc H. destruct (IH v H) as (a & b & -> & Ha & Hb).
    exists (String d a), b. repeat split; auto. cbn. now rewrite Hc, Ha.
Qed.
Lemma titled_reads cs s da : plain_root "standard_name" (lower s) = true -> titled s da ->
  reads cs da "standard_name" (ARoot (lower s)).
Proof.
  intros Hp (v & Hv & H). apply plain_root_iff in Hp. destruct Hp as (P1 & P2 & P3 & P4).
  split; [right; now left|]. exists v. split; auto.
  destruct H as [H|(l & Hl & H)].
  - split; [apply word_strip; rewrite <- word_lower, H; exact P2|]. rewrite <- P4. apply root_of_ci. rewrite H. now rewrite lower_idem.
  - split.
    + apply word_strip. rewrite <- word_lower, H, !all_chars_app, P2. rewrite (letters_word l) by apply Hl. reflexivity.
    + rewrite <- (root_title_loc (lower s) l) by (auto; split; auto). apply root_of_ci. rewrite H, !lower_app, P3.
      change (lower "_at_") with "_at_". change (lower "_location") with "_location".
      assert (EL : lower l = l).
      { assert (E : lower (lower v) = lower v) by apply lower_idem. rewrite H, !lower_app, P3 in E.
        apply sapp_inv_len in E; [|reflexivity]. destruct E as [_ E]. apply sapp_inv_len in E; [|reflexivity]. destruct E as [_ E].
        change (lower "_location") with "_location" in E. apply sapp_inv_len in E; [|apply lower_len]. tauto. }
      now rewrite EL.
Qed.
