(** C27: formatting, merging and patching attributes with locations. *)
From Verif Require Import SGLocProofs SGLocProps.
Open Scope string_scope.

(** ** Standardisation *)
Lemma replace_idem a b s : a <> b -> replace_char a b (replace_char a b s) = replace_char a b s.
Proof.
  intro H. induction s as [|c s IH]; simpl; auto. rewrite IH. f_equal.
  destruct (Ascii.eqb_spec c a) as [->|E]; [destruct (Ascii.eqb_spec b a); congruence|].
  destruct (Ascii.eqb_spec c a); congruence.
Qed.
Lemma replace_lower_sp s : replace_char " " "_" (lower s) = lower (replace_char " " "_" s).
Proof.
  induction s as [|c s IH]; simpl; auto. rewrite IH. f_equal.
  destruct c as [[] [] [] [] [] [] [] []]; reflexivity.
Qed.
Lemma lower_replace_us s : lower (replace_char "_" " " s) = replace_char "_" " " (lower s).
Proof.
  induction s as [|c s IH]; simpl; auto. rewrite IH. f_equal.
  destruct c as [[] [] [] [] [] [] [] []]; reflexivity.
Qed.
Lemma std_root_idem attr r : std_root attr (std_root attr r) = std_root attr r.
Proof.
  unfold std_root. destruct (String.eqb attr "long_name").
  - destruct r as [|c r]; [reflexivity|]. cbn [capitalize replace_char]. rewrite lower_replace_us, lower_idem.
    rewrite replace_idem by discriminate. f_equal.
    destruct c as [[] [] [] [] [] [] [] []]; reflexivity.
  - destruct (String.eqb attr "standard_name"); [|apply replace_idem; discriminate].
    rewrite replace_lower_sp, replace_idem by discriminate. apply lower_idem.
Qed.
Definition wordsp (s : string) : Prop := s <> "" /\ all_chars is_word_sp s = true.
Lemma std_root_is_root attr r : known_attr attr -> wordsp r -> is_root attr (std_root attr r).
Proof.
  intros Hk [H1 H2]. split.
  - unfold std_root. destruct r as [|c r]; [congruence|].
    destruct (String.eqb attr "long_name"); [discriminate|]. destruct (String.eqb attr "standard_name"); discriminate.
  - unfold root_class, std_root. destruct (String.eqb attr "long_name") eqn:El.
    + destruct r as [|c r]; [congruence|]. cbn [capitalize replace_char all_chars] in *.
      apply andb_true_iff in H2. destruct H2 as [Hc Hr]. apply andb_true_iff. split.
      * clear -Hc. destruct c as [[] [] [] [] [] [] [] []]; (reflexivity || discriminate).
      * clear -Hr. induction r as [|d r IH]; simpl in *; auto. apply andb_true_iff in Hr. destruct Hr as [Hd Hr].
        rewrite IH by auto. rewrite andb_true_r. destruct d as [[] [] [] [] [] [] [] []]; (reflexivity || discriminate).
    + assert (HW : all_chars is_word (replace_char " " "_" r) = true).
      { clear -H2. induction r as [|d r IH]; simpl in *; auto. apply andb_true_iff in H2. destruct H2 as [Hd Hr].
        rewrite IH by auto. rewrite andb_true_r. destruct d as [[] [] [] [] [] [] [] []]; (reflexivity || discriminate). }
      destruct (String.eqb attr "standard_name"); auto.
      clear -HW. induction (replace_char " " "_" r) as [|d s IH]; simpl in *; auto.
      apply andb_true_iff in HW. destruct HW as [Hd Hr]. rewrite is_word_lower, Hd, IH; auto.
Qed.
Lemma is_root_wordsp attr r : is_root attr r -> wordsp r.
Proof.
  intros [H1 H2]. split; auto. unfold root_class in H2. destruct (String.eqb attr "long_name"); auto.
  eapply all_chars_mono; [|exact H2]. intros c Hc. unfold is_word_sp. now rewrite Hc.
Qed.
Lemma std_loc_lower attr l : lower (std_loc attr l) = lower l.
Proof.
  unfold std_loc. destruct (String.eqb attr "long_name"); [apply lower_upper|].
  destruct (String.eqb attr "standard_name"); [apply lower_idem|reflexivity].
Qed.
Lemma std_loc_letters attr l : letters l -> letters (std_loc attr l).
Proof.
  intros [H1 H2]. assert (E := std_loc_lower attr l). split.
  - intros H. rewrite H in E. destruct l; [congruence|discriminate].
  - rewrite (letters_ci _ _ E). exact H2.
Qed.

(** A format that can be parsed: separators that are not letters, locations made of letters and
    (names) not hidden by a shorter valid location *)
Definition good (sg : sgloc) (attr loc : string) : Prop :=
  let f := format_of sg attr in
  root_first f = true /\ starts_non_letter (mid f) /\ (forall w, In w (valid_locations sg) -> letters w) /\
  (post f = "" \/ starts_non_letter (post f)) /\
  (starts_non_letter (post f) \/ forall w x, In w (valid_locations sg) -> lower loc = lower w ++ x -> x = "").
(** Locations accepted as argument *)
Definition accepted (sg : sgloc) (loc : string) : Prop :=
  match valid_locations sg with [] => True | ws => In (lower loc) ws end.

Lemma good_default attr loc : known_attr attr -> good default_sg attr loc.
Proof.
  intros Hk. destruct Hk as [->|[->| ->]]; repeat split; cbn; auto; try tauto.
Qed.
Lemma accepted_location sg loc : letters loc -> accepted sg loc -> is_location sg loc.
Proof.
  unfold accepted, is_location. destruct (valid_locations sg) as [|w ws]; auto.
  intros _ H. exists (lower loc). split; auto. symmetry. apply lower_idem.
Qed.
Lemma existsb_in x l : existsb (String.eqb x) l = true <-> In x l.
Proof.
  rewrite existsb_exists. split; [intros (y & H & E); apply String.eqb_eq in E; now subst|].
  intro H. exists x. split; auto. apply String.eqb_refl.
Qed.
Lemma good_roundtrip sg attr root loc : known_attr attr -> good sg attr loc -> is_root attr root -> letters loc ->
  accepted sg loc ->
  parse_attr sg attr (apply_format (format_of sg attr) root (std_loc attr loc)) = Ok (root, Some (lower loc)).
Proof.
  intros Hk (G1 & G2 & G3 & G4 & G5) Hr Hl Ha.
  assert (Hl' := std_loc_letters attr loc Hl).
  assert (Hloc : is_location sg (std_loc attr loc)).
  { apply accepted_location; auto. unfold accepted in *. destruct (valid_locations sg); auto. now rewrite std_loc_lower. }
  destruct (roundtrip_root sg attr root (std_loc attr loc) Hk G1 G2 G3 Hr Hl' Hloc) as (l & Hp & _ & _ & Hc).
  rewrite Hp. rewrite Hc; [now rewrite std_loc_lower|]. split; auto. destruct G5 as [G5|G5]; auto. right.
  intros w x Hin E. rewrite std_loc_lower in E. now apply (G5 w x).
Qed.
Lemma format_set sg attr v r pl loc : known_attr attr -> parse_attr sg attr v = Ok (r, pl) -> loc <> "" -> accepted sg loc ->
  format_str sg attr v (LStr loc) true = Ok (apply_format (format_of sg attr) (std_root attr r) (std_loc attr loc)).
Proof.
  intros Hk Hp Hn Ha. unfold format_str. rewrite (proj2 (valid_attr_iff attr) Hk), Hp. cbn [negb bind].
  assert (En : nonempty loc = true) by (destruct loc; auto; congruence). rewrite En.
  unfold accepted in Ha. destruct (valid_locations sg) as [|w ws].
  - cbn [bind]. now rewrite En.
  - rewrite (proj2 (existsb_in _ _) Ha). cbn [bind]. now rewrite En.
Qed.
Lemma parse_root_wordsp sg attr v r ol : known_attr attr -> parse_attr sg attr v = Ok (r, ol) -> wordsp v -> wordsp r.
Proof.
  intros Hk Hp Hw. destruct (C26_parse sg attr v Hk) as (r' & ol' & E & H). rewrite Hp in E. injection E as <- <-.
  destruct ol as [l|].
  - destruct H as (l' & rest & _ & Hr & _). now apply is_root_wordsp in Hr.
  - destruct H as [-> _]. exact Hw.
Qed.

(** Setting a location: whatever its former location, the value gets the requested one and
    keeps its (standardised) root, and doing it again changes nothing. *)
Theorem C27_set_location sg attr v loc : known_attr attr -> wordsp v -> letters loc -> accepted sg loc -> good sg attr loc ->
  exists r pl w, parse_attr sg attr v = Ok (r, pl) /\ format_str sg attr v (LStr loc) true = Ok w /\
    parse_attr sg attr w = Ok (std_root attr r, Some (lower loc)) /\
    format_str sg attr w (LStr loc) true = Ok w.
Proof.
  intros Hk Hw Hl Ha Hg. destruct (C26_parse sg attr v Hk) as (r & pl & Hp & _).
  assert (Hn : loc <> "") by apply Hl.
  assert (Hr : is_root attr (std_root attr r)) by (apply std_root_is_root; auto; eapply parse_root_wordsp; eauto).
  exists r, pl, (apply_format (format_of sg attr) (std_root attr r) (std_loc attr loc)).
  split; auto. split; [now apply (format_set sg attr v r pl)|].
  assert (HP := good_roundtrip sg attr (std_root attr r) loc Hk Hg Hr Hl Ha).
  split; [exact HP|]. rewrite (format_set sg attr _ _ _ loc Hk HP Hn Ha). now rewrite std_root_idem.
Qed.
(** Another location: XoaCFError. *)
Theorem C27_invalid_location sg attr v loc std : known_attr attr -> loc <> "" -> valid_locations sg <> [] ->
  ~ In (lower loc) (valid_locations sg) -> format_str sg attr v (LStr loc) std = Raise XoaCFError.
Proof.
  intros Hk Hn Hv Hi. destruct (C26_parse sg attr v Hk) as (r & pl & Hp & _).
  unfold format_str. rewrite (proj2 (valid_attr_iff attr) Hk), Hp. cbn [negb bind].
  assert (En : nonempty loc = true) by (destruct loc; auto; congruence). rewrite En.
  destruct (valid_locations sg) as [|w ws]; [congruence|].
  destruct (existsb (String.eqb (lower loc)) (w :: ws)) eqn:E; auto. exfalso. apply Hi. now apply existsb_in.
Qed.
(** loc=None keeps the location; the result is a fixed point. *)
Definition lower_case (sg : sgloc) : Prop := forall w, In w (valid_locations sg) -> lower w = w.
Lemma location_accepted sg l : lower_case sg -> is_location sg l -> accepted sg (lower l).
Proof.
  unfold lower_case, is_location, accepted. destruct (valid_locations sg) as [|w ws]; auto.
  intros H (w' & Hin & E). rewrite lower_idem, E, H; auto.
Qed.
Lemma format_keep sg attr v r l : known_attr attr -> parse_attr sg attr v = Ok (r, Some l) -> l <> "" ->
  format_str sg attr v LNone true = Ok (apply_format (format_of sg attr) (std_root attr r) (std_loc attr l)).
Proof.
  intros Hk Hp Hn. unfold format_str. rewrite (proj2 (valid_attr_iff attr) Hk), Hp. cbn [negb bind].
  assert (En : nonempty l = true) by (destruct l; auto; congruence). now rewrite En.
Qed.
Theorem C27_keep_location sg attr v r l : known_attr attr -> lower_case sg ->
  parse_attr sg attr v = Ok (r, Some l) -> good sg attr l ->
  exists w, format_str sg attr v LNone true = Ok w /\ parse_attr sg attr w = Ok (std_root attr r, Some l) /\
    format_str sg attr w LNone true = Ok w.
Proof.
  intros Hk Hlc Hp Hg. destruct (C26_parse sg attr v Hk) as (r' & ol' & E & H). rewrite Hp in E. injection E as <- <-.
  destruct H as (l' & rest & -> & Hr & Hl & _).
  assert (HL : letters l') by (eapply location_letters; [exact (proj1 (proj2 (proj2 Hg)))|exact Hl]).
  assert (HLl : letters (lower l')).
  { destruct HL as [H1 H2]. split; [destruct l'; [congruence|discriminate]|now rewrite letters_lower]. }
  assert (Hn : lower l' <> "") by apply HLl.
  assert (Hr' : is_root attr (std_root attr r)) by (apply std_root_is_root; auto; eapply is_root_wordsp; eauto).
  assert (HP := good_roundtrip sg attr _ _ Hk Hg Hr' HLl (location_accepted sg l' Hlc Hl)). rewrite lower_idem in HP.
  exists (apply_format (format_of sg attr) (std_root attr r) (std_loc attr (lower l'))).
  split; [now apply format_keep|]. split; [exact HP|].
  rewrite (format_keep sg attr _ _ _ Hk HP Hn). now rewrite std_root_idem.
Qed.
(** loc=False or '': what is left is the standardised root. *)
Theorem C27_remove_location sg attr v r ol loc : known_attr attr -> loc = LFalse \/ loc = LStr "" ->
  parse_attr sg attr v = Ok (r, ol) -> format_str sg attr v loc true = Ok (std_root attr r).
Proof.
  intros Hk Hl Hp. unfold format_str. rewrite (proj2 (valid_attr_iff attr) Hk), Hp. cbn [negb bind].
  destruct Hl as [->| ->]; reflexivity.
Qed.
(** False: "with loc=False no location is left": another one may appear. *)
Theorem C27_remove_once_refuted :
  format_str default_sg "name" "temp_u_t" LFalse true = Ok "temp_u" /\
  parse_attr default_sg "name" "temp_u" = Ok ("temp", Some "u") /\
  format_str default_sg "name" "temp_u" LFalse true = Ok "temp".
Proof. repeat split; vm_compute; reflexivity. Qed.
(** loc=True with a list of valid locations: AttributeError for every value. *)
Theorem C27_true_location sg attr v std : known_attr attr -> valid_locations sg <> [] ->
  format_str sg attr v LTrue std = Raise AttributeError.
Proof.
  intros Hk Hv. destruct (C26_parse sg attr v Hk) as (r & pl & Hp & _).
  unfold format_str. rewrite (proj2 (valid_attr_iff attr) Hk), Hp. cbn [negb bind].
  destruct (valid_locations sg); [congruence|reflexivity].
Qed.

(** ** Dictionaries of attributes *)
Lemma map_res_dget sg loc std : forall a a', format_attrs sg a loc std = Ok a' ->
  dkeys a' = dkeys a /\
  forall k, match dget a k with
            | None => dget a' k = None
            | Some v => exists v', format_entry sg loc std (k, v) = Ok (k, v') /\ dget a' k = Some v'
            end.
Proof.
  unfold format_attrs. induction a as [|[k0 v0] a IH]; intros a' H; cbn [map_res] in H.
  - injection H as <-. split; reflexivity.
  - destruct (format_entry sg loc std (k0, v0)) as [[k1 v1]|e] eqn:E; [|discriminate].
    cbn [bind] in H. destruct (map_res (format_entry sg loc std) a) as [l|e] eqn:Em; [|discriminate].
    cbn [bind] in H. injection H as <-.
    assert (Ek : k1 = k0).
    { unfold format_entry in E. destruct (is_valid_attr k0 && negb (String.eqb k0 "name")).
      - destruct (match v0 with VList l0 => _ | _ => _ end) as [v2|e]; cbn [bind] in E; [|discriminate]. congruence.
      - congruence. }
    subst k1. destruct (IH l eq_refl) as [IH1 IH2]. split; [cbn; f_equal; exact IH1|].
    intro k. cbn [dget]. destruct (String.eqb_spec k k0) as [->|Hne]; [eauto|apply IH2].
Qed.
(** format_attrs: the same keys; standard_name and long_name are formatted (each element of a
    list), anything else - including a "name" entry - is unchanged. *)
Theorem C27_format_attrs sg a loc std a' : format_attrs sg a loc std = Ok a' ->
  dkeys a' = dkeys a /\
  forall k v, dget a k = Some v ->
    (k <> "standard_name" -> k <> "long_name" -> dget a' k = Some v) /\
    (k = "standard_name" \/ k = "long_name" ->
       match v with
       | VStr s => exists w, format_str sg k s loc std = Ok w /\ dget a' k = Some (VStr w)
       | VList l => exists l', dget a' k = Some (VList l') /\ List.length l' = List.length l /\
           forall i s, nth_error l i = Some s -> exists w, nth_error l' i = Some w /\ format_str sg k s loc std = Ok w
       | VNone => dget a' k = Some VNone
       | VOther _ => False
       end).
Proof.
  intro H. destruct (map_res_dget sg loc std a a' H) as [H1 H2]. split; auto.
  intros k v Hk. specialize (H2 k). rewrite Hk in H2. destruct H2 as (v' & E & Hd). unfold format_entry in E.
  split.
  - intros N1 N2. destruct (is_valid_attr k) eqn:Ev.
    + apply valid_attr_iff in Ev. destruct Ev as [->|[?|?]]; try congruence. cbn in E. congruence.
    + cbn in E. congruence.
  - intro Hk2. assert (Ev : is_valid_attr k && negb (String.eqb k "name") = true) by (destruct Hk2 as [->| ->]; reflexivity).
    assert (Ev2 : is_valid_attr k = true) by (destruct Hk2 as [->| ->]; reflexivity).
    rewrite Ev in E. destruct v as [s|l| |n].
    + cbn [format_attr] in E. destruct (format_str sg k s loc std) as [w|e]; cbn [bind] in E; [|discriminate].
      injection E as <-. eauto.
    + destruct (map_res (fun s => format_str sg k s loc std) l) as [l'|e] eqn:Em; cbn [bind] in E; [|discriminate].
      injection E as <-. exists l'. split; [exact Hd|].
      clear -Em. revert l' Em; induction l as [|s l IH]; intros l' Em; cbn [map_res] in Em.
      * injection Em as <-. split; [reflexivity|]. intros [|i] s; discriminate.
      * destruct (format_str sg k s loc std) as [w|e] eqn:Es; cbn [bind] in Em; [|discriminate].
        destruct (map_res (fun s => format_str sg k s loc std) l) as [l2|e]; cbn [bind] in Em; [|discriminate].
        injection Em as <-. destruct (IH l2 eq_refl) as [I1 I2]. split; [cbn; congruence|].
        intros [|i] t Ht; cbn in *; [injection Ht as <-; eauto|apply I2; auto].
    + cbn in E. congruence.
    + cbn [format_attr] in E. rewrite Ev2 in E. discriminate.
Qed.

(** ** merge_attr *)
(** The location of the first value given by: the argument, the second value, the first value;
    the root is that of the second value. *)
Theorem C27_merge_explicit sg attr v0 v1 loc std : known_attr attr -> loc <> LNone -> loc <> LStr "any" ->
  merge_attr sg attr (VStr v0) (VStr v1) loc std = format_attr sg attr (VStr v1) loc std.
Proof.
  intros Hk N Hl. unfold merge_attr. rewrite (proj2 (valid_attr_iff attr) Hk). cbn [negb]. assert (E : is_any loc = false); [|now rewrite E].
  destruct loc as [| | |s]; try reflexivity; [congruence|]. cbn. apply String.eqb_neq. intros ->. now apply Hl.
Qed.
Theorem C27_merge_keep sg attr v0 v1 r0 l0 r1 l1 loc : known_attr attr -> lower_case sg ->
  loc = LNone \/ loc = LStr "any" ->
  parse_attr sg attr v0 = Ok (r0, l0) -> parse_attr sg attr v1 = Ok (r1, l1) -> wordsp v1 ->
  let l := match l1 with Some _ => l1 | None => l0 end in
  match l with
  | Some l => good sg attr l ->
     exists w, merge_attr sg attr (VStr v0) (VStr v1) loc true = Ok (VStr w) /\
       parse_attr sg attr w = Ok (std_root attr r1, Some l)
  | None => loc = LNone -> merge_attr sg attr (VStr v0) (VStr v1) loc true = Ok (VStr (std_root attr v1))
  end.
Proof.
  intros Hk Hlc Hloc P0 P1 Hw. cbn zeta.
  assert (Hany : is_any loc = true) by (destruct Hloc as [->| ->]; reflexivity).
  unfold merge_attr. rewrite (proj2 (valid_attr_iff attr) Hk). cbn [negb parse_val]. rewrite Hany, P0, P1. cbn [bind snd].
  assert (HS : forall l, (exists v r, parse_attr sg attr v = Ok (r, Some l)) -> good sg attr l ->
    exists w, format_attr sg attr (VStr v1) (LStr l) true = Ok (VStr w) /\ parse_attr sg attr w = Ok (std_root attr r1, Some l)).
  { intros l (v & r & Hp) Hg. destruct (C26_parse sg attr v Hk) as (r' & ol' & E & H). rewrite Hp in E. injection E as <- <-.
    destruct H as (l' & rest & -> & Hr & Hl & _).
    assert (HL : letters l') by (eapply location_letters; [exact (proj1 (proj2 (proj2 Hg)))|exact Hl]).
    assert (HLl : letters (lower l')).
    { destruct HL as [H1 H2]. split; [destruct l'; [congruence|discriminate]|now rewrite letters_lower]. }
    destruct (C27_set_location sg attr v1 (lower l') Hk Hw HLl (location_accepted sg l' Hlc Hl) Hg)
      as (r2 & pl & w & E1 & E2 & E3 & _).
    rewrite P1 in E1. injection E1 as <- <-. rewrite lower_idem in E3. exists w. cbn [format_attr]. rewrite E2. auto. }
  destruct l1 as [l1|]; [intro Hg; apply HS; eauto|]. destruct l0 as [l0|]; [intro Hg; apply HS; eauto|].
  intros ->. cbn [format_attr]. unfold format_str. rewrite (proj2 (valid_attr_iff attr) Hk), P1. cbn [negb bind].
  destruct (C26_parse sg attr v1 Hk) as (r' & ol' & E & H). rewrite P1 in E. injection E as <- <-. destruct H as [-> _]. reflexivity.
Qed.
(** A missing value: the other one is formatted. *)
Theorem C27_merge_one sg attr v loc std : known_attr attr ->
  merge_attr sg attr VNone (VStr v) loc std = format_attr sg attr (VStr v) loc std /\
  merge_attr sg attr (VStr v) VNone loc std = format_attr sg attr (VStr v) loc std /\
  merge_attr sg attr VNone VNone loc std = Ok VNone.
Proof. intro Hk. unfold merge_attr. rewrite (proj2 (valid_attr_iff attr) Hk). cbn [negb]. auto. Qed.
(** False: loc="any" leaves a value that has no location as it is: it becomes a location. *)
Theorem C27_any_refuted :
  merge_attr default_sg "name" VNone (VStr "temp") (LStr "any") true = Ok (VStr "temp_any") /\
  merge_attr default_sg "name" (VStr "x") (VStr "temp") (LStr "any") true = Ok (VStr "temp_any") /\
  format_attrs default_sg [("long_name", VStr "Temp")] (LStr "any") true = Ok [("long_name", VStr "Temp at ANY location")].
Proof. repeat split; vm_compute; reflexivity. Qed.
(** Valid locations with capital letters cannot be formatted. *)
Theorem C27_capital_location_refuted :
  let sg := mksg default_name_format ["U"] in
  format_str sg "name" "temp" (LStr "U") true = Raise XoaCFError /\
  merge_attr sg "name" (VStr "temp_U") (VStr "x") LNone true = Raise XoaCFError.
Proof. split; vm_compute; reflexivity. Qed.

(** ** patch_attrs *)
(** What becomes of one attribute *)
Definition patched (sg : sgloc) (loc : larg) (std replace : bool) (k : string) (old : option aval) (new : aval) : res (option aval) :=
  match old, replace, new with
  | _, _, VNone => Ok old
  | Some v, false, _ => Ok (Some v)
  | _, _, _ =>
    if is_valid_attr k then
      let* value :=
        match new with
        | VList l =>
          let first := match l with s :: _ => Ok (VStr s) | [] => Raise IndexError end in
          match old with
          | Some cur => let* b := first_match sg k cur l in if b then Ok cur else first
          | None => first
          end
        | v => Ok v
        end in
      let* v := merge_attr sg k (match old with Some v => v | None => VNone end) value loc std in
      Ok (match v with VNone => old | _ => Some v end)
    else Ok (Some new)
  end.
Lemma patch_entry_local sg loc std replace a k new a' : patch_entry sg loc std replace a (k, new) = Ok a' ->
  patched sg loc std replace k (dget a k) new = Ok (dget a' k) /\ (forall k', k' <> k -> dget a' k' = dget a k').
Proof.
  unfold patch_entry, patched, dmem, get_aval. intro H.
  destruct new as [s|l| |n]; destruct (dget a k) as [old|] eqn:Eo; destruct replace; cbn [negb andb] in *;
    try (injection H as <-; rewrite ?Eo; now auto).
  all: destruct (is_valid_attr k); [|injection H as <-; rewrite dget_dset, String.eqb_refl; split; [reflexivity|];
         intros k' Hk'; rewrite dget_dset; now rewrite (proj2 (String.eqb_neq _ _) Hk')].
  all: match type of H with bind ?x _ = _ => destruct x as [val|e]; cbn [bind] in *; [|discriminate] end;
       match type of H with bind ?x _ = _ => destruct x as [v|e]; cbn [bind] in *; [|discriminate] end;
       injection H as <-; destruct v; cbn; rewrite ?dget_dset, ?String.eqb_refl, ?Eo; (split; [reflexivity|]);
       intros k' Hk'; rewrite ?dget_dset, ?(proj2 (String.eqb_neq _ _) Hk'); reflexivity.
Qed.
Lemma patch_raise sg loc std replace patch e :
  fold_left (fun acc kv => let* a := acc in patch_entry sg loc std replace a kv) patch (Raise e) = Raise e.
Proof. induction patch; simpl; auto. Qed.
Lemma patch_fold sg loc std replace : forall patch a a', dict_wf patch ->
  fold_left (fun acc kv => let* a := acc in patch_entry sg loc std replace a kv) patch (Ok a) = Ok a' ->
  forall k, match dget patch k with
            | None => dget a' k = dget a k
            | Some new => patched sg loc std replace k (dget a k) new = Ok (dget a' k)
            end.
Proof.
  induction patch as [|[k0 v0] patch IH]; intros a a' Hw H k; cbn [fold_left] in H.
  - injection H as <-. reflexivity.
  - cbn [bind] in H. destruct (patch_entry sg loc std replace a (k0, v0)) as [a1|e] eqn:E; [|rewrite patch_raise in H; discriminate].
    destruct (patch_entry_local _ _ _ _ _ _ _ _ E) as [L1 L2].
    assert (Hw' : dict_wf patch) by (inversion Hw; auto).
    assert (Hn : dget patch k0 = None) by (apply dget_none; inversion Hw; auto).
    specialize (IH a1 a' Hw' H k). cbn [dget]. destruct (String.eqb_spec k k0) as [->|Hne].
    + rewrite Hn in IH. now rewrite IH.
    + rewrite L2 in IH by auto. exact IH.
Qed.
Lemma patch_start sg a loc std : match a with [] => Ok [] | _ => format_attrs sg a loc std end = format_attrs sg a loc std.
Proof. destruct a; reflexivity. Qed.
(** Patching: each attribute on its own.  In "fill" mode the attributes already there are only
    formatted; the missing ones come from the patch, formatted at the location when they carry
    one; a None of the patch is ignored; attributes of neither are not created. *)
Theorem C27_patch_fill sg a patch loc std a' : dict_wf patch ->
  patch_attrs sg a patch loc std false = Ok a' ->
  exists a0, format_attrs sg a loc std = Ok a0 /\
  forall k,
    (forall v, dget a0 k = Some v -> dget a' k = Some v) /\
    (dget a k = None ->
       match dget patch k with
       | None | Some VNone => dget a' k = None
       | Some (VStr s) =>
         if is_valid_attr k then exists w, format_str sg k s loc std = Ok w /\ dget a' k = Some (VStr w)
         else dget a' k = Some (VStr s)
       | Some (VList l) =>
         if is_valid_attr k
         then exists s l' w, l = s :: l' /\ format_str sg k s loc std = Ok w /\ dget a' k = Some (VStr w)
         else dget a' k = Some (VList l)
       | Some v => if is_valid_attr k then False else dget a' k = Some v
       end).
Proof.
  intros Hw H. unfold patch_attrs in H. rewrite patch_start in H.
  destruct (format_attrs sg a loc std) as [a0|e] eqn:E; cbn [bind] in H; [|discriminate].
  exists a0. split; [reflexivity|]. intro k. assert (HP := patch_fold sg loc std false patch a0 a' Hw H k).
  destruct (C27_format_attrs sg a loc std a0 E) as [Hkeys _].
  split.
  - intros v Hv. rewrite Hv in HP. destruct (dget patch k) as [new|]; [|exact HP].
    destruct new; cbn in HP; injection HP as HP; now rewrite <- HP.
  - intro Hn. assert (Hn0 : dget a0 k = None).
    { apply dget_none. rewrite Hkeys. now apply dget_none. }
    rewrite Hn0 in HP. destruct (dget patch k) as [new|]; [|exact HP]. unfold patched in HP.
    destruct new as [s|l| |n]; cbn [bind] in HP.
    + destruct (is_valid_attr k) eqn:Ev; [|congruence].
      unfold merge_attr in HP. rewrite Ev in HP. cbn [negb format_attr bind] in HP.
      destruct (format_str sg k s loc std) as [w|e]; cbn [bind] in HP; [|discriminate].
      injection HP as HP. exists w. symmetry in HP. auto.
    + destruct (is_valid_attr k) eqn:Ev; [|congruence].
      destruct l as [|s l]; cbn [bind] in HP; [discriminate|].
      unfold merge_attr in HP. rewrite Ev in HP. cbn [negb format_attr bind] in HP.
      destruct (format_str sg k s loc std) as [w|e] eqn:Ef; cbn [bind] in HP; [|discriminate].
      injection HP as HP. exists s, l, w. symmetry in HP. auto.
    + congruence.
    + destruct (is_valid_attr k) eqn:Ev; [|congruence].
      unfold merge_attr in HP. rewrite Ev in HP. cbn [negb format_attr bind] in HP. rewrite Ev in HP. discriminate.
Qed.
(** In "replace" mode the patch has priority; attributes with a location are merged. *)
Theorem C27_patch_replace sg a patch loc std a' : dict_wf patch ->
  patch_attrs sg a patch loc std true = Ok a' ->
  exists a0, format_attrs sg a loc std = Ok a0 /\
  forall k,
    (dget patch k = None \/ dget patch k = Some VNone -> dget a' k = dget a0 k) /\
    (forall v, dget patch k = Some v -> v <> VNone -> is_valid_attr k = false -> dget a' k = Some v) /\
    (forall s, dget patch k = Some (VStr s) -> is_valid_attr k = true ->
       exists v, merge_attr sg k (match dget a0 k with Some v => v | None => VNone end) (VStr s) loc std = Ok v /\
                 dget a' k = Some v).
Proof.
  intros Hw H. unfold patch_attrs in H. rewrite patch_start in H.
  destruct (format_attrs sg a loc std) as [a0|e] eqn:E; cbn [bind] in H; [|discriminate].
  exists a0. split; [reflexivity|]. intro k. assert (HP := patch_fold sg loc std true patch a0 a' Hw H k).
  split; [|split].
  - intros [Hp|Hp]; rewrite Hp in HP; [exact HP|]. destruct (dget a0 k); cbn in HP; congruence.
  - intros v Hp Hv Hk. rewrite Hp in HP. unfold patched in HP. rewrite Hk in HP.
    destruct (dget a0 k), v; cbn in HP; congruence.
  - intros s Hp Hk. rewrite Hp in HP. unfold patched in HP. rewrite Hk in HP.
    assert (HM : forall old, match merge_attr sg k old (VStr s) loc std with Ok VNone => False | _ => True end).
    { intro old. unfold merge_attr. rewrite Hk. cbn [negb].
      assert (HF : forall lo, match format_attr sg k (VStr s) lo std with Ok VNone => False | _ => True end).
      { intro lo. cbn [format_attr]. destruct (format_str sg k s lo std); exact Logic.I. }
      destruct old; cbn [bind]; try apply HF;
        (match goal with |- match bind ?x _ with _ => _ end => destruct x; cbn [bind]; [apply HF|exact Logic.I] end). }
    destruct (dget a0 k) as [old|]; cbn [bind] in HP.
    + specialize (HM old). destruct (merge_attr sg k old (VStr s) loc std) as [v|e]; cbn [bind] in HP; [|discriminate].
      exists v. split; auto. destruct v; [congruence|congruence|destruct HM|congruence].
    + specialize (HM VNone). destruct (merge_attr sg k VNone (VStr s) loc std) as [v|e]; cbn [bind] in HP; [|discriminate].
      exists v. split; auto. destruct v; [congruence|congruence|destruct HM|congruence].
Qed.

(** In "replace" mode with a list of allowed values: the value that is there is kept when it is
    one of them, at whatever location; else the first one of the list is used. *)
Theorem C27_patch_list sg a patch loc std a' k l : dict_wf patch ->
  patch_attrs sg a patch loc std true = Ok a' -> dget patch k = Some (VList l) -> is_valid_attr k = true ->
  exists a0, format_attrs sg a loc std = Ok a0 /\
  match dget a0 k with
  | None => exists s l' w, l = s :: l' /\ format_str sg k s loc std = Ok w /\ dget a' k = Some (VStr w)
  | Some (VStr cur) =>
    (exists x v, In x l /\ match_attr sg k cur x MAny = Ok (Some true) /\ merge_attr sg k (VStr cur) (VStr cur) loc std = Ok v /\ dget a' k = Some v) \/
    (exists s l' v, l = s :: l' /\ (forall x, In x l -> match_attr sg k cur x MAny <> Ok (Some true)) /\
       merge_attr sg k (VStr cur) (VStr s) loc std = Ok v /\ dget a' k = Some v)
  | Some _ => False
  end.
Proof.
  intros Hw H Hp Hk. unfold patch_attrs in H. rewrite patch_start in H.
  destruct (format_attrs sg a loc std) as [a0|e] eqn:E; cbn [bind] in H; [|discriminate].
  exists a0. split; [reflexivity|]. assert (HP := patch_fold sg loc std true patch a0 a' Hw H k). rewrite Hp in HP.
  unfold patched in HP. rewrite Hk in HP.
  assert (HM : forall old s v, merge_attr sg k old (VStr s) loc std = Ok v -> v <> VNone).
  { intros old s v. unfold merge_attr. rewrite Hk. cbn [negb].
    assert (HF : forall lo, format_attr sg k (VStr s) lo std = Ok v -> v <> VNone).
    { intros lo. cbn [format_attr]. destruct (format_str sg k s lo std); cbn [bind]; [|discriminate]. intro X. injection X as <-. discriminate. }
    destruct old; cbn [bind]; try apply HF;
      (match goal with |- bind ?x _ = _ -> _ => destruct x; cbn [bind]; [apply HF|discriminate] end). }
  assert (FM : forall cur m, first_match sg k (VStr cur) m = Ok true -> exists x, In x m /\ match_attr sg k cur x MAny = Ok (Some true)).
  { intros cur m. induction m as [|x m IH]; cbn [first_match]; [discriminate|].
    destruct (match_attr sg k cur x MAny) as [[[]|]|e] eqn:Em; cbn [bind]; [exists x; split; [now left|auto]|..]; try discriminate;
      intro X; destruct (IH X) as (y & Hy & Ey); exists y; split; auto; now right. }
  assert (FM0 : forall cur m, first_match sg k (VStr cur) m = Ok false -> forall x, In x m -> match_attr sg k cur x MAny <> Ok (Some true)).
  { intros cur m. induction m as [|x m IH]; cbn [first_match]; [intros _ x []|].
    destruct (match_attr sg k cur x MAny) as [[[]|]|e] eqn:Em; cbn [bind]; try discriminate; intros X y [<-|Hy]; try congruence; now apply IH. }
  destruct (dget a0 k) as [old|]; cbn [bind] in HP.
  - destruct (first_match sg k old l) as [b|e] eqn:Ef; cbn [bind] in HP; [|discriminate].
    destruct old as [cur|lo| |n].
    + destruct b.
      * cbn [bind] in HP. destruct (merge_attr sg k (VStr cur) (VStr cur) loc std) as [v|e] eqn:Ev; cbn [bind] in HP; [|discriminate].
        left. destruct (FM cur l Ef) as (x & Hx & Ex). exists x, v. repeat split; auto. assert (N := HM _ _ _ Ev). destruct v; congruence.
      * destruct l as [|s l']; cbn [bind] in HP; [discriminate|].
        destruct (merge_attr sg k (VStr cur) (VStr s) loc std) as [v|e] eqn:Ev; cbn [bind] in HP; [|discriminate].
        right. exists s, l', v. split; [reflexivity|]. split; [now apply FM0|]. split; auto. assert (N := HM _ _ _ Ev). destruct v; congruence.
    + destruct l; cbn in Ef; [|discriminate]. injection Ef as <-. discriminate.
    + destruct l; cbn in Ef; [|discriminate]. injection Ef as <-. discriminate.
    + destruct l; cbn in Ef; [|discriminate]. injection Ef as <-. discriminate.
  - destruct l as [|s l']; cbn [bind] in HP; [discriminate|].
    unfold merge_attr in HP. rewrite Hk in HP. cbn [negb format_attr bind] in HP.
    destruct (format_str sg k s loc std) as [w|e] eqn:Ef; cbn [bind] in HP; [|discriminate].
    injection HP as HP. exists s, l', w. symmetry in HP. auto.
Qed.
Print Assumptions C27_patch_list.

(** ** match_attr and get_location *)
(** A standard_name or long_name that is not a text is a TypeError. *)
Theorem C27_get_location_not_text sg da v : (forall s, v <> VStr s) ->
  (dget (da_attrs da) "standard_name" = Some v -> get_location sg da = Raise TypeError) /\
  (dget (da_attrs da) "standard_name" = None -> dget (da_attrs da) "long_name" = Some v -> get_location sg da = Raise TypeError).
Proof.
  intro Hv. unfold get_location.
  assert (N : exists loc, match da_name da with
              | Some n => if nonempty n then let* p := parse_attr sg "name" n in Ok (snd p) else Ok None
              | None => Ok None
              end = Ok loc).
  { destruct (da_name da) as [n|]; eauto. destruct (nonempty n); eauto.
    destruct (C26_parse sg "name" n (or_introl eq_refl)) as (r & ol & -> & _). cbn. eauto. }
  destruct N as [loc ->]. cbn [bind]. split.
  - intros ->. destruct v as [s| | |]; try reflexivity. now destruct (Hv s).
  - intros -> ->. destruct v as [s| | |]; try reflexivity. now destruct (Hv s).
Qed.
Theorem C27_match_formatted sg attr root loc : known_attr attr -> good sg attr loc -> is_root attr root -> letters loc ->
  accepted sg loc ->
  let w := apply_format (format_of sg attr) root (std_loc attr loc) in
  (forall root', match_attr sg attr w root' MAny = Ok (Some (String.eqb (lower root) (lower root')))) /\
  match_attr sg attr w root MFalse = Ok (Some false) /\
  (forall ls, ls <> [] -> match_attr sg attr w root (MList ls) = Ok (Some (existsb (String.eqb (lower loc)) ls))).
Proof.
  intros Hk Hg Hr Hl Ha. cbn zeta.
  (* the lowered value is also a formatted value *)
  assert (HP : parse_attr sg attr (lower (apply_format (format_of sg attr) root (std_loc attr loc))) =
               Ok (lower root, Some (lower loc))).
  { destruct Hg as (G1 & G2 & G3 & G4 & G5). set (f := format_of sg attr) in *.
    assert (Hl' : letters (lower loc)).
    { destruct Hl as [H1 H2]. split; [destruct loc; [congruence|discriminate]|now rewrite letters_lower]. }
    assert (Hr' : is_root attr (lower root)).
    { destruct Hr as [H1 H2]. split; [destruct root; [congruence|discriminate]|].
      revert H2. unfold root_class. destruct (String.eqb attr "long_name"); clear; induction root as [|c r IH]; cbn; auto;
        intro H; apply andb_true_iff in H; destruct H as [Hc H]; rewrite IH by auto; rewrite andb_true_r; auto.
      - destruct c as [[] [] [] [] [] [] [] []]; (reflexivity || discriminate).
      - now rewrite is_word_lower. }
    assert (Hloc : is_location sg (lower loc)).
    { apply accepted_location; auto. unfold accepted in *. destruct (valid_locations sg); auto. now rewrite lower_idem. }
    set (v := lower (apply_format f root (std_loc attr loc))).
    assert (Ev : v = lower (pre f) ++ lower root ++ lower (mid f) ++ lower loc ++ lower (post f)).
    { unfold v, apply_format. rewrite G1, !lower_app, std_loc_lower. reflexivity. }
    assert (Hc : carries sg attr v (lower root) (lower loc) "").
    { split; auto. split; auto. exists (lower (pre f)), (lower (mid f)), (lower (post f)). fold f.
      rewrite G1, !lower_idem, sapp_nil_r. auto. }
    destruct (parse_cases sg attr v Hk) as [(r2 & l2 & rest & Hma & Hc2 & Hp)|[Hno _]]; [|exfalso; eapply Hno; eauto].
    assert (HPr : preferred sg attr v r2 l2).
    { apply match_preferred; auto. rewrite Hma. unfold caps_of. fold f. now rewrite G1. }
    destruct HPr as (P1 & P2 & P3). specialize (P1 _ _ _ Hc).
    assert (Hc2' := Hc2). rewrite Ev in Hc2'.
    destruct (root_unique sg attr (lower (pre f)) (lower root) (lower (mid f)) (lower loc) (lower (post f)) G1 G2 G3
      (lower_idem _) (lower_idem _) (lower_idem _) Hl' _ _ _ Hc2' P1) as [-> (q2 & Es & Eq2)].
    fold f in Eq2. rewrite Hp. f_equal. f_equal. f_equal.
    assert (Hl2 : is_location sg l2) by apply Hc2. assert (Ll2 := location_letters sg l2 G3 Hl2).
    assert (G4' : lower (post f) = "" \/ starts_non_letter (lower (post f))).
    { destruct G4 as [->|G4]; [left; reflexivity|right]. eapply snl_ci; [symmetry; apply lower_idem|exact G4]. }
    destruct (Nat.lt_total (String.length (lower loc)) (String.length l2)) as [Hlt|[Heq|Hgt]].
    - exfalso. destruct (sapp_split (lower loc) _ l2 _ Es) as (x & El & Ex); [lia|].
      destruct x as [|c x]; [rewrite El, sapp_nil_r in Hlt; lia|].
      destruct Ll2 as [_ L]. rewrite El, all_chars_app in L. apply andb_true_iff in L. destruct L as [_ L]. simpl in L.
      apply andb_true_iff in L. destruct L as [L _].
      destruct G4' as [E1|E1]; rewrite Ex in E1; [discriminate|]. simpl in E1. congruence.
    - destruct (sapp_inv_len (lower loc) _ l2 _ Es Heq) as [<- _]. apply lower_idem.
    - symmetry in Es. destruct (sapp_split l2 _ (lower loc) _ Es) as (x & El & Ex); [lia|].
      destruct G5 as [E2|E2].
      + exfalso. destruct x as [|c x]; [rewrite El, sapp_nil_r in Hgt; lia|].
        destruct Hl' as [_ L]. rewrite El, all_chars_app in L. apply andb_true_iff in L. destruct L as [_ L]. simpl in L.
        apply andb_true_iff in L. destruct L as [L _].
        apply (snl_ci _ q2) in E2; [|congruence]. destruct q2 as [|d q2]; [destruct E2|]. simpl in Ex, E2.
        injection Ex as -> _. congruence.
      + destruct (valid_locations sg) as [|w0 ws0] eqn:Ev0.
        * specialize (P2 eq_refl _ _ Hc). lia.
        * assert (Hl2' := Hl2). unfold is_location in Hl2'. rewrite Ev0 in Hl2'. destruct Hl2' as (w & Hin & Ew).
          assert (E3 : lower loc = lower l2 ++ lower x).
          { rewrite <- (lower_idem loc), El, lower_app. reflexivity. }
          rewrite Ew in E3. rewrite (E2 w (lower x) Hin E3), sapp_nil_r in E3. congruence. }
  unfold match_attr. rewrite (proj2 (valid_attr_iff attr) Hk). cbn [negb]. rewrite HP. cbn [bind fst snd].
  rewrite !lower_idem. split; [|split].
  - intro root'. destruct (String.eqb (lower root) (lower root')); reflexivity.
  - rewrite String.eqb_refl. reflexivity.
  - intros ls Hls. rewrite String.eqb_refl. cbn [negb]. destruct ls; [congruence|]. reflexivity.
Qed.
(** A string of locations: TypeError when the value has no location, and parts of the string
    match. *)
Theorem C27_match_string_refuted :
  match_attr default_sg "name" "temp" "temp" (MStr "t") = Raise TypeError /\
  match_attr default_sg "name" "temp_rh" "temp" (MStr "rho") = Ok (Some true).
Proof. split; vm_compute; reflexivity. Qed.

(** The locations found in the name and the attributes *)
Definition loc_in (sg : sgloc) (attr : string) (v : option aval) : list string :=
  match v with
  | Some (VStr s) => match parse_attr sg attr s with Ok (_, Some l) => [l] | _ => [] end
  | _ => []
  end.
Definition locations (sg : sgloc) (da : darr) : list string :=
  (loc_in sg "name" (match da_name da with Some n => if nonempty n then Some (VStr n) else None | None => None end) ++
   loc_in sg "standard_name" (dget (da_attrs da) "standard_name") ++
   loc_in sg "long_name" (dget (da_attrs da) "long_name"))%list.
Definition str_or_absent (v : option aval) : Prop := match v with None | Some (VStr _) => True | _ => False end.
(** get_location: the common location, None when there is none, XoaCFError when they differ. *)
Theorem C27_get_location sg da : ~ In "" (valid_locations sg) ->
  str_or_absent (dget (da_attrs da) "standard_name") -> str_or_absent (dget (da_attrs da) "long_name") ->
  get_location sg da =
  match locations sg da with
  | [] => Ok None
  | l :: ls => if forallb (String.eqb l) ls then Ok (Some l) else Raise XoaCFError
  end.
Proof.
  intros He Hs Hl. unfold get_location, locations.
  assert (HN : forall attr s, known_attr attr -> exists r ol, parse_attr sg attr s = Ok (r, ol) /\
     match ol with Some l => nonempty l = true | None => True end).
  { intros attr s Hk. destruct (C26_parse sg attr s Hk) as (r & ol & Hp & H). exists r, ol. split; auto.
    destruct ol as [l|]; auto. destruct H as (l' & rest & -> & _ & Hloc & _).
    unfold is_location in Hloc. destruct (valid_locations sg) as [|w ws].
    - destruct Hloc as [H _]. destruct l'; [congruence|reflexivity].
    - destruct Hloc as (w' & Hin & E). destruct l'; [|reflexivity]. destruct w'; [|discriminate]. exfalso. auto. }
  assert (K1 : known_attr "name") by (left; auto). assert (K2 : known_attr "standard_name") by (right; left; auto).
  assert (K3 : known_attr "long_name") by (right; right; auto).
  set (n := match da_name da with Some n => if nonempty n then Some (VStr n) else None | None => None end).
  assert (E1 : match da_name da with
               | Some n => if nonempty n then let* p := parse_attr sg "name" n in Ok (snd p) else Ok None
               | None => Ok None end = Ok (hd_error (loc_in sg "name" n)) /\ List.length (loc_in sg "name" n) <= 1 /\
               match hd_error (loc_in sg "name" n) with Some l => nonempty l = true | None => True end).
  { unfold n. destruct (da_name da) as [nm|]; [|cbn; auto]. destruct (nonempty nm); [|cbn; auto].
    destruct (HN "name" nm K1) as (r & ol & Hp & Hne). unfold loc_in. rewrite Hp. cbn [bind snd]. destruct ol; cbn; auto. }
  destruct E1 as (E1 & L1 & N1). rewrite E1. cbn [bind].
  assert (ES : forall attr loc, known_attr attr -> str_or_absent (dget (da_attrs da) attr) ->
    match dget (da_attrs da) attr with
    | Some v => let* p := parse_val sg attr v in check_loc loc (snd p) | None => Ok loc end =
    check_loc loc (hd_error (loc_in sg attr (dget (da_attrs da) attr))) /\
    List.length (loc_in sg attr (dget (da_attrs da) attr)) <= 1 /\
    match hd_error (loc_in sg attr (dget (da_attrs da) attr)) with Some l => nonempty l = true | None => True end).
  { intros attr loc Hk Hst. destruct (dget (da_attrs da) attr) as [v|]; [|cbn; auto].
    destruct v as [s| | |]; try destruct Hst. destruct (HN attr s Hk) as (r & ol & Hp & Hne).
    cbn [parse_val]. unfold loc_in. rewrite Hp. cbn [bind snd]. destruct ol; cbn; auto. }
  destruct (ES "standard_name" (hd_error (loc_in sg "name" n)) K2 Hs) as (E2 & L2 & N2). rewrite E2.
  (* the last step, from a location *)
  assert (E3 : forall loc, match dget (da_attrs da) "long_name" with
    | Some v => let* p := parse_val sg "long_name" v in check_loc loc (snd p) | None => Ok loc end =
    check_loc loc (hd_error (loc_in sg "long_name" (dget (da_attrs da) "long_name")))).
  { intro loc. now destruct (ES "long_name" loc K3 Hl). }
  destruct (ES "long_name" None K3 Hl) as (_ & L3 & N3).
  assert (EB : forall x, (let* loc := x in
       match dget (da_attrs da) "long_name" with
       | Some v => let* p := parse_val sg "long_name" v in check_loc loc (snd p) | None => Ok loc end) =
       let* loc := x in check_loc loc (hd_error (loc_in sg "long_name" (dget (da_attrs da) "long_name")))).
  { intros [x|e]; [apply E3|reflexivity]. }
  rewrite EB. clear E1 E2 E3 EB ES HN Hs Hl K1 K2 K3.
  generalize dependent (loc_in sg "name" n). generalize dependent (loc_in sg "standard_name" (dget (da_attrs da) "standard_name")).
  generalize dependent (loc_in sg "long_name" (dget (da_attrs da) "long_name")).
  intros c Lc Nc b Lb Nb a La Na.
  destruct a as [|l1 [|]]; cbn in La; try lia; destruct b as [|l2 [|]]; cbn in Lb; try lia;
    destruct c as [|l3 [|]]; cbn in Lc; try lia; cbn [hd_error check_loc bind app forallb andb] in *;
    rewrite ?Na, ?Nb, ?Nc; cbn [andb bind]; rewrite ?Na, ?Nb, ?Nc; cbn [andb bind];
    repeat (first [reflexivity | congruence | match goal with |- context [String.eqb ?a ?b] =>
      destruct (String.eqb_spec a b); try subst; cbn [negb andb bind check_loc]; rewrite ?Na, ?Nb, ?Nc; cbn [andb bind] end]).
Qed.

Example ex27 :
  wordsp "sea water temp_t" /\ letters "u" /\ accepted default_sg "u" /\
  format_str default_sg "standard_name" "sea_water_temperature_at_t_location" (LStr "U") true
    = Ok "sea_water_temperature_at_u_location" /\
  format_attrs default_sg [("standard_name", VStr "sst_at_t_location"); ("long_name", VList ["sst"; "big sst"]); ("units", VStr "degC_t")]
    LFalse true = Ok [("standard_name", VStr "sst"); ("long_name", VList ["Sst"; "Big sst"]); ("units", VStr "degC_t")] /\
  merge_attr default_sg "name" (VStr "temp_t") (VStr "mytemp") LNone true = Ok (VStr "mytemp_t") /\
  patch_attrs default_sg [("standard_name", VStr "sst")] [("standard_name", VStr "x"); ("long_name", VList ["A"; "B"]); ("n", VOther 3)]
    (LStr "t") true false =
    Ok [("standard_name", VStr "sst_at_t_location"); ("long_name", VStr "A at T location"); ("n", VOther 3)] /\
  get_location default_sg (mkdarr (Some "temp_t") [("long_name", VStr "Temp at T location")]) = Ok (Some "t") /\
  get_location default_sg (mkdarr (Some "temp_t") [("long_name", VStr "Temp at U location")]) = Raise XoaCFError.
Proof.
  split; [split; [discriminate|reflexivity]|]. split; [split; [discriminate|reflexivity]|].
  split; [exact Logic.I|]. repeat split; vm_compute; reflexivity.
Qed.
