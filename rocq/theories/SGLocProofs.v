(** Facts for C26 and C27. *)
From Verif Require Export SGLocSpec PyReFacts.
Open Scope string_scope.

Lemma valid_attr_iff attr : is_valid_attr attr = true <-> known_attr attr.
Proof.
  unfold is_valid_attr, valid_attrs, known_attr. simpl. rewrite !orb_true_iff, !String.eqb_eq.
  split; intros H; repeat (destruct H as [H|H]; auto); try discriminate; auto.
Qed.

(** The two shapes of matches *)
Lemma M_loc sg es s caps rest : M (loc_elem sg :: es) s caps rest <->
  exists l s' caps', s = l ++ s' /\ caps = l :: caps' /\ is_location sg l /\ M es s' caps' rest.
Proof.
  unfold loc_elem, is_location. destruct (valid_locations sg) as [|w ws].
  - split.
    + intro H. inversion H; subst. eauto 8.
    + intros (l & s' & caps' & -> & -> & [H1 H2] & H3). now constructor.
  - split.
    + intro H. inversion H; subst. eauto 10.
    + intros (l & s' & caps' & -> & -> & [w' [H1 H2]] & H3). econstructor; eauto.
Qed.
Lemma M_plus_iff ok es s caps rest : M (RPlus ok :: es) s caps rest <->
  exists a s' caps', s = a ++ s' /\ caps = a :: caps' /\ a <> "" /\ all_chars ok a = true /\ M es s' caps' rest.
Proof.
  split; [intro H; inversion H; subst; eauto 10|].
  intros (l & s' & caps' & -> & -> & H1 & H2 & H3). now constructor.
Qed.
Lemma M_lit_iff l es s caps rest : M (RLit l :: es) s caps rest <->
  exists x s', s = x ++ s' /\ lower x = lower l /\ M es s' caps rest.
Proof.
  split; [intro H; inversion H; subst; eauto 10|].
  intros (x & s' & -> & H1 & H3). now constructor.
Qed.
Lemma M_nil_iff s caps rest : M [] s caps rest <-> caps = [] /\ rest = s.
Proof. split; [intro H; inversion H; auto|intros [-> ->]; constructor]. Qed.

Definition caps_of (sg : sgloc) (attr r l : string) : list string :=
  if root_first (format_of sg attr) then [r; l] else [l; r].
Lemma M_carries sg attr v caps rest : M (pattern sg attr) v caps rest <->
  exists r l, caps = caps_of sg attr r l /\ carries sg attr v r l rest.
Proof.
  unfold pattern, carries, is_root, caps_of. destruct (root_first (format_of sg attr)).
  - rewrite M_lit_iff. split.
    + intros (p & s1 & -> & Hp & H). apply (proj1 (M_plus_iff _ _ _ _ _)) in H.
      destruct H as (r & s2 & c1 & -> & -> & Hr1 & Hr2 & H). apply (proj1 (M_lit_iff _ _ _ _ _)) in H.
      destruct H as (m & s3 & -> & Hm & H). apply (proj1 (M_loc _ _ _ _ _)) in H.
      destruct H as (l & s4 & c2 & -> & -> & Hl & H). apply (proj1 (M_lit_iff _ _ _ _ _)) in H.
      destruct H as (q & s5 & -> & Hq & H). apply (proj1 (M_nil_iff _ _ _)) in H. destruct H as [-> ->].
      exists r, l. split; auto. split; auto. split; auto. exists p, m, q. auto.
    + intros (r & l & -> & (Hr1 & Hr2) & Hl & p & m & q & Hp & Hm & Hq & ->).
      exists p, (r ++ m ++ l ++ q ++ rest). split; auto. split; auto. constructor; auto. constructor; auto.
      apply M_loc. exists l, (q ++ rest), []. split; auto. split; auto. split; auto. constructor; auto. constructor.
  - rewrite M_lit_iff. split.
    + intros (p & s1 & -> & Hp & H). apply (proj1 (M_loc _ _ _ _ _)) in H.
      destruct H as (l & s4 & c2 & -> & -> & Hl & H). apply (proj1 (M_lit_iff _ _ _ _ _)) in H.
      destruct H as (m & s3 & -> & Hm & H). apply (proj1 (M_plus_iff _ _ _ _ _)) in H.
      destruct H as (r & s2 & c1 & -> & -> & Hr1 & Hr2 & H). apply (proj1 (M_lit_iff _ _ _ _ _)) in H.
      destruct H as (q & s5 & -> & Hq & H). apply (proj1 (M_nil_iff _ _ _)) in H. destruct H as [-> ->].
      exists r, l. split; auto. split; auto. split; auto. exists p, m, q. auto.
    + intros (r & l & -> & (Hr1 & Hr2) & Hl & p & m & q & Hp & Hm & Hq & ->).
      exists p, (l ++ m ++ r ++ q ++ rest). split; auto. split; auto.
      apply M_loc. exists l, (m ++ r ++ q ++ rest), [r]. split; auto. split; auto. split; auto.
      constructor; auto. constructor; auto. constructor; auto. constructor.
Qed.

Lemma parse_cases sg attr v : known_attr attr ->
  (exists r l rest, re_match (pattern sg attr) v = Some (caps_of sg attr r l) /\
     carries sg attr v r l rest /\ parse_attr sg attr v = Ok (r, Some (lower l))) \/
  ((forall r l rest, ~ carries sg attr v r l rest) /\ parse_attr sg attr v = Ok (v, None)).
Proof.
  intro Hk. apply (proj2 (valid_attr_iff attr)) in Hk. unfold parse_attr. rewrite Hk.
  destruct (re_match (pattern sg attr) v) as [caps|] eqn:E.
  - left. destruct (re_match_some _ _ _ E) as [rest H]. apply (proj1 (M_carries _ _ _ _ _)) in H.
    destruct H as (r & l & -> & H). exists r, l, rest. split; auto. split; auto. unfold caps_of.
    destruct (root_first (format_of sg attr)); reflexivity.
  - right. split; [|reflexivity]. intros r l rest H.
    apply (proj1 (re_match_none _ _) E (caps_of sg attr r l) rest). apply M_carries. eauto.
Qed.

(** Priority: the longest root, then the longest (or first valid) location *)
Lemma head_lit l es s c : hd_error (rx (RLit l :: es) s) = Some c ->
  exists x s', s = x ++ s' /\ lower x = lower l /\ hd_error (rx es s') = Some c.
Proof.
  simpl. destruct (strip_ci l s) as [[x r]|] eqn:E; [|discriminate].
  apply (proj1 (strip_ci_some _ _ _ _)) in E. destruct E. eauto.
Qed.
Lemma head_map {A} (x : A) ls c : hd_error (map (cons x) ls) = Some c ->
  exists c', c = x :: c' /\ hd_error ls = Some c'.
Proof. destruct ls; simpl; [discriminate|]. intro H. injection H as <-. eauto. Qed.
Lemma head_plus ok es s c : hd_error (rx (RPlus ok :: es) s) = Some c ->
  exists a s' c', s = a ++ s' /\ c = a :: c' /\ hd_error (rx es s') = Some c' /\
    forall a2 s2 caps rest, s = a2 ++ s2 -> a2 <> "" -> all_chars ok a2 = true -> M es s2 caps rest ->
      String.length a2 <= String.length a.
Proof.
  simpl. intro H. destruct (hd_flat_map _ _ _ H) as (l1 & [a b] & l2 & El & H1 & H2). simpl in H2.
  destruct (head_map _ _ _ H2) as (c' & -> & H3).
  assert (Hin : In (a, b) (splits ok s)) by (rewrite El; apply in_app_iff; right; left; auto).
  apply (proj1 (splits_in _ _ _ _)) in Hin. destruct Hin as (-> & Ha & Hok).
  exists a, b, c'. split; auto. split; auto. split; auto.
  intros a2 s2 caps rest Es Ha2 Hok2 Hm. destruct (Nat.le_gt_cases (String.length a2) (String.length a)) as [|Hlt]; auto.
  exfalso. assert (Hin : In (a2, s2) l1).
  { apply (splits_sorted ok (a ++ b) l1 a b l2 El); auto. apply splits_in. auto. }
  specialize (H1 _ Hin). simpl in H1.
  assert (Hc : In caps (rx es s2)) by (apply rx_iff; eauto). destruct (rx es s2); [destruct Hc|discriminate].
Qed.
Lemma head_alt ws es s c : hd_error (rx (RAlt ws :: es) s) = Some c ->
  exists ws1 w ws2 x s' c', ws = (ws1 ++ w :: ws2)%list /\ s = x ++ s' /\ lower x = lower w /\ c = x :: c' /\
    hd_error (rx es s') = Some c' /\
    forall w2 x2 s2 caps rest, In w2 ws1 -> s = x2 ++ s2 -> lower x2 = lower w2 -> ~ M es s2 caps rest.
Proof.
  simpl. intro H. destruct (hd_flat_map _ _ _ H) as (ws1 & w & ws2 & El & H1 & H2). simpl in H2.
  destruct (strip_ci w s) as [[x r]|] eqn:E; [|discriminate].
  apply (proj1 (strip_ci_some _ _ _ _)) in E. destruct E as [-> E].
  destruct (head_map _ _ _ H2) as (c' & -> & H3).
  exists ws1, w, ws2, x, r, c'. split; auto. split; auto. split; auto. split; auto. split; auto.
  intros w2 x2 s2 caps rest Hin Es Hx Hm. specialize (H1 w2 Hin).
  assert (Hs : strip_ci w2 (x ++ r) = Some (x2, s2)) by (apply strip_ci_some; auto).
  cbv beta in H1. rewrite Hs in H1.
  assert (Hc : In caps (rx es s2)) by (apply rx_iff; eauto). destruct (rx es s2); [destruct Hc|discriminate].
Qed.

(** Among all ways of reading [v], the one returned *)
Definition preferred (sg : sgloc) (attr v r l : string) : Prop :=
  (forall r2 l2 rest2, carries sg attr v r2 l2 rest2 -> String.length r2 <= String.length r) /\
  (valid_locations sg = [] ->
     forall l2 rest2, carries sg attr v r l2 rest2 -> String.length l2 <= String.length l) /\
  (valid_locations sg <> [] ->
     exists ws1 w ws2, valid_locations sg = (ws1 ++ w :: ws2)%list /\ lower l = lower w /\
       forall w2 l2 rest2, In w2 ws1 -> lower l2 = lower w2 -> ~ carries sg attr v r l2 rest2).
Lemma match_preferred sg attr v r l : root_first (format_of sg attr) = true ->
  re_match (pattern sg attr) v = Some [r; l] -> preferred sg attr v r l.
Proof.
  intros Hf H. unfold re_match, pattern in H. rewrite Hf in H.
  destruct (head_lit _ _ _ _ H) as (p & s1 & -> & Hp & H1).
  destruct (head_plus _ _ _ _ H1) as (r' & s2 & c1 & -> & Ec & H2 & HL). injection Ec as <- <-.
  destruct (head_lit _ _ _ _ H2) as (m & s3 & -> & Hm & H3).
  (* any reading *)
  assert (HC : forall r2 l2 rest2, carries sg attr (p ++ r ++ m ++ s3) r2 l2 rest2 ->
     exists m2 q2, r ++ m ++ s3 = r2 ++ m2 ++ l2 ++ q2 ++ rest2 /\ r2 <> "" /\
       all_chars (root_class attr) r2 = true /\ is_location sg l2 /\
       lower m2 = lower (mid (format_of sg attr)) /\ lower q2 = lower (post (format_of sg attr))).
  { intros r2 l2 rest2 (Hr & Hl & p2 & m2 & q2 & Hp2 & Hm2 & Hq2 & Hv). rewrite Hf in Hv.
    destruct (sapp_inv_len p _ p2 _ Hv) as [-> Hv'].
    { apply lower_eq_len. congruence. }
    exists m2, q2. destruct Hr as [Hr1 Hr2]. auto 10. }
  assert (HR : forall l2 rest2, carries sg attr (p ++ r ++ m ++ s3) r l2 rest2 ->
     exists q2, s3 = l2 ++ q2 ++ rest2 /\ is_location sg l2 /\ lower q2 = lower (post (format_of sg attr))).
  { intros l2 rest2 Hc. destruct (HC _ _ _ Hc) as (m2 & q2 & Hv & _ & _ & Hl & Hm2 & Hq2).
    apply sapp_inv_head in Hv. destruct (sapp_inv_len m _ m2 _ Hv) as [-> Hv'].
    { apply lower_eq_len. congruence. }
    eauto. }
  split; [|split].
  - intros r2 l2 rest2 Hc. destruct (HC _ _ _ Hc) as (m2 & q2 & Hv & Hr1 & Hr2 & Hl & Hm2 & Hq2).
    apply (HL r2 (m2 ++ l2 ++ q2 ++ rest2) [l2] rest2); auto.
    constructor; auto. apply M_loc. exists l2, (q2 ++ rest2), []. split; auto. split; auto. split; auto.
    constructor; auto. constructor.
  - intros Hv l2 rest2 Hc. destruct (HR _ _ Hc) as (q2 & Es & Hl & Hq).
    unfold loc_elem in H3. rewrite Hv in H3.
    destruct (head_plus _ _ _ _ H3) as (l' & s4 & c2 & Es3 & Ec & H4 & HL2). injection Ec as <- <-.
    unfold is_location in Hl. rewrite Hv in Hl. destruct Hl as [Hl1 Hl2].
    apply (HL2 l2 (q2 ++ rest2) [] rest2); auto. constructor; auto. constructor.
  - intros Hv. unfold loc_elem in H3. destruct (valid_locations sg) as [|w0 ws0] eqn:Ev; [congruence|].
    destruct (head_alt _ _ _ _ H3) as (ws1 & w & ws2 & x & s' & c' & Ew & Es & Hx & Ec & H4 & HN).
    injection Ec as <- <-. exists ws1, w, ws2. split; [exact Ew|]. split; [exact Hx|].
    intros w2 l2 rest2 Hin Hlo Hc. destruct (HR _ _ Hc) as (q2 & Es2 & Hl & Hq).
    apply (HN w2 l2 (q2 ++ rest2) [] rest2 Hin Es2 Hlo). constructor; auto. constructor.
Qed.
Lemma parse_preferred sg attr v r l : known_attr attr -> root_first (format_of sg attr) = true ->
  parse_attr sg attr v = Ok (r, Some l) ->
  exists l' rest, l = lower l' /\ carries sg attr v r l' rest /\ preferred sg attr v r l'.
Proof.
  intros Hk Hf H. destruct (parse_cases sg attr v Hk) as [(r' & l' & rest & Hm & Hc & Hp)|[_ Hp]]; rewrite Hp in H; [|discriminate].
  injection H as <- <-. exists l', rest. split; auto. split; auto. apply match_preferred; auto.
  rewrite Hm. unfold caps_of. now rewrite Hf.
Qed.

(** Formats with a separator: the root is found back *)
Definition all_letters (sg : sgloc) : Prop := forall w, In w (valid_locations sg) -> letters w.
Lemma location_letters sg l : all_letters sg -> is_location sg l -> letters l.
Proof.
  unfold all_letters, is_location, letters. destruct (valid_locations sg) as [|w ws]; [auto|].
  intros H (w' & Hin & E). destruct (H w' Hin) as [H1 H2]. split.
  - intros ->. destruct w'; [congruence|discriminate].
  - now rewrite (letters_ci _ _ E).
Qed.
Lemma root_unique sg attr p r m l q : let f := format_of sg attr in
  root_first f = true -> starts_non_letter (mid f) -> all_letters sg ->
  lower p = lower (pre f) -> lower m = lower (mid f) -> lower q = lower (post f) -> letters l ->
  forall r2 l2 rest2, carries sg attr (p ++ r ++ m ++ l ++ q) r2 l2 rest2 ->
    String.length r <= String.length r2 ->
    r2 = r /\ exists q2, l ++ q = l2 ++ q2 ++ rest2 /\ lower q2 = lower (post f).
Proof.
  cbn zeta. intros Hf Hm Ha Ep Em Eq Hl r2 l2 rest2 (Hr2 & Hl2 & p2 & m2 & q2 & Hp2 & Hm2 & Hq2 & Hv) Hlen.
  rewrite Hf in Hv. destruct (sapp_inv_len p _ p2 _ Hv) as [-> Hv1].
  { apply lower_eq_len. congruence. }
  destruct (sapp_split r _ r2 _ Hv1 Hlen) as (x & -> & Hx).
  destruct (mid (format_of sg attr)) as [|c mid'] eqn:Emid; [destruct Hm|]. simpl in Hm.
  destruct m as [|c1 m']; [discriminate|].
  assert (Hc1 : c1 = c).
  { simpl in Em. injection Em as Em _. rewrite (lower_ascii_not_letter c) in Em by auto. now apply lower_not_letter. }
  subst c1. destruct x as [|c2 x].
  - rewrite sapp_nil_r. split; [reflexivity|]. simpl in Hx.
    destruct m2 as [|c3 m2]; [discriminate|]. simpl in Hx. injection Hx as <- Hx.
    destruct (sapp_inv_len m' _ m2 _ Hx) as [-> Hx'].
    { assert (E : lower (String c m') = lower (String c m2)) by congruence. apply lower_eq_len in E. simpl in E. lia. }
    eauto.
  - exfalso. simpl in Hx. injection Hx as <- Hx.
    assert (EC := f_equal (count c) Hx). rewrite !count_app in EC.
    destruct Hl as [_ Hl]. rewrite (count_class c is_letter l) in EC by auto.
    destruct (location_letters sg l2 Ha Hl2) as [_ Hl2']. rewrite (count_class c is_letter l2) in EC by auto.
    rewrite (count_ci c q q2) in EC by (auto; congruence).
    assert (E2 : count c m2 = count c (String c m')) by (apply count_ci; auto; congruence).
    simpl in E2. rewrite Ascii.eqb_refl in E2. lia.
Qed.

(** The end of the format does not hide the location *)
Definition clear_end (sg : sgloc) (attr loc : string) : Prop :=
  let e := post (format_of sg attr) in
  (e = "" \/ starts_non_letter e) /\
  (starts_non_letter e \/ forall w x, In w (valid_locations sg) -> lower loc = lower w ++ x -> x = "").
Lemma valid_location_nonempty sg l : all_letters sg -> is_location sg l -> l <> "".
Proof. intros Ha Hl. now destruct (location_letters sg l Ha Hl). Qed.
Lemma snl_ci a b : lower a = lower b -> starts_non_letter a -> starts_non_letter b.
Proof.
  destruct a as [|c a], b as [|d b]; simpl; try discriminate; auto. intros E H. injection E as E _.
  rewrite <- is_letter_lower, <- E, is_letter_lower. exact H.
Qed.
Lemma roundtrip_root sg attr root loc : let f := format_of sg attr in
  known_attr attr -> root_first f = true -> starts_non_letter (mid f) -> all_letters sg ->
  is_root attr root -> letters loc -> is_location sg loc ->
  exists l, parse_attr sg attr (apply_format f root loc) = Ok (root, Some (lower l)) /\
    is_location sg l /\ (exists x, loc ++ post f = l ++ x) /\
    (clear_end sg attr loc -> lower l = lower loc).
Proof.
  cbn zeta. intros Hk Hf Hm Ha Hr Hl Hloc. set (f := format_of sg attr) in *.
  set (v := apply_format f root loc).
  assert (Ev : v = pre f ++ root ++ mid f ++ loc ++ post f) by (unfold v, apply_format; now rewrite Hf).
  assert (Hc : carries sg attr v root loc "").
  { split; auto. split; auto. exists (pre f), (mid f), (post f). fold f. rewrite Hf, sapp_nil_r. auto. }
  destruct (parse_cases sg attr v Hk) as [(r2 & l2 & rest & Hma & Hc2 & Hp)|[Hno _]]; [|exfalso; eapply Hno; eauto].
  assert (HP : preferred sg attr v r2 l2).
  { apply match_preferred; auto. rewrite Hma. unfold caps_of. fold f. now rewrite Hf. }
  destruct HP as (P1 & P2 & P3). specialize (P1 _ _ _ Hc).
  assert (Hc2' := Hc2). rewrite Ev in Hc2'.
  destruct (root_unique sg attr (pre f) root (mid f) loc (post f) Hf Hm Ha eq_refl eq_refl eq_refl Hl _ _ _ Hc2' P1)
    as [-> (q2 & Es & Eq2)]. fold f in Eq2.
  assert (Hl2 : is_location sg l2) by apply Hc2. assert (Ll2 := location_letters sg l2 Ha Hl2).
  exists l2. split; [exact Hp|]. split; [exact Hl2|]. split; [eauto|].
  intros [E1 E2]. fold f in E1, E2.
  destruct (Nat.lt_total (String.length loc) (String.length l2)) as [Hlt|[Heq|Hgt]].
  - exfalso. destruct (sapp_split loc _ l2 _ Es) as (x & El & Ex); [lia|].
    destruct x as [|c x]; [rewrite El, sapp_nil_r in Hlt; lia|].
    assert (Hcl : is_letter c = true).
    { destruct Ll2 as [_ L]. rewrite El, all_chars_app in L. apply andb_true_iff in L. destruct L as [_ L]. simpl in L.
      now apply andb_true_iff in L. }
    destruct E1 as [E1|E1]; [rewrite E1 in Ex; discriminate|]. rewrite Ex in E1. simpl in E1. congruence.
  - destruct (sapp_inv_len loc _ l2 _ Es Heq) as [-> _]. reflexivity.
  - symmetry in Es. destruct (sapp_split l2 _ loc _ Es) as (x & El & Ex); [lia|].
    destruct E2 as [E2|E2].
    + exfalso. destruct x as [|c x]; [rewrite El, sapp_nil_r in Hgt; lia|].
      assert (Hcl : is_letter c = true).
      { destruct Hl as [_ L]. rewrite El, all_chars_app in L. apply andb_true_iff in L. destruct L as [_ L]. simpl in L.
        now apply andb_true_iff in L. }
      apply (snl_ci _ q2) in E2; [|congruence]. destruct q2 as [|d q2]; [destruct E2|]. simpl in Ex, E2.
      injection Ex as -> _. congruence.
    + destruct (valid_locations sg) as [|w0 ws0] eqn:Ev0.
      * specialize (P2 eq_refl _ _ Hc). lia.
      * assert (Hl2' := Hl2). unfold is_location in Hl2'. rewrite Ev0 in Hl2'. destruct Hl2' as (w & Hin & Ew).
        specialize (E2 w (lower x) Hin). rewrite El, lower_app, Ew in *.
        rewrite (E2 eq_refl). now rewrite sapp_nil_r.
Qed.

(** Formats where the location comes first *)
Lemma match_loc_first sg attr v r l : root_first (format_of sg attr) = false ->
  re_match (pattern sg attr) v = Some [l; r] ->
  forall r2 rest2, carries sg attr v r2 l rest2 -> String.length r2 <= String.length r.
Proof.
  intros Hf H r2 rest2 Hc. unfold re_match, pattern in H. rewrite Hf in H.
  destruct (head_lit _ _ _ _ H) as (p & s1 & -> & Hp & H1).
  assert (HX : exists s3, s1 = l ++ s3 /\
     hd_error (rx [RLit (mid (format_of sg attr)); RPlus (root_class attr); RLit (post (format_of sg attr))] s3) = Some [r]).
  { unfold loc_elem in H1. destruct (valid_locations sg).
    - destruct (head_plus _ _ _ _ H1) as (l' & s2 & c1 & -> & Ec & H2 & HL). injection Ec as <- <-. eauto.
    - destruct (head_alt _ _ _ _ H1) as (ws1 & w & ws2 & x & s' & c' & Ew & Es & Hx & Ec & H4 & HN).
      injection Ec as <- <-. eauto. }
  destruct HX as (s3 & -> & H3). destruct (head_lit _ _ _ _ H3) as (m & s4 & -> & Hm & H4).
  destruct (head_plus _ _ _ _ H4) as (r' & s5 & c2 & -> & Ec & H5 & HL). injection Ec as <- <-.
  destruct Hc as (Hr & Hl & p2 & m2 & q2 & Hp2 & Hm2 & Hq2 & Hv). rewrite Hf in Hv.
  destruct (sapp_inv_len p _ p2 _ Hv) as [-> Hv1]. { apply lower_eq_len. congruence. }
  apply sapp_inv_head in Hv1. destruct (sapp_inv_len m _ m2 _ Hv1) as [-> Hv2]. { apply lower_eq_len. congruence. }
  destruct Hr as [Hr1 Hr2]. apply (HL r2 (q2 ++ rest2) [] rest2); auto. constructor; auto. constructor.
Qed.
Lemma roundtrip_loc_first sg attr root loc : let f := format_of sg attr in
  known_attr attr -> root_first f = false -> starts_non_letter (mid f) -> post f = "" -> all_letters sg ->
  is_root attr root -> letters loc -> is_location sg loc ->
  parse_attr sg attr (apply_format f root loc) = Ok (root, Some (lower loc)).
Proof.
  cbn zeta. intros Hk Hf Hm Hpo Ha Hr Hl Hloc. set (f := format_of sg attr) in *.
  set (v := apply_format f root loc).
  assert (Ev : v = pre f ++ loc ++ mid f ++ root) by (unfold v, apply_format; now rewrite Hf, Hpo, sapp_nil_r).
  assert (Hc : carries sg attr v root loc "").
  { split; auto. split; auto. exists (pre f), (mid f), (post f). fold f. rewrite Hf, sapp_nil_r, Hpo, sapp_nil_r. auto. }
  destruct (parse_cases sg attr v Hk) as [(r2 & l2 & rest & Hma & Hc2 & Hp)|[Hno _]]; [|exfalso; eapply Hno; eauto].
  assert (Hc3 := Hc2). destruct Hc2 as (Hr2 & Hl2 & p2 & m2 & q2 & Hp2 & Hm2 & Hq2 & Hv). fold f in Hp2, Hm2, Hq2, Hv.
  rewrite Hf, Ev in Hv.
  destruct (sapp_inv_len (pre f) _ p2 _ Hv) as [<- Hv1]. { apply lower_eq_len. congruence. }
  assert (Ll2 := location_letters sg l2 Ha Hl2).
  assert (Hm2' : starts_non_letter m2) by (apply (snl_ci (mid f)); [congruence|exact Hm]).
  assert (Hlen : String.length loc = String.length l2).
  { destruct (Nat.lt_total (String.length loc) (String.length l2)) as [Hlt|[Heq|Hgt]]; auto; exfalso.
    - destruct (sapp_split loc _ l2 _ Hv1) as (x & El & Ex); [lia|].
      destruct x as [|c x]; [rewrite El, sapp_nil_r in Hlt; lia|].
      destruct Ll2 as [_ L]. rewrite El, all_chars_app in L. apply andb_true_iff in L. destruct L as [_ L]. simpl in L.
      apply andb_true_iff in L. destruct L as [L _]. destruct (mid f); [destruct Hm|]. simpl in Ex, Hm. injection Ex as -> _. congruence.
    - symmetry in Hv1. destruct (sapp_split l2 _ loc _ Hv1) as (x & El & Ex); [lia|].
      destruct x as [|c x]; [rewrite El, sapp_nil_r in Hgt; lia|].
      destruct Hl as [_ L]. rewrite El, all_chars_app in L. apply andb_true_iff in L. destruct L as [_ L]. simpl in L.
      apply andb_true_iff in L. destruct L as [L _]. destruct m2; [destruct Hm2'|]. simpl in Ex, Hm2'. injection Ex as -> _. congruence. }
  destruct (sapp_inv_len loc _ l2 _ Hv1 Hlen) as [<- Hv2].
  destruct (sapp_inv_len (mid f) _ m2 _ Hv2) as [<- Hv3]. { apply lower_eq_len. congruence. }
  assert (HL : String.length root <= String.length r2).
  { apply (match_loc_first sg attr v r2 loc) with (rest2 := ""); auto. rewrite Hma. unfold caps_of. fold f. now rewrite Hf. }
  rewrite Hp. f_equal. f_equal.
  assert (E := f_equal String.length Hv3). rewrite !slen_app in E.
  destruct (sapp_inv_len root "" r2 (q2 ++ rest)) as [-> _]; auto; [now rewrite sapp_nil_r|lia].
Qed.
