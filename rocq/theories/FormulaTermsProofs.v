From Verif Require Import PyReFacts PyDictFacts FormulaTerms FormulaTermsSpec.
From Coq Require Import Lia.
Open Scope string_scope.

Lemma space_not_word c : is_space c = true -> is_word c = false.
Proof. destruct c as [[] [] [] [] [] [] [] []]; vm_compute; auto. Qed.
Lemma colon_not_space : is_space ":" = false. Proof. reflexivity. Qed.
Lemma colon_not_word : is_word ":" = false. Proof. reflexivity. Qed.

Lemma last_of_app prev x c : last_of prev (x ++ String c "") = Some c.
Proof. revert prev; induction x as [|d x IH]; intro; cbn; auto. Qed.
Lemma snoc_cases x : x = "" \/ exists y c, x = y ++ String c "".
Proof.
  induction x as [|c x [-> | (y & d & ->)]]; auto; right.
  - exists "", c; auto.
  - exists (String c y), d; auto.
Qed.
Lemma snoc_inj a b c d : a ++ String c "" = b ++ String d "" -> a = b /\ c = d.
Proof.
  intro H. assert (L : String.length a = String.length b).
  { apply (f_equal String.length) in H. rewrite !slen_app in H. cbn in H. lia. }
  destruct (sapp_inv_len _ _ _ _ H L) as (-> & E). split; congruence.
Qed.
Lemma blank_last x prev : x <> "" -> blank x -> wordy (last_of prev x) = false.
Proof.
  intros Hx Hb. destruct (snoc_cases x) as [-> | (y & c & ->)]; [easy|].
  rewrite last_of_app. cbn. apply space_not_word. unfold blank in Hb.
  rewrite all_chars_app in Hb. apply andb_prop in Hb as [_ Hb]. cbn in Hb.
  now apply andb_prop in Hb as [Hb _].
Qed.
Lemma blank_cons c x : blank (String c x) <-> is_space c = true /\ blank x.
Proof. unfold blank; cbn. now rewrite andb_true_iff. Qed.
Lemma blank_app a b : blank (a ++ b) <-> blank a /\ blank b.
Proof. unfold blank. now rewrite all_chars_app, andb_true_iff. Qed.

(** Two decompositions into blanks followed by a non-blank character *)
Lemma blank_split x : forall y c d r r', blank x -> blank y -> is_space c = false -> is_space d = false ->
  x ++ String c r = y ++ String d r' -> x = y /\ String c r = String d r'.
Proof.
  induction x as [|e x IH]; intros [|f y] c d r r' Hx Hy Hc Hd; cbn; intro E.
  - auto.
  - apply blank_cons in Hy as [Hf _]. injection E as -> _. congruence.
  - apply blank_cons in Hx as [Hf _]. injection E as -> _. congruence.
  - injection E as -> E. apply blank_cons in Hx as [_ Hx]. apply blank_cons in Hy as [_ Hy].
    destruct (IH _ _ _ _ _ Hx Hy Hc Hd E) as (-> & ->). auto.
Qed.
Lemma word_not_space c : is_word c = true -> is_space c = false.
Proof. intro H. destruct (is_space c) eqn:E; auto. apply space_not_word in E. congruence. Qed.

Lemma m_terms_ok prev s x r : m_terms prev s = Some (x, r) <->
  wordy prev = true /\ s = x ++ r /\ x <> "" /\ blank x /\ wordy (head_of r) = true.
Proof.
  unfold m_terms. split.
  - intro H. destruct (bound prev s) eqn:Eb; [|easy].
    apply find_some in H as [Hin Hb]. cbn [fst snd] in Hb.
    apply splits_in in Hin as (-> & Hx & Hc).
    assert (Hl := blank_last x prev Hx Hc).
    unfold bound in Hb, Eb. rewrite Hl in Hb. cbn in Hb.
    destruct x as [|c x]; [easy|]. cbn in Eb.
    apply (proj1 (blank_cons c x)) in Hc as Hc'. rewrite (space_not_word c) in Eb by apply Hc'.
    rewrite xorb_false_r in Eb. split; [auto|]. split; [auto|]. split; [auto|]. split; [auto|]. now destruct (wordy (head_of r)).
  - intros (Hp & -> & Hx & Hb & Hr).
    assert (Eb : bound prev (x ++ r) = true).
    { unfold bound. destruct x as [|c x]; [easy|]. cbn.
      apply (proj1 (blank_cons c x)) in Hb as Hc. rewrite (space_not_word c) by apply Hc.
      now rewrite Hp. }
    rewrite Eb.
    destruct (find _ (splits is_space (x ++ r))) as [[x' r']|] eqn:Ef.
    + apply find_some in Ef as [Hin Hb']. cbn [fst snd] in Hb'.
      apply splits_in in Hin as (E & Hx' & Hc').
      unfold bound in Hb'. rewrite (blank_last x' prev Hx' Hc'), xorb_false_l in Hb'.
      destruct r as [|c r]; [easy|]. destruct r' as [|c' r']; [easy|]. cbn in Hr, Hb'.
      destruct (blank_split x x' c c' r r' Hb Hc' (word_not_space _ Hr) (word_not_space _ Hb') E) as (-> & ->).
      reflexivity.
    + apply find_none with (x := (x, r)) in Ef.
      * cbn [fst snd] in Ef. unfold bound in Ef. rewrite (blank_last x prev Hx Hb), Hr in Ef. easy.
      * apply splits_in. auto.
Qed.

(** [prev] is the character before the position, as far as words are concerned *)
Definition prev_ok (prev : option ascii) (cur : string) : Prop :=
  (forall a w, cur = a ++ String w "" -> prev = Some w) /\ (wordy prev = true -> cur <> "").
Lemma prev_ok_word prev cur : prev_ok prev cur -> wordy prev = true ->
  exists a w, cur = a ++ String w "" /\ is_word w = true.
Proof.
  intros [H1 H2] H. destruct (snoc_cases cur) as [-> | (a & w & ->)]; [now destruct (H2 H)|].
  exists a, w. split; auto. specialize (H1 _ _ eq_refl). now rewrite H1 in H.
Qed.
Lemma prev_ok_snoc c cur : prev_ok (Some c) (cur ++ String c "").
Proof.
  split.
  - intros a w E. apply snoc_inj in E as [_ ->]. auto.
  - intros _ E. destruct cur; easy.
Qed.
Lemma prev_ok_blank x prev : x <> "" -> blank x -> prev_ok (last_of prev x) "".
Proof.
  intros Hx Hb. split; [intros [|? ?] w E; easy|]. rewrite (blank_last x prev Hx Hb). easy.
Qed.
Lemma cur_snoc cur c s : (cur ++ String c "") ++ s = cur ++ String c s.
Proof. now rewrite sapp_assoc. Qed.

Lemma split_nogap fuel : forall prev cur s, prev_ok prev cur -> String.length s < fuel ->
  ~ has_gap (cur ++ s) -> re_split m_terms fuel prev cur s = [cur ++ s].
Proof.
  induction fuel as [|fuel IH]; intros prev cur s Hp Hf Hg; [lia|].
  cbn. destruct (m_terms prev s) as [[x r]|] eqn:Em.
  - exfalso. apply (proj1 (m_terms_ok _ _ _ _)) in Em as (Hw & -> & Hx & Hb & Hr).
    destruct (prev_ok_word _ _ Hp Hw) as (a & w & -> & Hw1). destruct r as [|w2 r]; [easy|].
    apply Hg. exists a, w, x, w2, r. unfold gap_at. rewrite sapp_assoc. cbn. auto.
  - destruct s as [|c s]; [now rewrite sapp_nil_r|].
    rewrite IH; [now rewrite cur_snoc|apply prev_ok_snoc|cbn in Hf; lia|now rewrite cur_snoc].
Qed.

Lemma split_first fuel : forall q prev cur x w2 b p w1,
  cur ++ q = p ++ String w1 "" -> prev_ok prev cur -> is_word w1 = true -> is_word w2 = true ->
  x <> "" -> blank x -> ~ has_gap (p ++ String w1 "") ->
  String.length (q ++ x ++ String w2 b) < fuel ->
  exists fuel' prev', String.length (String w2 b) < fuel' /\ prev_ok prev' "" /\
  re_split m_terms fuel prev cur (q ++ x ++ String w2 b) =
    (p ++ String w1 "") :: re_split m_terms fuel' prev' "" (String w2 b).
Proof.
  induction fuel as [|fuel IH]; intros q prev cur x w2 b p w1 Eq Hp H1 H2 Hx Hb Hg Hf; [lia|].
  cbn [re_split]. destruct q as [|c q].
  - rewrite sapp_nil_r in Eq. subst cur. cbn [append].
    assert (Em : m_terms prev (x ++ String w2 b) = Some (x, String w2 b)).
    { apply m_terms_ok. destruct Hp as [Hp _]. rewrite (Hp _ _ eq_refl). auto. }
    rewrite Em. exists fuel, (last_of prev x). split; [|split; [now apply prev_ok_blank|auto]].
    cbn [append] in Hf. rewrite slen_app in Hf. destruct x; [easy|]. cbn in Hf |- *. lia.
  - destruct (m_terms prev (String c q ++ x ++ String w2 b)) as [[x' r']|] eqn:Em.
    + exfalso. apply (proj1 (m_terms_ok _ _ _ _)) in Em as (Hw & E & Hx' & Hb' & Hr).
      destruct (prev_ok_word _ _ Hp Hw) as (a & w & Ec & Hw1).
      destruct (snoc_cases (String c q)) as [|(q' & w1' & Eq')]; [easy|].
      assert (w1' = w1) by (rewrite Eq', <- sapp_assoc in Eq; apply snoc_inj in Eq; tauto). subst w1'.
      rewrite Eq' in E.
      destruct (Nat.le_gt_cases (String.length (q' ++ String w1 "")) (String.length x')) as [L|L].
      * destruct (sapp_split _ _ _ _ E L) as (z & Ez & _). subst x'.
        apply blank_app in Hb' as [Hb' _]. apply blank_app in Hb' as [_ Hb'].
        apply blank_cons in Hb' as [Hs _]. apply space_not_word in Hs. congruence.
      * symmetry in E. apply sapp_split in E as (z & Ez & Ez'); [|lia].
        destruct z as [|d z]; [rewrite sapp_nil_r in Ez; rewrite Ez in L; lia|].
        rewrite Ez' in Hr. cbn in Hr.
        apply Hg. exists a, w, x', d, z. unfold gap_at.
        rewrite <- Eq, Eq', Ez, Ec, sapp_assoc. cbn. auto.
    + change (String c q ++ x ++ String w2 b) with (String c (q ++ x ++ String w2 b)).
      cbv iota. apply IH; auto.
      * now rewrite cur_snoc.
      * apply prev_ok_snoc.
      * cbn in Hf. lia.
Qed.

Lemma pieces_split l s : pieces l s -> forall fuel prev, String.length s < fuel -> prev_ok prev "" ->
  re_split m_terms fuel prev "" s = l.
Proof.
  induction 1 as [s Hg|a w1 x w2 b l H1 H2 Hx Hb Hg Hp IH]; intros fuel prev Hf Hpr.
  - now rewrite split_nogap.
  - assert (E : a ++ String w1 (x ++ String w2 b) = (a ++ String w1 "") ++ x ++ String w2 b)
      by now rewrite sapp_assoc.
    rewrite E in Hf |- *.
    destruct (split_first fuel (a ++ String w1 "") prev "" x w2 b a w1) as (f' & p' & Hf' & Hp' & ->); auto.
    now rewrite IH.
Qed.

(** The pieces produced by the scan *)
Definition gaps_late (cur s : string) : Prop :=
  forall a w1 x w2 b, gap_at (cur ++ s) a w1 x w2 b -> String.length cur <= String.length a + 1.
Lemma split_pieces fuel : forall prev cur s, prev_ok prev cur -> gaps_late cur s -> String.length s < fuel ->
  pieces (re_split m_terms fuel prev cur s) (cur ++ s).
Proof.
  induction fuel as [|fuel IH]; intros prev cur s Hp Hg Hf; [lia|].
  cbn [re_split]. destruct (m_terms prev s) as [[x r]|] eqn:Em.
  - apply (proj1 (m_terms_ok _ _ _ _)) in Em as (Hw & -> & Hx & Hb & Hr).
    destruct (prev_ok_word _ _ Hp Hw) as (a & w & -> & Hw1). destruct r as [|w2 r]; [easy|].
    rewrite sapp_assoc. cbn [append]. constructor; auto.
    + intros (a' & w1 & x' & w2' & b & E & G).
      assert (L : String.length (a ++ String w "") <= String.length a' + 1).
      { apply (Hg a' w1 x' w2' (b ++ x ++ String w2 r)). unfold gap_at. split; [|exact G].
        rewrite E. rewrite !sapp_assoc. cbn. now rewrite sapp_assoc. }
      rewrite E, slen_app in L. cbn in L. rewrite slen_app in L. cbn in L. lia.
    + change (String w2 r) with ("" ++ String w2 r) at 2. apply IH.
      * now apply prev_ok_blank.
      * intros a' ? ? ? ? _. cbn. lia.
      * rewrite slen_app in Hf. destruct x; [easy|]. cbn in Hf |- *. lia.
  - destruct s as [|c s].
    + rewrite sapp_nil_r. constructor. intros (a & w1 & x & w2 & b & G).
      assert (L := Hg a w1 x w2 b). rewrite sapp_nil_r in L. specialize (L G).
      destruct G as (E & _). rewrite E, slen_app in L. cbn in L. rewrite slen_app in L. cbn in L. lia.
    + rewrite <- (cur_snoc cur c s). apply IH.
      * apply prev_ok_snoc.
      * intros a w1 x w2 b G. rewrite cur_snoc in G. assert (L := Hg _ _ _ _ _ G).
        rewrite slen_app. cbn.
        destruct (Nat.eq_dec (String.length cur) (String.length a + 1)) as [El|]; [exfalso|lia].
        destruct G as (E & H1 & H2 & Hx & Hb).
        assert (E' : cur ++ String c s = (a ++ String w1 "") ++ x ++ String w2 b)
          by (rewrite E, sapp_assoc; reflexivity).
        apply sapp_inv_len in E' as (-> & E'); [|rewrite slen_app; cbn; lia].
        assert (Em' : m_terms prev (String c s) = Some (x, String w2 b)).
        { apply m_terms_ok. destruct Hp as [Hp _]. rewrite (Hp _ _ eq_refl). auto. }
        congruence.
      * cbn in Hf. lia.
Qed.

Lemma pieces_exist s : pieces (split_with m_terms s) s.
Proof.
  unfold split_with. change s with ("" ++ s) at 3. apply split_pieces.
  - split; [intros [|? ?] ? E; easy|easy].
  - intros ? ? ? ? ? _. cbn. lia.
  - lia.
Qed.
Lemma pieces_unique l s : pieces l s -> split_with m_terms s = l.
Proof.
  intro H. apply (pieces_split l s H); [lia|]. split; [intros [|? ?] ? E; easy|easy].
Qed.

(** *** Items *)
Lemma colons_app a b : colons (a ++ b) = colons a + colons b.
Proof. induction a; cbn; auto. rewrite IHa. lia. Qed.
Lemma colons_class ok s : ok ":"%char = false -> all_chars ok s = true -> colons s = 0.
Proof.
  intros Ho. induction s as [|c s IH]; cbn; auto. intro H. apply andb_prop in H as [Hc H].
  destruct (Ascii.eqb_spec c ":"); [subst; congruence|]. now rewrite IH.
Qed.
Lemma colons_zero_not s x y : colons s = 0 -> s <> x ++ String ":" y.
Proof. intros H ->. rewrite colons_app in H. cbn in H. lia. Qed.
Lemma starts_colon_ok s : starts_colon s = true -> exists r, s = String ":" r.
Proof. destruct s as [|c r]; [easy|]. cbn. intro H. apply Ascii.eqb_eq in H as ->. eauto. Qed.

Lemma splits0_in s a b : In (a, b) (splits0 s) <-> s = a ++ b /\ blank a.
Proof.
  unfold splits0. rewrite in_app_iff, splits_in. cbn. split.
  - intros [(-> & _ & H) | [E | []]]; [auto|]. injection E as <- <-. now split.
  - intros (-> & H). destruct a; [right; left; auto|left]. repeat split; auto. easy.
Qed.
Lemma splits0_hd s : exists a l, splits0 s = (a, lstrip s) :: l /\ s = a ++ lstrip s /\ blank a.
Proof.
  induction s as [|c s (a & l & E & E1 & E2)]; [now exists "", []|].
  unfold splits0 in *. cbn [splits lstrip]. destruct (is_space c) eqn:Ec.
  - destruct (splits is_space s) as [|[a' b'] l'] eqn:Es.
    + cbn in E. injection E as <- _ _. cbn.
      exists (String c ""). eexists. split; [|split; [|now apply blank_cons]].
      * assert (Hl : s = lstrip s) by exact E1. rewrite <- Hl. reflexivity.
      * exact (f_equal (String c) E1).
    + cbn in E. injection E as -> -> _. cbn. eexists (String c a), _. split; [reflexivity|].
      split; [exact (f_equal (String c) E1)|]. now apply blank_cons.
  - exists "", []. split; [reflexivity|split; reflexivity].
Qed.
Lemma lstrip_colons s : colons (lstrip s) = colons s.
Proof.
  induction s as [|c s IH]; cbn; auto. destruct (is_space c) eqn:E; auto.
  rewrite IH. destruct (Ascii.eqb_spec c ":"); auto. subst. easy.
Qed.

Lemma m_item_none prev s : colons s = 0 -> m_item prev s = None.
Proof.
  intro H. unfold m_item. destruct (find _ _) as [[x r]|] eqn:E; auto.
  apply find_some in E as [Hin Hs]. cbn in Hs. apply starts_colon_ok in Hs as (r' & ->).
  apply splits0_in in Hin as (-> & _). exfalso. rewrite colons_app in H. cbn in H. lia.
Qed.
Lemma m_item_blank prev u v : blank u -> exists z, m_item prev (u ++ String ":" v) = Some (z, lstrip v) /\ (1 <= String.length z)%nat /\ u ++ String ":" v = z ++ lstrip v.
Proof.
  intro Hu. unfold m_item.
  assert (Hin : In (u, String ":" v) (splits0 (u ++ String ":" v))) by now apply splits0_in.
  destruct (find _ _) as [[x r]|] eqn:E.
  - apply find_some in E as [Hin' Hs]. cbn in Hs. apply starts_colon_ok in Hs as (r' & ->).
    apply splits0_in in Hin' as (E & Hx).
    apply blank_split in E as (-> & E); auto. injection E as <-.
    destruct (splits0_hd v) as (a & l & -> & E1 & _).
    exists (x ++ String ":" a). split; [auto|]. split; [rewrite slen_app; cbn; lia|].
    rewrite sapp_assoc. cbn. now rewrite <- E1.
  - apply find_none with (x := (u, String ":" v)) in E; auto. easy.
Qed.
Lemma m_item_nonblank prev u v : colons u = 0 -> ~ blank u -> m_item prev (u ++ String ":" v) = None.
Proof.
  intros Hc Hu. unfold m_item. destruct (find _ _) as [[x r]|] eqn:E; auto. exfalso.
  apply find_some in E as [Hin Hs]. cbn in Hs. apply starts_colon_ok in Hs as (r' & ->).
  apply splits0_in in Hin as (E & Hx).
  destruct (Nat.lt_trichotomy (String.length u) (String.length x)) as [L|[L|L]].
  - apply sapp_split in E as (z & -> & E'); [|lia]. apply blank_app in Hx as [_ Hz].
    destruct z as [|d z]; [rewrite sapp_nil_r in L; lia|]. cbn in E'. injection E' as <- _.
    apply blank_cons in Hz as [Hz _]. easy.
  - apply sapp_inv_len in E as (-> & _); auto.
  - symmetry in E. apply sapp_split in E as (z & -> & E'); [|lia].
    destruct z as [|d z]; [rewrite sapp_nil_r in L; lia|]. cbn in E'. injection E' as <- _.
    rewrite colons_app in Hc. cbn in Hc. lia.
Qed.
Lemma rstrip_blank u : blank u -> rstrip u = "".
Proof.
  induction u as [|c u IH]; auto. intro H. apply blank_cons in H as [Hc H]. cbn. now rewrite IH, Hc.
Qed.
Lemma rstrip_nonblank c u : ~ blank (String c u) -> rstrip (String c u) = String c (rstrip u).
Proof.
  intro H. cbn. destruct (rstrip u) eqn:E; auto. destruct (is_space c) eqn:Ec; auto.
  exfalso. apply H. apply blank_cons. split; auto. clear - E.
  induction u as [|d u IH]; [reflexivity|]. cbn in E. destruct (rstrip u); [|easy].
  destruct (is_space d) eqn:Ed; [|easy]. apply blank_cons; auto.
Qed.
Lemma blank_dec u : blank u \/ ~ blank u.
Proof. unfold blank. destruct (all_chars is_space u); auto. Qed.

Lemma item_last fuel : forall prev cur s, colons s = 0 -> String.length s < fuel ->
  re_split m_item fuel prev cur s = [cur ++ s].
Proof.
  induction fuel as [|fuel IH]; intros prev cur s Hc Hf; [lia|].
  cbn [re_split]. rewrite m_item_none by auto. destruct s as [|c s]; [now rewrite sapp_nil_r|].
  rewrite IH; [now rewrite cur_snoc| cbn in Hc; lia | cbn in Hf; lia].
Qed.
Lemma item_first u : forall fuel prev cur v, colons u = 0 -> String.length (u ++ String ":" v) < fuel ->
  exists fuel' prev', String.length (lstrip v) < fuel' /\ 
  re_split m_item fuel prev cur (u ++ String ":" v) = (cur ++ rstrip u) :: re_split m_item fuel' prev' "" (lstrip v).
Proof.
  induction u as [|c u IH]; intros fuel prev cur v Hc Hf; (destruct fuel as [|fuel]; [lia|]).
  - cbn [re_split]. destruct (m_item_blank prev "" v eq_refl) as (z & -> & Hz & Ez).
    rewrite sapp_nil_r. exists fuel. eexists. split; [|reflexivity].
    apply (f_equal String.length) in Ez. rewrite !slen_app in Ez. cbn in Ez, Hf. lia.
  - destruct (blank_dec (String c u)) as [Hb|Hb].
    + cbn [re_split]. destruct (m_item_blank prev (String c u) v Hb) as (z & -> & Hz & Ez).
      rewrite rstrip_blank, sapp_nil_r by auto. exists fuel. eexists. split; [|reflexivity].
      apply (f_equal String.length) in Ez. rewrite (slen_app z) in Ez. lia.
    + cbn [re_split]. rewrite m_item_nonblank by auto. cbn [append].
      destruct (IH fuel (Some c) (cur ++ String c "") v) as (f' & p' & Hf' & ->).
      { cbn in Hc. lia. } { cbn in Hf. lia. }
      exists f', p'. split; auto. rewrite rstrip_nonblank by auto. now rewrite sapp_assoc.
Qed.
Lemma colons_split s : colons s = 0 \/ exists u v, s = u ++ String ":" v /\ colons u = 0.
Proof.
  induction s as [|c s IH]; auto. cbn. destruct (Ascii.eqb_spec c ":") as [->|].
  - right. exists "", s. auto.
  - destruct IH as [IH | (u & v & -> & Hu)]; [auto|]. right. exists (String c u), v. split; auto.
    cbn. destruct (Ascii.eqb_spec c ":"); [easy|auto].
Qed.
Lemma item_length n : forall fuel prev cur s, colons s = n -> String.length s < fuel ->
  List.length (re_split m_item fuel prev cur s) = S n.
Proof.
  induction n as [|n IH]; intros fuel prev cur s Hc Hf.
  - now rewrite item_last.
  - destruct (colons_split s) as [|(u & v & -> & Hu)]; [lia|].
    destruct (item_first u fuel prev cur v Hu Hf) as (f' & p' & Hf' & ->). cbn. f_equal. apply IH; auto.
    rewrite lstrip_colons. rewrite colons_app in Hc. cbn in Hc. lia.
Qed.
Lemma split_item_length s : List.length (split_with m_item s) = S (colons s).
Proof. apply item_length; auto. Qed.
Lemma split_item_one s k v : split_with m_item s = [k; v] <-> item_of s k v.
Proof.
  split.
  - intro H. assert (L := split_item_length s). rewrite H in L. cbn in L.
    destruct (colons_split s) as [|(x & y & -> & Hx)]; [lia|].
    rewrite colons_app in L. cbn in L.
    assert (Hy : colons y = 0) by lia.
    unfold split_with in H.
    destruct (item_first x _ None "" y Hx (Nat.lt_succ_diag_r _)) as (f' & p' & Hf' & E).
    rewrite E in H. rewrite item_last in H by (rewrite ?lstrip_colons; auto).
    injection H as <- <-. exists x, y. auto.
  - intros (x & y & -> & Hx & Hy & -> & ->).
    unfold split_with. change (x ++ ":" ++ y) with (x ++ String ":" y).
    destruct (item_first x _ None "" y Hx (Nat.lt_succ_diag_r _)) as (f' & p' & Hf' & E).
    rewrite E. now rewrite item_last by (rewrite ?lstrip_colons; auto).
Qed.

