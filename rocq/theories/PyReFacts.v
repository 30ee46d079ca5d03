(** Facts on strings and on the regular expression matcher of PyRe. *)
From Verif Require Export PyRe PyDictFacts.
Open Scope string_scope.

(** ** Strings *)
Lemma slen_app a b : String.length (a ++ b) = String.length a + String.length b.
Proof. induction a; simpl; auto. Qed.
Lemma sapp_inv_len a : forall b c d, a ++ b = c ++ d -> String.length a = String.length c -> a = c /\ b = d.
Proof.
  induction a as [|x a IH]; intros b [|y c] d H Hl; simpl in *; try discriminate; auto.
  injection H as -> H. destruct (IH b c d H) as [-> ->]; auto.
Qed.
Lemma sapp_split a : forall b c d, a ++ b = c ++ d -> String.length a <= String.length c ->
  exists x, c = a ++ x /\ b = x ++ d.
Proof.
  induction a as [|x a IH]; intros b c d H Hl; simpl in *; [eauto|].
  destruct c as [|y c]; simpl in *; [lia|]. injection H as -> H.
  destruct (IH b c d H) as (z & -> & ->); [lia|eauto].
Qed.
Lemma sapp_inv_head a b c : a ++ b = a ++ c -> b = c.
Proof. induction a; simpl; intro H; auto. injection H; auto. Qed.
Lemma sapp_nil_r a : a ++ "" = a.
Proof. apply string_app_nil. Qed.
Lemma sapp_assoc a b c : (a ++ b) ++ c = a ++ b ++ c.
Proof. symmetry. apply string_app_assoc. Qed.
Lemma lower_app a b : lower (a ++ b) = lower a ++ lower b.
Proof. induction a; simpl; congruence. Qed.
Lemma lower_len a : String.length (lower a) = String.length a.
Proof. induction a; simpl; auto. Qed.
Lemma upper_len a : String.length (upper a) = String.length a.
Proof. induction a; simpl; auto. Qed.
Lemma lower_eq_len a b : lower a = lower b -> String.length a = String.length b.
Proof. intro H. rewrite <- (lower_len a), <- (lower_len b). now rewrite H. Qed.
Lemma lower_upper_ascii c : lower_ascii (upper_ascii c) = lower_ascii c.
Proof. destruct c as [[] [] [] [] [] [] [] []]; reflexivity. Qed.
Lemma lower_upper a : lower (upper a) = lower a.
Proof. induction a; simpl; auto. rewrite lower_upper_ascii. congruence. Qed.
Lemma upper_lower_ascii c : upper_ascii (lower_ascii c) = upper_ascii c.
Proof. destruct c as [[] [] [] [] [] [] [] []]; reflexivity. Qed.
Lemma upper_lower a : upper (lower a) = upper a.
Proof. induction a; simpl; auto. rewrite upper_lower_ascii. congruence. Qed.
Lemma upper_idem a : upper (upper a) = upper a.
Proof. rewrite <- (upper_lower (upper a)), lower_upper. apply upper_lower. Qed.
Lemma lower_capitalize a : lower (capitalize a) = lower a.
Proof. destruct a; simpl; auto. rewrite lower_upper_ascii, lower_idem. reflexivity. Qed.
Lemma nonempty_len s : nonempty s = true <-> 1 <= String.length s.
Proof. destruct s; simpl; split; intro; auto; try discriminate; lia. Qed.
Lemma nonempty_iff s : nonempty s = true <-> s <> "".
Proof. destruct s; simpl; split; congruence. Qed.

Lemma all_chars_app ok a b : all_chars ok (a ++ b) = all_chars ok a && all_chars ok b.
Proof. induction a; simpl; auto. now rewrite IHa, andb_assoc. Qed.
Lemma all_word_chars s : all_word s = all_chars is_word s.
Proof. induction s; simpl; congruence. Qed.
Lemma all_chars_mono (p q : ascii -> bool) s :
  (forall c, p c = true -> q c = true) -> all_chars p s = true -> all_chars q s = true.
Proof.
  intro H. induction s; simpl; auto. intro E. apply andb_true_iff in E. destruct E as [E1 E2].
  rewrite (H _ E1), IHs; auto.
Qed.
Lemma is_letter_lower c : is_letter (lower_ascii c) = is_letter c.
Proof. destruct c as [[] [] [] [] [] [] [] []]; reflexivity. Qed.
Lemma is_letter_upper c : is_letter (upper_ascii c) = is_letter c.
Proof. destruct c as [[] [] [] [] [] [] [] []]; reflexivity. Qed.
Lemma is_word_lower c : is_word (lower_ascii c) = is_word c.
Proof. destruct c as [[] [] [] [] [] [] [] []]; reflexivity. Qed.
Lemma is_word_upper c : is_word (upper_ascii c) = is_word c.
Proof. destruct c as [[] [] [] [] [] [] [] []]; reflexivity. Qed.
Lemma is_letter_word c : is_letter c = true -> is_word c = true.
Proof. destruct c as [[] [] [] [] [] [] [] []]; (reflexivity || discriminate). Qed.
Lemma letters_lower s : all_chars is_letter (lower s) = all_chars is_letter s.
Proof. induction s; simpl; auto. now rewrite is_letter_lower, IHs. Qed.
Lemma letters_upper s : all_chars is_letter (upper s) = all_chars is_letter s.
Proof. induction s; simpl; auto. now rewrite is_letter_upper, IHs. Qed.
Lemma letters_ci a b : lower a = lower b -> all_chars is_letter a = all_chars is_letter b.
Proof. intro H. rewrite <- letters_lower, H. apply letters_lower. Qed.

(** Number of occurrences of a character *)
Fixpoint count (c : ascii) (s : string) : nat :=
  match s with EmptyString => 0 | String d s' => (if Ascii.eqb d c then 1 else 0) + count c s' end.
Lemma count_app c a b : count c (a ++ b) = count c a + count c b.
Proof. induction a; simpl; auto. rewrite IHa. lia. Qed.
Lemma lower_not_letter c d : is_letter c = false -> lower_ascii d = c -> d = c.
Proof.
  intros Hc H. destruct d as [[] [] [] [] [] [] [] []]; try exact H; subst c; discriminate Hc.
Qed.
Lemma lower_ascii_not_letter c : is_letter c = false -> lower_ascii c = c.
Proof. destruct c as [[] [] [] [] [] [] [] []]; (reflexivity || discriminate). Qed.
Lemma count_lower c s : is_letter c = false -> count c (lower s) = count c s.
Proof.
  intro Hc. induction s as [|d s IH]; simpl; auto. rewrite IH. f_equal.
  destruct (Ascii.eqb_spec (lower_ascii d) c) as [E|E], (Ascii.eqb_spec d c) as [F|F]; auto.
  - exfalso. apply F. now apply lower_not_letter.
  - subst d. rewrite lower_ascii_not_letter in E by auto. congruence.
Qed.
Lemma count_ci c a b : is_letter c = false -> lower a = lower b -> count c a = count c b.
Proof. intros Hc H. rewrite <- (count_lower c a), <- (count_lower c b), H by auto. reflexivity. Qed.
Lemma count_class c ok s : ok c = false -> all_chars ok s = true -> count c s = 0.
Proof.
  intro Hc. induction s as [|d s IH]; simpl; intro H; auto. apply andb_true_iff in H. destruct H as [H1 H2].
  rewrite IH by auto. destruct (Ascii.eqb_spec d c); [congruence|reflexivity].
Qed.

(** ** The matcher *)
Lemma strip_ci_some p : forall s x r, strip_ci p s = Some (x, r) <-> s = x ++ r /\ lower x = lower p.
Proof.
  induction p as [|a p IH]; intros s x r; simpl.
  - split; [intro H; injection H as <- <-; auto|]. intros [-> H]. destruct x; [reflexivity|discriminate].
  - destruct s as [|b s].
    + split; [discriminate|]. intros [H1 H2]. destruct x; simpl in *; discriminate.
    + destruct (Ascii.eqb_spec (lower_ascii a) (lower_ascii b)) as [E|E].
      * destruct (strip_ci p s) as [[x' r']|] eqn:Es.
        -- apply (proj1 (IH _ _ _)) in Es. destruct Es as [-> Es]. split.
           ++ intro H. injection H as <- <-. simpl. split; [reflexivity|congruence].
           ++ intros [H1 H2]. destruct x as [|b' x]; [discriminate|]. simpl in *. injection H1 as <- H1.
              injection H2 as _ H2. destruct (sapp_inv_len x' r' x r H1) as [-> ->]; [|reflexivity].
              apply lower_eq_len. congruence.
        -- split; [discriminate|]. intros [H1 H2]. destruct x as [|b' x]; [discriminate|]. simpl in *.
           injection H1 as <- H1. injection H2 as _ H2.
           assert (Hc : strip_ci p s = Some (x, r)) by (apply IH; auto). congruence.
      * split; [discriminate|]. intros [H1 H2]. destruct x as [|b' x]; [discriminate|]. simpl in *.
        injection H1 as <- H1. injection H2 as H2 _. congruence.
Qed.
Lemma splits_in ok s : forall a b, In (a, b) (splits ok s) <-> s = a ++ b /\ a <> "" /\ all_chars ok a = true.
Proof.
  induction s as [|c s IH]; intros a b; simpl.
  - split; [intros []|]. intros (H & Ha & _). destruct a; [congruence|discriminate].
  - destruct (ok c) eqn:Ec.
    + rewrite in_app_iff, in_map_iff. split.
      * intros [([a' b'] & E & Hin)|[E|[]]].
        -- simpl in E. injection E as <- <-. apply (proj1 (IH _ _)) in Hin. destruct Hin as (-> & H1 & H2).
           simpl. rewrite Ec. split; [reflexivity|]. split; [discriminate|exact H2].
        -- injection E as <- <-. simpl. rewrite Ec. split; [reflexivity|]. split; [discriminate|reflexivity].
      * intros (H & Ha & Hok). destruct a as [|c' a]; [congruence|]. simpl in *. injection H as <- H.
        rewrite Ec in Hok. simpl in Hok. destruct a as [|c'' a].
        -- right. left. simpl in H. now rewrite H.
        -- left. exists (String c'' a, b). split; [reflexivity|]. apply IH. split; [exact H|]. split; [discriminate|exact Hok].
    + split; [intros []|]. intros (H & Ha & Hok). destruct a as [|c' a]; [congruence|]. simpl in *.
      injection H as <- H. rewrite Ec in Hok. discriminate.
Qed.
(** the longest first *)
Lemma splits_sorted ok s : forall l1 a b l2, splits ok s = (l1 ++ (a, b) :: l2)%list ->
  forall a' b', In (a', b') (splits ok s) -> String.length a < String.length a' -> In (a', b') l1.
Proof.
  induction s as [|c s IH]; intros l1 a b l2 H a' b' Hin Hlt.
  - destruct Hin.
  - simpl in *. destruct (ok c); [|destruct Hin].
    set (F := fun ab : string * string => (String c (fst ab), snd ab)) in *.
    apply in_app_iff in Hin. destruct Hin as [Hin|[E|[]]].
    + apply in_map_iff in Hin. destruct Hin as ([a0 b0] & E & Hin). unfold F in E. simpl in E. injection E as <- <-.
      (* position of (a,b): in the map or last *)
      destruct l2 as [|q l2].
      * apply app_inj_tail in H. destruct H as [<- _]. apply in_map_iff. exists (a0, b0). auto.
      * destruct (exists_last (l := q :: l2)) as (l3 & y & Ey); [discriminate|]. rewrite Ey in H.
        assert (H' : map F (splits ok s) = (l1 ++ (a, b) :: l3)%list).
        { change ((a, b) :: l3 ++ [y])%list with (((a, b) :: l3) ++ [y])%list in H. rewrite app_assoc in H.
          apply app_inj_tail in H. apply H. }
        destruct (map_eq_app _ _ _ _ H') as (m1 & m2 & Hs & H1 & H2).
        destruct m2 as [|[a2 b2] m2]; [discriminate|]. simpl in H2. unfold F at 1 in H2. simpl in H2.
        injection H2 as <- <- H2. rewrite <- H1. apply in_map_iff. exists (a0, b0). split; [reflexivity|].
        apply (IH m1 a2 b2 m2 Hs); auto. simpl in Hlt. lia.
    + injection E as <- <-. simpl in Hlt. assert (Ha : a = "") by (destruct a; [reflexivity|simpl in Hlt; lia]). subst a.
      exfalso. assert (Hin : In ("", b) (map F (splits ok s) ++ [(String c "", s)])).
      { rewrite H. apply in_app_iff. right. left. reflexivity. }
      apply in_app_iff in Hin. destruct Hin as [Hin|[E|[]]]; [|discriminate].
      apply in_map_iff in Hin. destruct Hin as (z & E & _). discriminate.
Qed.

(** Matches of a sequence *)
Inductive M : list relem -> string -> list string -> string -> Prop :=
| M_nil s : M [] s [] s
| M_lit l es x s caps rest : lower x = lower l -> M es s caps rest -> M (RLit l :: es) (x ++ s) caps rest
| M_plus ok es a s caps rest : a <> "" -> all_chars ok a = true -> M es s caps rest ->
    M (RPlus ok :: es) (a ++ s) (a :: caps) rest
| M_alt l es w x s caps rest : In w l -> lower x = lower w -> M es s caps rest ->
    M (RAlt l :: es) (x ++ s) (x :: caps) rest.
Lemma rx_iff es : forall s caps, In caps (rx es s) <-> exists rest, M es s caps rest.
Proof.
  induction es as [|e es IH]; intros s caps.
  - simpl. split; [intros [<-|[]]; eexists; constructor|]. intros [r H]. inversion H. auto.
  - destruct e as [l|ok|l]; simpl.
    + destruct (strip_ci l s) as [[x r]|] eqn:E.
      * apply (proj1 (strip_ci_some _ _ _ _)) in E. destruct E as [-> E]. rewrite IH. split.
        -- intros [rest H]. exists rest. now constructor.
        -- intros [rest H]. inversion H as [|? ? x' s' ? ? El Hm Ea Es| |]; subst.
           destruct (sapp_inv_len x' s' x r) as [-> ->]; eauto. apply lower_eq_len. congruence.
      * split; [intros []|]. intros [rest H]. inversion H as [|? ? x' s' ? ? El Hm| |]; subst.
        assert (Hc : strip_ci l (x' ++ s') = Some (x', s')) by (apply strip_ci_some; auto). congruence.
    + rewrite in_flat_map. split.
      * intros ([a b] & Hin & Hm). apply (proj1 (splits_in _ _ _ _)) in Hin. destruct Hin as (-> & Ha & Hok).
        simpl in Hm. apply in_map_iff in Hm. destruct Hm as (c' & <- & Hm). apply (proj1 (IH _ _)) in Hm. destruct Hm as [rest Hm].
        exists rest. now constructor.
      * intros [rest H]. inversion H as [| |? ? a b c' ? Ha Hok Hm|]; subst. exists (a, b).
        split; [apply splits_in; auto|]. apply in_map_iff. exists c'. split; [reflexivity|]. apply IH. eauto.
    + rewrite in_flat_map. split.
      * intros (w & Hin & Hm). destruct (strip_ci w s) as [[x r]|] eqn:E; [|destruct Hm].
        apply (proj1 (strip_ci_some _ _ _ _)) in E. destruct E as [-> E].
        apply in_map_iff in Hm. destruct Hm as (c' & <- & Hm). apply (proj1 (IH _ _)) in Hm. destruct Hm as [rest Hm].
        exists rest. econstructor; eauto.
      * intros [rest H]. inversion H as [| | |? ? w x b c' ? Hw Hx Hm]; subst. exists w. split; [exact Hw|].
        assert (Hc : strip_ci w (x ++ b) = Some (x, b)) by (apply strip_ci_some; auto). rewrite Hc.
        apply in_map_iff. exists c'. split; [reflexivity|]. apply IH. eauto.
Qed.
Lemma re_match_none es s : re_match es s = None <-> forall caps rest, ~ M es s caps rest.
Proof.
  unfold re_match. destruct (rx es s) as [|c l] eqn:E; simpl.
  - split; auto. intros _ caps rest H. assert (Hc : In caps (rx es s)) by (apply rx_iff; eauto). rewrite E in Hc. destruct Hc.
  - split; [discriminate|]. intro H. assert (Hc : In c (rx es s)) by (rewrite E; left; auto).
    apply (proj1 (rx_iff _ _ _)) in Hc. destruct Hc as [r Hc]. exfalso. now apply (H c r).
Qed.
Lemma re_match_some es s c : re_match es s = Some c -> exists rest, M es s c rest.
Proof. unfold re_match. intro H. apply rx_iff. destruct (rx es s); [discriminate|]. injection H as ->. now left. Qed.
Lemma hd_flat_map {A B} (f : A -> list B) l x : hd_error (flat_map f l) = Some x ->
  exists l1 a l2, l = (l1 ++ a :: l2)%list /\ (forall b, In b l1 -> f b = []) /\ hd_error (f a) = Some x.
Proof.
  induction l as [|a l IH]; simpl; [discriminate|]. destruct (f a) as [|y ys] eqn:E; simpl.
  - intro H. destruct (IH H) as (l1 & a' & l2 & -> & H1 & H2). exists (a :: l1), a', l2.
    split; [reflexivity|]. split; auto. intros b [<-|Hb]; auto.
  - intro H. exists [], a, l. split; [reflexivity|]. split; [intros b []|]. rewrite E. exact H.
Qed.
