(** C52: validation of single values. *)
From Verif Require Import PyReFacts ValScalarSpec.
Open Scope string_scope.

(** *** Splitting *)
Lemma split_on_cons sep s : exists w l, split_on sep s = w :: l.
Proof. destruct s as [|c s]; cbn; [eauto|]. destruct (Ascii.eqb c sep); [eauto|]. destruct (split_on sep s); eauto. Qed.
Lemma split_on_app sep a b : all_chars (fun c => negb (Ascii.eqb c sep)) a = true ->
  split_on sep (a ++ b) = match split_on sep b with w :: l => (a ++ w) :: l | [] => [a] end.
Proof.
  induction a as [|c a IH]; cbn [append all_chars]; intro H.
  - destruct (split_on_cons sep b) as (w & l & ->). reflexivity.
  - apply andb_true_iff in H. destruct H as [Hc Ha]. cbn [split_on]. destruct (Ascii.eqb c sep); [discriminate|].
    rewrite (IH Ha). destruct (split_on_cons sep b) as (w & l & ->). reflexivity.
Qed.
Lemma split_on_none sep a : all_chars (fun c => negb (Ascii.eqb c sep)) a = true -> split_on sep a = [a].
Proof.
  intro H. assert (X := split_on_app sep a "" H). rewrite sapp_nil_r in X. rewrite X. cbn. now rewrite sapp_nil_r.
Qed.
Lemma split_on_sep sep a b : all_chars (fun c => negb (Ascii.eqb c sep)) a = true ->
  split_on sep (a ++ String sep b) = a :: split_on sep b.
Proof.
  intro H. rewrite split_on_app by exact H. cbn [split_on]. rewrite Ascii.eqb_refl. now rewrite sapp_nil_r.
Qed.
Lemma plain_comma s : plain s -> all_chars (fun c => negb (Ascii.eqb c ",")) s = true.
Proof. intros [_ H]. revert H. apply all_chars_mono. intros c. destruct (is_space c); cbn; [discriminate|auto]. Qed.
Lemma plain_space s : plain s -> all_chars (fun c => negb (is_space c)) s = true.
Proof. intros [_ H]. revert H. apply all_chars_mono. intros c. destruct (is_space c); cbn; auto. Qed.
Lemma words_nospace p : forall cur s, all_chars (fun c => negb (is_space c)) p = true ->
  words_from cur (p ++ s) = words_from (cur ++ p) s.
Proof.
  induction p as [|c p IH]; intros cur s H; cbn [append].
  - now rewrite sapp_nil_r.
  - cbn [all_chars] in H. apply andb_true_iff in H. destruct H as [Hc Hp]. cbn [words_from].
    destruct (is_space c); [discriminate|]. rewrite IH by exact Hp. now rewrite sapp_assoc.
Qed.
Lemma words_gap g : forall s, gap g -> words_from "" (g ++ s) = words_from "" s.
Proof.
  unfold gap. induction g as [|c g IH]; intros s H; auto. cbn [all_chars] in H. apply andb_true_iff in H. destruct H as [Hc Hg].
  cbn [append words_from]. rewrite Hc. cbn [nonempty]. now apply IH.
Qed.
Lemma words_gap1 g cur s : gap g -> g <> "" -> cur <> "" -> words_from cur (g ++ s) = cur :: words_from "" s.
Proof.
  intros H Hg Hc. destruct g as [|c g]; [congruence|]. unfold gap in H. cbn [all_chars] in H. apply andb_true_iff in H. destruct H as [H1 H2].
  cbn [append words_from]. rewrite H1. apply nonempty_iff in Hc. rewrite Hc. f_equal. now apply words_gap.
Qed.
Lemma app_nonempty a b : a <> "" -> a ++ b <> "". Proof. destruct a; [congruence|discriminate]. Qed.
Lemma app_nonempty_r a b : b <> "" -> a ++ b <> "". Proof. destruct a; [auto|discriminate]. Qed.
Lemma separated_words l t : separated l t -> forall cur g, gap g ->
  exists w ws, words_from cur (t ++ g) = (cur ++ w) :: ws /\ (split_on "," w ++ flat_map (split_on ",") ws)%list = l.
Proof.
  induction 1 as [s Hs|s l t Hs Ht IH|s l h t Hs Hh Hn Ht IH]; intros cur g Hg.
  - exists s, []. rewrite words_nospace by now apply plain_space. split.
    + destruct (String.string_dec g "") as [->|N].
      * cbn. assert (X : cur ++ s <> "") by (apply app_nonempty_r; apply Hs). apply nonempty_iff in X. now rewrite X.
      * assert (X := words_gap1 g (cur ++ s) "" Hg N (app_nonempty_r _ _ (proj1 Hs))). rewrite sapp_nil_r in X. rewrite X. reflexivity.
    + cbn. rewrite app_nil_r. apply split_on_none. now apply plain_comma.
  - destruct (IH (cur ++ s ++ ",") g Hg) as (w & ws & E & F). exists (s ++ "," ++ w), ws. split.
    + rewrite !sapp_assoc. rewrite words_nospace by now apply plain_space. cbn [append words_from is_space].
      rewrite !sapp_assoc in *. cbn [append] in *. rewrite E. reflexivity.
    + cbn [append]. rewrite split_on_sep by now apply plain_comma. cbn. now rewrite F.
  - destruct (IH "" g Hg) as (w & ws & E & F). exists s, (w :: ws). split.
    + rewrite !sapp_assoc. rewrite words_nospace by now apply plain_space. rewrite words_gap1; auto; [|apply app_nonempty_r, Hs].
      rewrite E. reflexivity.
    + rewrite split_on_none by now apply plain_comma. cbn. now rewrite F.
Qed.
Lemma delimited_pieces l s : delimited l s -> flat_map (split_on ",") (words s) = l.
Proof.
  intros (g1 & t & g2 & -> & H1 & H2 & H). unfold words. rewrite words_gap by exact H1.
  destruct (separated_words _ _ H "" g2 H2) as (w & ws & -> & F). exact F.
Qed.

Inductive spaced : list string -> string -> Prop :=
| sp_nil g : gap g -> spaced [] g
| sp_cons g w ws t : gap g -> w <> "" -> all_chars (fun c => negb (is_space c)) w = true ->
    (t = "" \/ exists c t', t = String c t' /\ is_space c = true) -> spaced ws t -> spaced (w :: ws) (g ++ w ++ t).
Lemma spaced_prepend ws s c : is_space c = true -> spaced ws s -> spaced ws (String c s).
Proof.
  intros Hc H. inversion H as [g Hg|g w ws' t Hg Hn Hw Ht Hs]; subst.
  - constructor. unfold gap. cbn. now rewrite Hc.
  - change (String c (g ++ w ++ t)) with (String c g ++ w ++ t). constructor; auto. unfold gap in *. cbn. now rewrite Hc.
Qed.
Lemma words_spaced s : forall cur, all_chars (fun c => negb (is_space c)) cur = true -> spaced (words_from cur s) (cur ++ s).
Proof.
  induction s as [|c s IH]; intros cur Hc; cbn [words_from].
  - destruct cur as [|d cur]; cbn [nonempty]; [now constructor|].
    change (String d cur ++ "") with ("" ++ String d cur ++ ""). constructor; [reflexivity|discriminate|exact Hc|now left|now constructor].
  - destruct (is_space c) eqn:E.
    + specialize (IH "" eq_refl). cbn [append] in IH. apply (spaced_prepend _ _ c E) in IH.
      destruct cur as [|d cur]; cbn [nonempty]; [exact IH|].
      change (String d cur ++ String c s) with ("" ++ String d cur ++ String c s). constructor; [reflexivity|discriminate|exact Hc|right; eauto|exact IH].
    + specialize (IH (cur ++ String c "")). rewrite sapp_assoc in IH. apply IH.
      rewrite all_chars_app, Hc. cbn. now rewrite E.
Qed.
Lemma split_separated w : all_chars (fun c => negb (is_space c)) w = true -> Forall (fun p => p <> "") (split_on "," w) ->
  separated (split_on "," w) w.
Proof.
  assert (G : forall w cur, all_chars (fun c => negb (is_space c)) (cur ++ w) = true -> all_chars (fun c => negb (Ascii.eqb c ",")) cur = true ->
            Forall (fun p => p <> "") (split_on "," (cur ++ w)) -> separated (split_on "," (cur ++ w)) (cur ++ w)).
  { clear w. induction w as [|c w IH]; intros cur Hs Hc HF.
    - rewrite sapp_nil_r in *. rewrite split_on_none in * by exact Hc. inversion HF; subst. constructor. split; auto.
      clear -Hs Hc. induction cur as [|d cur IH]; auto. cbn in *. apply andb_true_iff in Hs, Hc. destruct Hs, Hc.
      rewrite IH by auto. destruct (is_space d), (Ascii.eqb d ","); auto.
    - destruct (Ascii.eqb_spec c ",") as [->|N].
      + rewrite split_on_sep in * by exact Hc. inversion HF as [|x y Hx Hy]; subst. change (String "," w) with ("," ++ w). 
        rewrite all_chars_app in Hs. apply andb_true_iff in Hs. destruct Hs as [H1 H2]. cbn in H2.
        constructor.
        * split; auto. clear -H1 Hc. induction cur as [|d cur IH]; auto. cbn in *. apply andb_true_iff in H1, Hc. destruct H1, Hc.
          rewrite IH by auto. destruct (is_space d), (Ascii.eqb d ","); auto.
        * apply (IH "" H2 eq_refl Hy).
      + replace (cur ++ String c w) with ((cur ++ String c "") ++ w) in * by (now rewrite sapp_assoc).
        apply IH; auto. rewrite all_chars_app, Hc. cbn. destruct (Ascii.eqb_spec c ","); [congruence|reflexivity]. }
  intros H HF. apply (G w "" H eq_refl HF).
Qed.
Lemma separated_app l1 t1 l2 t2 g : separated l1 t1 -> gap g -> g <> "" -> separated l2 t2 -> separated (l1 ++ l2) (t1 ++ g ++ t2).
Proof.
  induction 1 as [s Hs|s l t Hs Ht IH|s l h t Hs Hh Hn Ht IH]; intros Hg Hgn H2; cbn [List.app].
  - now constructor.
  - rewrite !sapp_assoc. constructor; auto.
  - rewrite !sapp_assoc. constructor; auto.
Qed.
Lemma separated_head l t : separated l t -> exists c t', t = String c t' /\ is_space c = false.
Proof.
  assert (P : forall s, plain s -> exists c s', s = String c s' /\ is_space c = false).
  { intros [|c s] [Hn H]; [congruence|]. exists c, s. split; auto. cbn in H. destruct (is_space c); [discriminate|auto]. }
  destruct 1 as [s Hs|s l t Hs _|s l g t Hs _ _ _]; destruct (P s Hs) as (c & s' & -> & E); eexists; eexists; (split; [reflexivity|exact E]).
Qed.
Lemma spaced_delimited ws s : spaced ws s -> Forall (fun p => p <> "") (flat_map (split_on ",") ws) -> ws <> [] ->
  delimited (flat_map (split_on ",") ws) s.
Proof.
  induction 1 as [g Hg|g w ws t Hg Hn Hw Ht Hs IH]; [congruence|]. intros HF _. cbn [flat_map] in *.
  apply Forall_app in HF. destruct HF as [F1 F2]. assert (S1 := split_separated w Hw F1).
  destruct ws as [|w2 ws].
  - cbn. rewrite app_nil_r. inversion Hs; subst. exists g, w, t. auto.
  - destruct (IH F2 ltac:(discriminate)) as (g1 & t' & g2 & -> & G1 & G2 & S2).
    assert (N1 : g1 <> "").
    { destruct (separated_head _ _ S2) as (c & t'' & -> & Hc). intros ->. destruct Ht as [Ht|(d & u & Ed & Hd)]; [discriminate|].
      cbn in Ed. injection Ed as -> _. congruence. }
    exists g, (w ++ g1 ++ t'), g2. split; [now rewrite !sapp_assoc|]. split; auto. split; auto. now apply separated_app.
Qed.
Lemma pieces_delimited s : Forall (fun p => p <> "") (flat_map (split_on ",") (words s)) -> flat_map (split_on ",") (words s) <> [] ->
  delimited (flat_map (split_on ",") (words s)) s.
Proof.
  intros HF Hn. assert (X := words_spaced s "" eq_refl). cbn in X. apply spaced_delimited; auto.
  unfold words in *. destruct (words_from "" s); [cbn in Hn; congruence|discriminate].
Qed.

(** *** bbox *)
(** A text is accepted exactly when it has four numbers, each separated from the next one by one
    comma or by blanks, but not both. *)
Theorem C52_bbox to_float default s r : to_float "" = None -> s <> "None" -> s <> "" ->
  is_bbox to_float default (YStr s) = Ok r <->
  exists a b c d x y z t, delimited [a; b; c; d] s /\ to_float a = Some x /\ to_float b = Some y /\ to_float c = Some z /\
    to_float d = Some t /\ r = YList [YNum x; YNum y; YNum z; YNum t].
Proof.
  intros Hf Hn Hs. unfold is_bbox. cbn [prints_none]. destruct (String.eqb_spec s "None"); [congruence|].
  destruct s as [|c0 s0] eqn:Es; [congruence|]. rewrite <- Es in *.
  set (l := flat_map (split_on ",") (words s)). split.
  - destruct (Nat.eqb_spec (List.length l) 4) as [E|E]; cbn [negb]; intro H; [|discriminate H].
    destruct l as [|a [|b [|c [|d [|]]]]] eqn:El; cbn in E; try discriminate. cbn [floats] in H.
    destruct (to_float a) as [x|] eqn:Ea; [|discriminate]. destruct (to_float b) as [y|] eqn:Eb; [|discriminate].
    destruct (to_float c) as [z|] eqn:Ec; [|discriminate]. destruct (to_float d) as [t|] eqn:Ed; [|discriminate].
    cbn in H. injection H as <-. exists a, b, c, d, x, y, z, t. repeat split; auto. rewrite <- El. apply pieces_delimited.
    + fold l. rewrite El. repeat constructor; intros ->; congruence.
    + fold l. rewrite El. discriminate.
  - intros (a & b & c & d & x & y & z & t & HD & Ea & Eb & Ec & Ed & ->). apply delimited_pieces in HD. fold l in HD. rewrite HD.
    cbn. rewrite Ea, Eb, Ec, Ed. reflexivity.
Qed.
(** What configobj makes of four values separated with commas, a list, is refused with an error
    that is not a validation error; an empty value without default as well. *)
Theorem C52_bbox_list_refuted to_float default l : is_bbox to_float default (YList l) = Raise AttributeError /\
  is_bbox to_float YNone (YStr "") = Raise AttributeError.
Proof. split; reflexivity. Qed.

(** *** interval *)
Lemma lstrip_set_app ok p s : all_chars ok p = true -> lstrip_set ok (p ++ s) = lstrip_set ok s.
Proof. induction p as [|c p IH]; cbn; auto. intro H. apply andb_true_iff in H. destruct H as [-> H]. auto. Qed.
Lemma rstrip_set_all ok q : all_chars ok q = true -> rstrip_set ok q = "".
Proof. induction q as [|c q IH]; cbn; auto. intro H. apply andb_true_iff in H. destruct H as [H1 H2]. now rewrite IH, H1. Qed.
Lemma rstrip_set_app ok q : all_chars ok q = true -> forall m, rstrip_set ok (m ++ q) = rstrip_set ok m.
Proof. intros H m. induction m as [|c m IH]; cbn; [now apply rstrip_set_all|]. now rewrite IH. Qed.
Lemma rstrip_set_last ok c : ok c = false -> forall m, rstrip_set ok (m ++ String c "") = m ++ String c "".
Proof.
  intros H m. induction m as [|d m IH]; cbn; [now rewrite H|]. rewrite IH. destruct (m ++ String c "") eqn:E; auto.
  destruct m; discriminate.
Qed.
Lemma drop_close_last c : c <> ")"%char -> forall m, drop_close (m ++ String c "") = m ++ String c "".
Proof.
  intros H m. induction m as [|d m IH].
  - cbn. destruct c as [[] [] [] [] [] [] [] []]; auto; congruence.
  - assert (X : forall t, t <> "" -> drop_close (String d t) = String d (drop_close t)).
    { intros t Ht. destruct t; [congruence|]. destruct d as [[] [] [] [] [] [] [] []]; reflexivity. }
    change (String d m ++ String c "") with (String d (m ++ String c "")). rewrite X, IH; auto. destruct m; discriminate.
Qed.
Lemma drop_open_first c s : c <> "("%char -> drop_open (String c s) = String c s.
Proof. intro H. destruct c as [[] [] [] [] [] [] [] []]; auto; congruence. Qed.
Lemma take_class_ok ok n : forall s x r, take_class ok n s = (x, r) -> s = x ++ r /\ all_chars ok x = true /\ (String.length x <= n)%nat /\
  (String.length x = n \/ forall c r', r = String c r' -> ok c = false).
Proof.
  induction n as [|n IH]; intros s x r H.
  - cbn in H. injection H as <- <-. cbn. auto.
  - destruct s as [|c s]; cbn in H; [injection H as <- <-; cbn; repeat split; auto with arith; right; discriminate|].
    destruct (ok c) eqn:E.
    + destruct (take_class ok n s) as [x' r'] eqn:Et. injection H as <- <-. destruct (IH _ _ _ Et) as (-> & H1 & H2 & H3).
      cbn. rewrite E. repeat split; auto with arith. destruct H3 as [H3|H3]; auto.
    + injection H as <- <-. cbn. repeat split; auto with arith. right. intros d r' Ed. injection Ed as <- <-. exact E.
Qed.
Lemma take_class_all ok n x : all_chars ok x = true -> (String.length x <= n)%nat -> forall r,
  (String.length x = n \/ forall c r', r = String c r' -> ok c = false) -> take_class ok n (x ++ r) = (x, r).
Proof.
  revert n. induction x as [|c x IH]; intros n H Hl r Hr; cbn [append].
  - destruct n as [|n]; [reflexivity|]. destruct r as [|d r]; [reflexivity|]. cbn. destruct Hr as [Hr|Hr]; [discriminate|]. now rewrite (Hr d r eq_refl).
  - cbn in H, Hl. apply andb_true_iff in H. destruct H as [H1 H2]. destruct n as [|n]; [lia|]. cbn. rewrite H1.
    rewrite IH; [reflexivity|exact H2|lia|]. destruct Hr as [Hr|Hr]; [left; cbn in Hr; lia|right; exact Hr].
Qed.
Lemma search_bounds_ok s m : search_bounds s = Some m -> bounds m /\ substring m s.
Proof.
  induction s as [|c s IH]; cbn [search_bounds]; [discriminate|]. destruct (is_co c) eqn:E.
  - destruct (take_class is_co 2 (String c s)) as [x r] eqn:E1. destruct (take_class is_ne 2 r) as [y r'] eqn:E2. intro H. injection H as <-.
    destruct (take_class_ok _ _ _ _ _ E1) as (H1 & H2 & H3 & H4). destruct (take_class_ok _ _ _ _ _ E2) as (H5 & H6 & H7 & _).
    split.
    + exists x, y. split; auto. split; auto. split; auto. split; [|auto]. split; auto. destruct x; cbn; [|lia].
      destruct H4 as [H4|H4]; [discriminate|]. cbn in H1. rewrite (H4 c s (eq_sym H1)) in E. discriminate.
    + exists "", r'. cbn [append]. rewrite H1, H5, sapp_assoc. reflexivity.
  - intro H. destruct (IH H) as (HB & a & b & ->). split; auto. exists (String c a), b. reflexivity.
Qed.
Lemma search_bounds_none s : search_bounds s = None <-> all_chars (fun c => negb (is_co c)) s = true.
Proof.
  induction s as [|c s IH]; cbn [search_bounds all_chars]; [tauto|]. destruct (is_co c); cbn [negb andb]; [|exact IH].
  destruct (take_class is_co 2 (String c s)) as [x r]. destruct (take_class is_ne 2 r) as [y r']. split; discriminate.
Qed.
Lemma co_ne c : is_co c = true -> is_ne c = false.
Proof. unfold is_co, is_ne. destruct (Ascii.eqb_spec c "c") as [->|]; [reflexivity|]. destruct (Ascii.eqb_spec c "o") as [->|]; [reflexivity|discriminate]. Qed.
Lemma ne_co c : is_ne c = true -> is_co c = false.
Proof. destruct (is_co c) eqn:E; auto. apply co_ne in E. congruence. Qed.
Lemma search_bounds_self m : bounds m -> search_bounds m = Some m.
Proof.
  intros (x & y & -> & Hx & Hy & Hlx & Hly). destruct x as [|c x]; [cbn in Hlx; lia|].
  assert (E1 : take_class is_co 2 (String c x ++ y) = (String c x, y)).
  { apply take_class_all; auto; [lia|]. right. intros d r' ->. cbn in Hy. apply andb_true_iff in Hy. apply ne_co, Hy. }
  cbn [append] in E1. cbn [append search_bounds]. cbn in Hx. apply andb_true_iff in Hx. destruct Hx as [-> _]. rewrite E1.
  assert (E2 : take_class is_ne 2 (y ++ "") = (y, "")) by (apply take_class_all; auto; right; discriminate).
  rewrite sapp_nil_r in E2. rewrite E2. reflexivity.
Qed.
Lemma bounds_no_comma m : bounds m -> no_comma m.
Proof.
  intros (x & y & -> & Hx & Hy & _). unfold no_comma. rewrite all_chars_app. apply andb_true_iff. split.
  - revert Hx. apply all_chars_mono. intros c. unfold is_co. destruct (Ascii.eqb_spec c ",") as [->|]; [discriminate|auto].
  - revert Hy. apply all_chars_mono. intros c. unfold is_ne. destruct (Ascii.eqb_spec c ",") as [->|]; [discriminate|auto].
Qed.
Lemma last_cases s : s <> "" -> exists t c, s = t ++ String c "".
Proof.
  induction s as [|d s IH]; [congruence|]. intros _. destruct s as [|e s]; [exists "", d; reflexivity|].
  destruct IH as (t & c & E); [discriminate|]. exists (String d t), c. cbn. now rewrite <- E.
Qed.
(** The text that is split *)
Lemma interval_text eval p m q : brackets p -> brackets q -> m <> "" -> m <> "None" ->
  (forall c t, m = String c t -> is_bracket c = false) -> (forall c t, m = t ++ String c "" -> is_bracket c = false) ->
  is_interval eval (YStr (p ++ m ++ q)) = match split_on "," m with
    | [a; b] => Ok (YTuple [eval_or eval a; eval_or eval b])
    | [a; b; c] => if nonempty c then match search_bounds c with
                                      | Some k => Ok (YTuple [eval_or eval a; eval_or eval b; YStr k]) | None => Raise VdtTypeError end
                   else Ok (YTuple [eval_or eval a; eval_or eval b])
    | _ => Raise VdtTypeError
    end.
Proof.
  intros Hp Hq Hm Hn H1 H2. unfold is_interval, strip_set. rewrite lstrip_set_app by exact Hp.
  destruct m as [|c m0] eqn:Em; [congruence|]. rewrite <- Em in *. assert (Hc := H1 c m0 Em).
  assert (E1 : lstrip_set is_bracket (m ++ q) = m ++ q) by (rewrite Em; cbn [append lstrip_set]; now rewrite Hc).
  rewrite E1, rstrip_set_app by exact Hq. destruct (last_cases m Hm) as (t & d & Ed). assert (Hd := H2 d t Ed).
  assert (E2 : rstrip_set is_bracket m = m) by (rewrite Ed; now apply rstrip_set_last). rewrite E2. cbn [prints_none].
  destruct (String.eqb_spec m "None"); [congruence|]. cbn [bind].
  assert (X : drop_open m = m). { rewrite Em. apply drop_open_first. intros ->. discriminate. } rewrite X.
  assert (Y : drop_close m = m). { rewrite Ed. apply drop_close_last. intros ->. discriminate. } rewrite Y. reflexivity.
Qed.
Lemma first_app a b c t : a <> "" -> a ++ b = String c t -> exists t', a = String c t'.
Proof. destruct a as [|d a]; [congruence|]. cbn. intros _ E. injection E as -> _. eauto. Qed.
Lemma last_app a b c t : b <> "" -> a ++ b = t ++ String c "" -> exists t', b = t' ++ String c "".
Proof.
  intros Hb E. destruct (last_cases b Hb) as (u & d & ->). exists u. f_equal.
  assert (E' : (a ++ u) ++ String d "" = t ++ String c "") by (rewrite sapp_assoc; exact E).
  assert (L : String.length (a ++ u) = String.length t). { apply (f_equal String.length) in E'. rewrite !slen_app in E'. cbn in E'. rewrite slen_app. lia. }
  destruct (sapp_inv_len _ _ _ _ E' L) as [_ F]. exact F.
Qed.
(** "lo,hi" and "lo,hi,bounds", between any brackets and spaces: both values, evaluated if they
    can be, and the bounds. *)
Theorem C52_interval eval p q lo hi : brackets p -> brackets q -> no_comma lo -> no_comma hi -> lo <> "" -> hi <> "" ->
  (forall c t, lo = String c t -> is_bracket c = false) ->
  ((forall c t, hi = t ++ String c "" -> is_bracket c = false) ->
    is_interval eval (YStr (p ++ (lo ++ "," ++ hi) ++ q)) = Ok (YTuple [eval_or eval lo; eval_or eval hi])) /\
  (forall b, bounds b ->
    is_interval eval (YStr (p ++ (lo ++ "," ++ hi ++ "," ++ b) ++ q)) = Ok (YTuple [eval_or eval lo; eval_or eval hi; YStr b])).
Proof.
  intros Hp Hq Hlo Hhi Nlo Nhi H1.
  assert (NN : forall x, lo ++ "," ++ x <> "None").
  { intros x E. assert (C : count "," (lo ++ "," ++ x) = count "," "None") by now rewrite E. rewrite !count_app in C. cbn in C. lia. }
  split.
  - intros H2. rewrite interval_text; auto.
    + cbn [append]. rewrite split_on_sep by exact Hlo. rewrite split_on_none by exact Hhi. reflexivity.
    + now apply app_nonempty.
    + intros c t E. destruct (first_app _ _ _ _ Nlo E) as [t' E']. eauto.
    + intros c t E. rewrite <- sapp_assoc in E. destruct (last_app _ _ _ _ Nhi E) as [t' E']. eauto.
  - intros b Hb. assert (Nb : b <> "") by (destruct Hb as (x & y & -> & _ & _ & [Hl _] & _); destruct x; [cbn in Hl; lia|discriminate]).
    rewrite interval_text; auto.
    + cbn [append]. rewrite split_on_sep by exact Hlo. rewrite split_on_sep by exact Hhi. rewrite split_on_none by now apply bounds_no_comma.
      apply nonempty_iff in Nb. rewrite Nb. rewrite search_bounds_self by exact Hb. reflexivity.
    + now apply app_nonempty.
    + intros c t E. destruct (first_app _ _ _ _ Nlo E) as [t' E']. eauto.
    + intros c t E. replace (lo ++ "," ++ hi ++ "," ++ b) with ((lo ++ "," ++ hi ++ ",") ++ b) in E by (now rewrite !sapp_assoc).
      destruct (last_app _ _ _ _ Nb E) as [t' E']. destruct Hb as (x & y & Eb & Hx & Hy & _).
      assert (A : all_chars (fun c => is_co c || is_ne c) b = true).
      { rewrite Eb, all_chars_app. apply andb_true_iff. split; [revert Hx|revert Hy]; apply all_chars_mono; intros d ->; [reflexivity|apply orb_true_r]. }
      rewrite E', all_chars_app in A. apply andb_true_iff in A. destruct A as [_ A]. cbn in A. rewrite andb_true_r in A.
      revert A. generalize c. clear. intro c. destruct c as [[] [] [] [] [] [] [] []]; try discriminate; reflexivity.
Qed.
(** Whatever the value: None, or a tuple of two values and possibly bounds, or an error, which is
    a validation error unless the value is a list with something else than texts. *)
Theorem C52_interval_shape eval v : match is_interval eval v with
  | Ok r => r = YNone \/ exists a b, r = YTuple [a; b] \/ exists m, bounds m /\ r = YTuple [a; b; YStr m]
  | Raise e => e = VdtTypeError \/ (e = TypeError /\ exists l, v = YList l /\ exists x, In x l /\ forall s, x <> YStr s)
  end.
Proof.
  assert (S1 : forall s, match (match split_on "," s with
    | [a; b] => Ok (YTuple [eval_or eval a; eval_or eval b])
    | [a; b; c] => if nonempty c then match search_bounds c with
                                      | Some k => Ok (YTuple [eval_or eval a; eval_or eval b; YStr k]) | None => Raise VdtTypeError end
                   else Ok (YTuple [eval_or eval a; eval_or eval b])
    | _ => Raise VdtTypeError
    end) with
    | Ok r => r = YNone \/ exists a b, r = YTuple [a; b] \/ exists m, bounds m /\ r = YTuple [a; b; YStr m]
    | Raise e => e = VdtTypeError \/ (e = TypeError /\ exists l, v = YList l /\ exists x, In x l /\ forall s, x <> YStr s)
    end).
  { intro s. destruct (split_on "," s) as [|a [|b [|c [|]]]]; try (left; reflexivity).
    - right. eauto.
    - destruct (nonempty c); [|right; eauto]. destruct (search_bounds c) as [m|] eqn:E; [|left; reflexivity].
      apply search_bounds_ok in E. right. exists (eval_or eval a), (eval_or eval b). right. exists m. tauto. }
  unfold is_interval. destruct v as [|s| | |l| |]; cbn [prints_none]; try (left; reflexivity).
  - destruct (String.eqb _ "None"); [left; reflexivity|]. cbn [bind]. apply S1.
  - destruct (strings l) as [ss|e] eqn:E; cbn [bind]; [apply S1|]. right.
    enough (e = TypeError /\ exists x, In x l /\ forall s, x <> YStr s) as [-> H] by eauto.
    clear -E. induction l as [|x l IH]; cbn in E; [discriminate|].
    destruct x; try (injection E as <-; split; auto; eexists; split; [now left|discriminate]).
    destruct (strings l) as [r|e'] eqn:E'; cbn in E; [discriminate|]. injection E as ->. destruct (IH eq_refl) as (He & x & Hx & Hn).
    split; auto. exists x. split; [now right|auto].
Qed.
(** False: the bounds are those that are written, or refused. *)
Theorem C52_interval_bounds_refuted eval : (forall s, eval s = None) ->
  is_interval eval (YStr "(0,10,ccb)") = Ok (YTuple [YStr "0"; YStr "10"; YStr "cc"]) /\
  is_interval eval (YStr "(0,10,included)") = Ok (YTuple [YStr "0"; YStr "10"; YStr "c"]).
Proof. intro H. split; unfold is_interval; cbn; unfold eval_or; now rewrite !H. Qed.
(** False: [0, 10] in a file (a list of two texts for configobj) is an interval of numbers. *)
Theorem C52_interval_square_refuted eval : eval "[0" = None -> eval "10]" = None ->
  is_interval eval (YList [YStr "[0"; YStr "10]"]) = Ok (YTuple [YStr "[0"; YStr "10]"]).
Proof. intros H1 H2. unfold is_interval. cbn. unfold eval_or. now rewrite H1, H2. Qed.

(** *** path, date, time delta, date range *)
Theorem C52_path ev default expand v : is_path ev default expand v =
  if prints_none v then Ok YNone else
  let w := match v with YStr "" => default | _ => v end in
  match w with YStr s => Ok (YStr (if truthy_val expand then ev s else s)) | _ => Ok w end.
Proof. unfold is_path. destruct (prints_none v); auto. cbn zeta. destruct (match v with YStr "" => default | _ => v end); auto. destruct (truthy_val expand); auto. Qed.
(** An option of a specification is a text: when it is written False, it is true. *)
Theorem C52_flags_refuted eval sv ev cv : forall t, t <> "" ->
  (forall d v, is_path ev d (YStr t) v = is_path ev d (YBool true) v) /\
  (forall as256 v, is_color eval cv (YStr t) as256 v = is_color eval cv (YBool true) as256 v) /\
  (forall alpha v, is_color eval cv alpha (YStr t) v = is_color eval cv alpha (YBool true) v) /\
  (forall v, is_eval eval sv (YStr t) v = is_eval eval sv (YBool true) v).
Proof.
  intros t Ht. apply nonempty_iff in Ht.
  assert (T : truthy_val (YStr t) = truthy_val (YBool true)) by exact Ht.
  assert (C : forall v, check256 (YStr t) v = check256 (YBool true) v).
  { intro v. unfold check256. rewrite T. destruct v; reflexivity. }
  assert (CO : forall alpha v, color_of cv alpha (YStr t) v = color_of cv alpha (YBool true) v) by (intros; unfold color_of; now rewrite C).
  repeat split; intros.
  - unfold is_path. rewrite T. reflexivity.
  - unfold is_color, color_of. rewrite T. reflexivity.
  - unfold is_color. rewrite CO. destruct (color_of cv alpha (YBool true) v); auto. destruct v; auto. destruct (eval s); auto. now rewrite CO.
  - unfold is_eval. rewrite T. reflexivity.
Qed.
(** A range of dates is never made: None, or an error. *)
Theorem C52_daterange_refuted eval v r : is_daterange eval v = Ok r -> r = YNone /\ prints_none v = true.
Proof.
  unfold is_daterange. destruct (prints_none v); [intro H; injection H as <-; auto|].
  destruct v as [| | | |l| |]; try discriminate. destruct l as [|a [|b [|c [|d [|]]]]]; try discriminate.
  destruct d; try discriminate. destruct (eval s); discriminate.
Qed.
(** A time delta needs a list of a number and a unit. *)
Theorem C52_timedelta tf pd v r : is_timedelta tf pd v = Ok r ->
  (r = YNone /\ prints_none v = true) \/ exists x u f, v = YList [x; u] /\ float_of tf x = Ok f /\ pd f u = Some r.
Proof.
  unfold is_timedelta. destruct (prints_none v); [intro H; injection H as <-; auto|].
  destruct v as [| | | |l| |]; try discriminate. destruct l as [|x [|u [|]]]; try discriminate.
  destruct (float_of tf x) as [f|] eqn:E; cbn [bind]; [|discriminate]. destruct (pd f u) eqn:E2; [|discriminate].
  intro H. injection H as <-. right. exists x, u, f. auto.
Qed.

(** *** eval *)
(** False: a list written without quotes is evaluated.  configobj makes a list of texts of it,
    which is printed and read back as it is. *)
Theorem C52_eval_list_refuted eval sv u (l : list string) :
  (forall l, eval (sv (YList (map YStr l))) = Some (YList (map YStr l))) ->
  is_eval eval sv u (YList (map YStr l)) = Ok (YList (map YStr l)).
Proof. intro H. unfold is_eval. cbn [str_val]. now rewrite H. Qed.
(** By default it never fails: what can not be evaluated is left as it is. *)
Theorem C52_eval eval sv v : exists r, is_eval eval sv (YBool true) v = Ok r /\
  (r = v \/ exists t, eval t = Some r /\ t = match v with YStr s => s | YNone => "None" | _ => sv v end).
Proof. unfold is_eval. destruct (eval (str_val sv v)) as [w|] eqn:E; [|exists v; split; [reflexivity|now left]]. exists w. split; [reflexivity|]. right. exists (str_val sv v). split; [exact E|]. now destruct v. Qed.

(** *** color *)
Lemma map_res_ok {A B} (f : A -> res B) l : (forall x, In x l -> exists y, f x = Ok y) -> exists r, map_res f l = Ok r /\ Forall2 (fun x y => f x = Ok y) l r.
Proof.
  induction l as [|x l IH]; intro H; cbn; [exists []; auto|]. destruct (H x (or_introl eq_refl)) as [y Hy]. rewrite Hy. cbn.
  destruct IH as (r & -> & HF); [intros; apply H; now right|]. cbn. exists (y :: r). auto.
Qed.
(** Components that are not above 1 are left as they are; else the first three are divided by
    256, and the transparency is left as it is. *)
Theorem C52_check256 q1 q2 q3 rest tuple :
  let mk := if tuple : bool then YTuple else YList in
  let c := [YNum (Some q1); YNum (Some q2); YNum (Some q3)] in
  check256 YNone (mk (c ++ rest)%list) =
    if Qle_bool q1 1 && Qle_bool q2 1 && Qle_bool q3 1 then Ok (mk (c ++ rest)%list)
    else Ok (YTuple ([YNum (Some (q1 / 256)%Q); YNum (Some (q2 / 256)%Q); YNum (Some (q3 / 256)%Q)] ++ rest)%list).
Proof.
  intros mk c.
  assert (L : forall q, fltb (Some 1%Q) (Some q) = negb (Qle_bool q 1)).
  { intro q. cbn. unfold Qltb. reflexivity. }
  assert (E : check256 YNone (mk (c ++ rest)%list) = let* bs := map_res above_one (firstn 3 (c ++ rest)%list) in
    if existsb (fun b => b) bs then let* l' := map_res over_256 (firstn 3 (c ++ rest)%list) in Ok (YTuple (l' ++ skipn 3 (c ++ rest))%list)
    else Ok (mk (c ++ rest)%list)) by (unfold mk; destruct tuple; reflexivity).
  rewrite E. unfold c. cbn [List.app firstn skipn map_res above_one over_256 num_of bind option_map existsb]. rewrite !L.
  destruct (Qle_bool q1 1), (Qle_bool q2 1), (Qle_bool q3 1); reflexivity.
Qed.
Open Scope Q_scope.
(** Components between 0 and 256 give a color between 0 and 1... *)
Theorem C52_check256_range q1 q2 q3 rest : 0 <= q1 <= 256 -> 0 <= q2 <= 256 -> 0 <= q3 <= 256 ->
  exists r1 r2 r3, (check256 YNone (YTuple ([YNum (Some q1); YNum (Some q2); YNum (Some q3)] ++ rest)) =
                   Ok (YTuple ([YNum (Some r1); YNum (Some r2); YNum (Some r3)] ++ rest)))%list /\
    0 <= r1 <= 1 /\ 0 <= r2 <= 1 /\ 0 <= r3 <= 1.
Proof.
  intros [L1 U1] [L2 U2] [L3 U3]. assert (H := C52_check256 q1 q2 q3 rest true). cbn zeta in H. cbv iota in H. rewrite H.
  destruct (Qle_bool q1 1 && Qle_bool q2 1 && Qle_bool q3 1)%bool eqn:E.
  - apply andb_true_iff in E. destruct E as [E E3]. apply andb_true_iff in E. destruct E as [E1 E2].
    apply Qle_bool_iff in E1, E2, E3. exists q1, q2, q3. auto.
  - exists (q1 / 256), (q2 / 256), (q3 / 256). split; [reflexivity|].
    assert (X : forall q, 0 <= q -> q <= 256 -> 0 <= q / 256 <= 1).
    { intros q A B. split; [apply Qle_shift_div_l; [reflexivity|]; rewrite Qmult_0_l; exact A|].
      apply Qle_shift_div_r; [reflexivity|]. rewrite Qmult_1_l. exact B. }
    auto.
Qed.
(** ... but white (255) is not white, and a component of 1 means 256. *)
Theorem C52_white_refuted : exists r, check256 YNone (YTuple [YNum (Some 255); YNum (Some 255); YNum (Some 255)]) = Ok (YTuple [YNum (Some r); YNum (Some r); YNum (Some r)]) /\ ~ r == 1 /\
  check256 YNone (YTuple [YNum (Some 1); YNum (Some 1); YNum (Some 1)]) = Ok (YTuple [YNum (Some 1); YNum (Some 1); YNum (Some 1)]).
Proof. exists (255 / 256). split; [reflexivity|]. split; [discriminate|reflexivity]. Qed.
Close Scope Q_scope.
(** as256 and alpha are used by their truth value. *)
Inductive python_truth : yval -> bool -> Prop :=
| pt_none : python_truth YNone false | pt_bool b : python_truth (YBool b) b
| pt_empty : python_truth (YStr "") false | pt_str s : s <> "" -> python_truth (YStr s) true
| pt_zero q : (q == 0)%Q -> python_truth (YNum (Some q)) false | pt_num q : ~ (q == 0)%Q -> python_truth (YNum (Some q)) true
| pt_nan : python_truth (YNum None) true
| pt_nil : python_truth (YList []) false | pt_list l : l <> [] -> python_truth (YList l) true
| pt_unit : python_truth (YTuple []) false | pt_tuple l : l <> [] -> python_truth (YTuple l) true
| pt_other n : python_truth (YOther n) true.
Lemma truthy_val_ok v b : python_truth v b -> truthy_val v = b.
Proof.
  intro H. destruct H; try reflexivity; cbn.
  - destruct s; [contradiction|reflexivity].
  - apply Qeq_bool_iff in H. rewrite H. reflexivity.
  - destruct (Qeq_bool q 0) eqn:E; [apply Qeq_bool_iff in E; contradiction|reflexivity].
  - destruct l; [contradiction|reflexivity].
  - destruct l; [contradiction|reflexivity].
Qed.
Theorem C52_color_truth eval cv alpha a as256 b v : python_truth alpha a -> python_truth as256 b -> as256 <> YNone ->
  is_color eval cv alpha as256 v = is_color eval cv (YBool a) (YBool b) v.
Proof.
  intros Ha Hb Hn. assert (E : forall w, color_of cv alpha as256 w = color_of cv (YBool a) (YBool b) w).
  { intro w. unfold color_of. rewrite (truthy_val_ok _ _ Ha).
    assert (C : check256 as256 w = check256 (YBool b) w).
    { assert (T : match as256 with YNone => true | _ => truthy_val as256 end = b) by (rewrite (truthy_val_ok _ _ Hb); destruct as256; congruence).
      unfold check256. destruct w; try reflexivity; destruct as256; try contradiction; cbn [truthy_val] in T |- *; rewrite <- T; reflexivity. }
    rewrite C. reflexivity. }
  unfold is_color. rewrite E. destruct v; try reflexivity. destruct (eval s); [now rewrite E|reflexivity].
Qed.
(** Asking for components out of 256: three numbers are divided; not asking: they are kept. *)
Theorem C52_color_256 eval cv a q1 q2 q3 : let c := [YNum (Some q1); YNum (Some q2); YNum (Some q3)] in
  is_color eval cv (YBool a) (YBool false) (YTuple c) = match cv a (YTuple c) with Some x => Ok x | None => Raise VdtTypeError end /\
  is_color eval cv (YBool a) (YBool true) (YTuple c) =
    match cv a (YTuple [YNum (Some (q1 / 256)%Q); YNum (Some (q2 / 256)%Q); YNum (Some (q3 / 256)%Q)]) with Some x => Ok x | None => Raise VdtTypeError end.
Proof. cbn zeta. split; reflexivity. Qed.
(** The only error is a validation error... *)
Theorem C52_color_errors eval cv alpha as256 v e : is_color eval cv alpha as256 v = Raise e -> e = VdtTypeError.
Proof.
  unfold is_color. destruct (prints_none v); [discriminate|]. destruct (color_of cv alpha as256 v); [discriminate|].
  destruct v; try (intro H; now injection H as <-). destruct (eval s); [|intro H; now injection H as <-].
  destruct (color_of cv alpha as256 y); [discriminate|]. intro H; now injection H as <-.
Qed.
(** ... and three components in a file without quotes, a list of texts for configobj, are refused. *)
Theorem C52_color_list_refuted eval cv alpha a l : is_color eval cv alpha YNone (YList (map YStr (a :: l))) = Raise VdtTypeError.
Proof. reflexivity. Qed.

(** *** dict *)
Lemma lstrip_is s : lstrip s = lstrip_set is_space s.
Proof. induction s as [|c s IH]; cbn [lstrip lstrip_set]; auto. now rewrite IH. Qed.
Lemma rstrip_is s : rstrip s = rstrip_set is_space s.
Proof. induction s as [|c s IH]; cbn [rstrip rstrip_set]; auto. now rewrite IH. Qed.
Lemma strip_gaps g1 m g2 : gap g1 -> gap g2 -> m <> "" ->
  (forall c t, m = String c t -> is_space c = false) -> (forall c t, m = t ++ String c "" -> is_space c = false) -> strip (g1 ++ m ++ g2) = m.
Proof.
  intros H1 H2 Hm Hf Hl. unfold strip. rewrite lstrip_is, rstrip_is, lstrip_set_app by exact H1.
  destruct m as [|c m0] eqn:Em; [congruence|]. rewrite <- Em in *. assert (Hc := Hf c m0 Em).
  assert (E1 : lstrip_set is_space (m ++ g2) = m ++ g2) by (rewrite Em; cbn [append lstrip_set]; now rewrite Hc).
  rewrite E1, rstrip_set_app by exact H2. destruct (last_cases m Hm) as (t & d & Ed). rewrite Ed. apply rstrip_set_last. eauto.
Qed.
Lemma span_word_app w r : all_word w = true -> (forall c t, r = String c t -> is_word c = false) -> span_word (w ++ r) = (w, r).
Proof.
  intros Hw Hr. induction w as [|c w IH]; cbn [append].
  - destruct r as [|c r]; [reflexivity|]. cbn [span_word]. now rewrite (Hr c r eq_refl).
  - cbn [all_word] in Hw. apply andb_true_iff in Hw. destruct Hw as [Hc Hw]. cbn [span_word]. now rewrite Hc, IH.
Qed.
(** None, a dictionary, or an error, which is a validation error when the value is made of texts. *)
Theorem C52_dict_shape eval dictobj empty v : isdict dictobj empty = true ->
  match is_dict eval dictobj empty v with
  | Ok r => r = YNone \/ isdict dictobj r = true
  | Raise e => e = VdtTypeError \/ ~ (exists s, v = YStr s) /\ ~ (exists l, v = YList (map YStr l))
  end.
Proof.
  intro He. unfold is_dict. destruct (prints_none v); [now left|]. destruct (isdict dictobj v) eqn:Ev; [now right|].
  assert (K : forall s, match (if String.eqb (strip s) "" then Ok empty else
      let ev t := match eval t with Some v => if isdict dictobj v then Ok v else Raise VdtTypeError | None => Raise VdtTypeError end in
      if m_funccall (strip s) || m_acc (strip s) then ev (strip s) else if m_set (strip s) then ev ("dict(" ++ strip s ++ ")") else Raise VdtTypeError) with
    | Ok r => r = YNone \/ isdict dictobj r = true
    | Raise e => e = VdtTypeError
    end).
  { intro s. destruct (String.eqb (strip s) ""); [now right|]. cbn zeta.
    assert (EV : forall t, match (match eval t with Some v => if isdict dictobj v then Ok v else Raise VdtTypeError | None => Raise VdtTypeError end) with
      | Ok r => r = YNone \/ isdict dictobj r = true | Raise e => e = VdtTypeError end).
    { intro t. destruct (eval t) as [w|]; [|reflexivity]. destruct (isdict dictobj w) eqn:E; auto. }
    destruct (m_funccall (strip s) || m_acc (strip s)); [apply EV|]. destruct (m_set (strip s)); [apply EV|reflexivity]. }
  assert (K2 : forall s (P : Prop), match (let s := strip s in if String.eqb s "" then Ok empty else
      let ev t := match eval t with Some v => if isdict dictobj v then Ok v else Raise VdtTypeError | None => Raise VdtTypeError end in
      if m_funccall s || m_acc s then ev s else if m_set s then ev ("dict(" ++ s ++ ")") else Raise VdtTypeError) with
    | Ok r => r = YNone \/ isdict dictobj r = true
    | Raise e => e = VdtTypeError \/ P
    end).
  { intros s P. cbn zeta. specialize (K s). cbn zeta in K. destruct (if String.eqb (strip s) "" then _ else _); auto. }
  destruct v as [|s|x|b|l|l|n].
  - right. split; intros (a & Ha); discriminate.
  - cbn [bind]. apply K2.
  - right. split; intros (a & Ha); discriminate.
  - right. split; intros (a & Ha); discriminate.
  - destruct (strings l) as [ss|e] eqn:E; cbn [bind]; [apply K2|]. right. split; intros (a & Ha); [discriminate|].
    injection Ha as ->. clear -E. exfalso. revert e E. induction a as [|x a IH]; cbn; [discriminate|]. intros e.
    destruct (strings (map YStr a)); cbn; [discriminate|]. intros _. exact (IH e0 eq_refl).
  - right. split; intros (a & Ha); discriminate.
  - right. split; intros (a & Ha); discriminate.
Qed.
(** "key = value, ..." is what dict(key = value, ...) evaluates to. *)
Theorem C52_dict_set eval dictobj empty g1 k g t g2 d : gap g1 -> gap g -> gap g2 -> k <> "" -> all_word k = true ->
  t <> "" -> all_chars not_newline t = true -> (forall c u, t = String c u -> is_space c = false) -> (forall c u, t = u ++ String c "" -> is_space c = false) ->
  eval ("dict(" ++ (k ++ g ++ "=" ++ t) ++ ")") = Some d -> isdict dictobj d = true ->
  is_dict eval dictobj empty (YStr (g1 ++ (k ++ g ++ "=" ++ t) ++ g2)) = Ok d.
Proof.
  intros G1 G G2 Nk Hk Nt Ht Hf Hl E Hd. set (m := k ++ g ++ "=" ++ t) in *.
  assert (Nm : m <> "") by (now apply app_nonempty).
  assert (Hlast : forall c u, m = u ++ String c "" -> is_space c = false).
  { intros c u Em. unfold m in Em. replace (k ++ g ++ "=" ++ t) with ((k ++ g ++ "=") ++ t) in Em by (now rewrite !sapp_assoc).
    destruct (last_app _ _ _ _ Nt Em) as [t' E']. eauto. }
  assert (Hfirst : forall c u, m = String c u -> is_word c = true).
  { intros c u Em. unfold m in Em. destruct (first_app _ _ _ _ Nk Em) as [t' E']. rewrite E' in Hk. cbn in Hk. now apply andb_true_iff in Hk. }
  assert (WS : forall c, is_word c = true -> is_space c = false) by (intro c; destruct c as [[] [] [] [] [] [] [] []]; auto; discriminate).
  assert (SW : forall c, is_space c = true -> is_word c = false) by (intros c Hc; destruct (is_word c) eqn:Ew; auto; apply WS in Ew; congruence).
  assert (St : strip (g1 ++ m ++ g2) = m) by (apply strip_gaps; eauto).
  assert (PN : prints_none (YStr (g1 ++ m ++ g2)) = false).
  { cbn. apply String.eqb_neq. intro X. assert (C : count "=" (g1 ++ m ++ g2) = count "=" "None") by now rewrite X.
    unfold m in C. rewrite !count_app in C. cbn in C. lia. }
  unfold is_dict. rewrite PN. cbn [isdict bind]. rewrite St. cbn zeta.
  destruct (String.eqb_spec m ""); [congruence|].
  assert (Hr : forall c u, g ++ "=" ++ t = String c u -> is_word c = false).
  { intros c u Er. destruct g as [|c0 g']; cbn in Er; injection Er as <- _; [reflexivity|]. unfold gap in G. cbn in G. apply andb_true_iff in G. now apply SW. }
  assert (SP : span_word m = (k, g ++ "=" ++ t)) by (now apply span_word_app).
  assert (F1 : m_funccall m = false).
  { unfold m_funccall. rewrite SP. destruct g as [|c0 g']; cbn [append]; [cbn; apply andb_false_r|].
    unfold gap in G. cbn in G. apply andb_true_iff in G. destruct G as [G _]. destruct (Ascii.eqb_spec c0 "(") as [->|]; [discriminate|]. cbn. apply andb_false_r. }
  assert (F2 : m_acc m = false).
  { unfold m_acc. destruct m as [|c u] eqn:Em; auto. assert (X := Hfirst c u eq_refl). destruct (Ascii.eqb_spec c "{") as [->|]; [discriminate|reflexivity]. }
  assert (F3 : m_set m = true).
  { unfold m_set. rewrite SP. apply nonempty_iff in Nk. rewrite Nk. cbn [andb]. rewrite lstrip_is, lstrip_set_app by exact G.
    cbn [append lstrip_set is_space]. assert (X : lstrip t = t). { rewrite lstrip_is. destruct t as [|c u]; auto. cbn. now rewrite (Hf c u eq_refl). }
    replace (is_space "=") with false by reflexivity. cbv iota. rewrite X. apply nonempty_iff in Nt. rewrite Nt, Ht. reflexivity. }
  rewrite F1, F2, F3. cbn [orb]. rewrite E, Hd. reflexivity.
Qed.
(** A list of texts is the text with commas. *)
Theorem C52_dict_list eval dictobj empty l : join_with ", " l <> "None" ->
  is_dict eval dictobj empty (YList (map YStr l)) = is_dict eval dictobj empty (YStr (join_with ", " l)).
Proof.
  intro H. unfold is_dict. cbn [prints_none isdict]. destruct (String.eqb_spec (join_with ", " l) "None"); [congruence|].
  assert (E : strings (map YStr l) = Ok l). { clear. induction l as [|x l IH]; cbn; auto. now rewrite IH. }
  rewrite E. reflexivity.
Qed.

(** *** Examples *)
Definition tf (s : string) : option fl := if String.eqb s "1" then Some (Some 1%Q) else if String.eqb s "-20.5" then Some (Some (-41 # 2)%Q) else None.
Example ex_bbox : is_bbox tf YNone (YStr " 1,-20.5  1 1 ") = Ok (YList [YNum (Some 1%Q); YNum (Some (-41 # 2)%Q); YNum (Some 1%Q); YNum (Some 1%Q)]) /\ tf "" = None.
Proof. split; reflexivity. Qed.
Example ex_delimited : delimited ["1"; "-20.5"; "1"; "1"] " 1,-20.5  1 1 ".
Proof.
  exists " ", "1,-20.5  1 1", " ". repeat split; try reflexivity.
  change "1,-20.5  1 1" with ("1" ++ "," ++ ("-20.5" ++ "  " ++ ("1" ++ " " ++ "1"))).
  repeat first [apply sep_comma | apply sep_blank | apply sep_one | split; [discriminate|reflexivity] | reflexivity | discriminate].
Qed.
(** False: "x1, y1, x2, y2" (a comma and a space) is a bbox. *)
Theorem C52_bbox_spaces_refuted to_float default a b c d : plain a -> plain b -> plain c -> plain d ->
  is_bbox to_float default (YStr (a ++ ", " ++ b ++ ", " ++ c ++ ", " ++ d)) = Raise VdtTypeError.
Proof.
  intros Ha Hb Hc Hd. unfold is_bbox. cbn [prints_none].
  destruct (String.eqb_spec (a ++ ", " ++ b ++ ", " ++ c ++ ", " ++ d) "None") as [E|E].
  { exfalso. assert (C : count "," (a ++ ", " ++ b ++ ", " ++ c ++ ", " ++ d) = count "," "None") by now rewrite E. rewrite !count_app in C. cbn in C. lia. }
  assert (NE : a ++ ", " ++ b ++ ", " ++ c ++ ", " ++ d <> "") by (apply app_nonempty, Ha).
  destruct (a ++ ", " ++ b ++ ", " ++ c ++ ", " ++ d) as [|x s] eqn:Es; [congruence|]. rewrite <- Es.
  assert (W : forall x s, plain x -> words_from "" (x ++ ", " ++ s) = (x ++ ",") :: words_from "" s).
  { intros x0 s0 Hx. rewrite words_nospace by now apply plain_space. cbn [append words_from]. replace (is_space ",") with false by reflexivity.
    replace (is_space " ") with true by reflexivity. assert (X : x0 ++ "," <> "") by (apply app_nonempty, Hx). apply nonempty_iff in X. now rewrite X. }
  unfold words. rewrite W, W, W by assumption. assert (D : words_from "" d = [d]).
  { assert (X := words_nospace d "" "" (plain_space _ Hd)). rewrite sapp_nil_r in X. rewrite X. cbn [append words_from]. destruct Hd as [Hd _]. apply nonempty_iff in Hd. now rewrite Hd. }
  rewrite D. cbn [flat_map]. rewrite !split_on_sep by (now apply plain_comma). rewrite (split_on_none "," d) by (now apply plain_comma). reflexivity.
Qed.
Definition ev (s : string) : option yval := if String.eqb s "-5" then Some (YNum (Some (-5)%Q)) else if String.eqb s "dict(a = 2, b='x')" then Some (YOther 3) else None.
Example ex_interval : is_interval ev (YStr "[( -5,surf,con)]") = Ok (YTuple [YNum (Some (-5)%Q); YStr "surf"; YStr "con"]) /\ bounds "con".
Proof. split; [reflexivity|]. exists "co", "n". repeat split; cbn; lia. Qed.
Example ex_interval_hyps : brackets "[( " /\ brackets ")]" /\ no_comma "-5" /\ no_comma "surf" /\
  (forall c t, "-5" = String c t -> is_bracket c = false).
Proof. repeat split; try reflexivity. intros c t E. injection E as <- _. reflexivity. Qed.
Example ex_interval_list : is_interval ev (YList [YStr "(-5"; YStr "surf)"]) = Ok (YTuple [YNum (Some (-5)%Q); YStr "surf"]).
Proof. reflexivity. Qed.
Definition isd (n : nat) : bool := Nat.eqb n 3.
Example ex_dict : is_dict ev isd (YOther 3) (YStr " a = 2, b='x' ") = Ok (YOther 3) /\ is_dict ev isd (YOther 3) (YList [YStr "a = 2"; YStr "b='x'"]) = Ok (YOther 3) /\
  is_dict ev isd (YOther 3) (YStr "2") = Raise VdtTypeError.
Proof. repeat split; reflexivity. Qed.
Example ex_path : is_path (fun s => "/home/me" ++ s) (YStr "a") (YStr "False") (YStr "/b") = Ok (YStr "/home/me/b") /\
  is_path (fun s => "/home/me" ++ s) (YStr "a") (YBool false) (YStr "") = Ok (YStr "a").
Proof. split; reflexivity. Qed.
