(** C42: [xoa.sigma.decode_formula_terms]; C45: [get_sigma_terms] and [decode_cf_sigma]. *)
From Verif Require Import PyReFacts PyDictFacts FormulaTerms FormulaTermsSpec FormulaTermsProofs.
From Coq Require Import Lia.
Open Scope string_scope.

Lemma decode_items_ok l kvs : Forall2 (fun p kv => item_of p (fst kv) (snd kv)) l kvs ->
  forall d, decode_items l d = Ok (dupdate d kvs).
Proof.
  induction 1 as [|p [k v] l kvs H _ IH]; intro d; auto.
  cbn [decode_items fst snd] in *. rewrite (proj2 (split_item_one p k v) H). now rewrite IH.
Qed.
Lemma decode_items_bad l : (exists p, In p l /\ colons p <> 1) -> forall d, decode_items l d = Raise XoaSigmaError.
Proof.
  induction l as [|q l IH]; intros (p & Hin & Hp) d; [easy|].
  cbn [decode_items]. assert (L := split_item_length q).
  destruct (split_with m_item q) as [|k [|v [|]]] eqn:E; auto.
  apply IH. destruct Hin as [-> | Hin]; [cbn in L; lia|eauto].
Qed.
Lemma item_exists p : colons p = 1 -> exists k v, item_of p k v.
Proof.
  intro H. destruct (colons_split p) as [|(u & v & -> & Hu)]; [lia|].
  rewrite colons_app in H. cbn in H. exists (rstrip u), (lstrip v), u, v.
  split; [reflexivity|]. split; [auto|]. split; [lia|auto].
Qed.
Lemma items_exist l : (exists p, In p l /\ colons p <> 1) \/
  exists kvs, Forall2 (fun p kv => item_of p (fst kv) (snd kv)) l kvs.
Proof.
  induction l as [|p l [(q & Hq & Hc) | (kvs & IH)]].
  - right. exists []. constructor.
  - left. exists q. split; [now right|auto].
  - destruct (Nat.eq_dec (colons p) 1) as [E|E].
    + destruct (item_exists p E) as (k & v & H). right. exists ((k, v) :: kvs). now constructor.
    + left. exists p. split; [now left|auto].
Qed.
Lemma dget_last kvs : forall d k, dget (dupdate d kvs) k =
  match last_binding kvs k with Some v => Some v | None => dget d k end.
Proof.
  induction kvs as [|[k' v'] kvs IH]; intros d k; [reflexivity|].
  cbn [dupdate fold_left last_binding fst snd]. fold (dupdate (dset d k' v') kvs). rewrite IH.
  destruct (last_binding kvs k); auto. rewrite dget_dset. now destruct (String.eqb k k').
Qed.
Lemma dupdate_fresh kvs : forall d : dict string, NoDup (dkeys d ++ map fst kvs) -> dupdate d kvs = (d ++ kvs)%list.
Proof.
  induction kvs as [|[k v] kvs IH]; intros d H.
  - now rewrite app_nil_r.
  - cbn [dupdate fold_left fst snd]. fold (dupdate (dset d k v) kvs).
    assert (Hk : ~ In k (dkeys d)).
    { apply NoDup_remove_2 in H. intro Hk. apply H. apply in_or_app. auto. }
    rewrite dset_new by auto. rewrite IH; [now rewrite <- app_assoc|].
    unfold dkeys in *. rewrite map_app, <- app_assoc. exact H.
Qed.

(** Every string is cut, in exactly one way, at the white spaces between two word characters;
    the result is the mapping of the "key: value" pieces (the last one wins), and the call
    raises if a piece does not have exactly one colon. *)
Theorem C42_every_attribute attr :
  exists l, pieces l attr /\ (forall l', pieces l' attr -> l' = l) /\
  ((exists p, In p l /\ colons p <> 1) -> decode_formula_terms attr = Raise XoaSigmaError) /\
  (forall kvs, Forall2 (fun p kv => item_of p (fst kv) (snd kv)) l kvs ->
     exists d, decode_formula_terms attr = Ok d /\ dict_wf d /\ forall k, dget d k = last_binding kvs k) /\
  ((exists p, In p l /\ colons p <> 1) \/
   exists kvs, Forall2 (fun p kv => item_of p (fst kv) (snd kv)) l kvs).
Proof.
  exists (split_with m_terms attr). split; [apply pieces_exist|].
  split; [intros l' H; now rewrite (pieces_unique _ _ H)|].
  split; [intro H; now apply decode_items_bad|].
  split; [|apply items_exist].
  intros kvs H. exists (dupdate [] kvs). split; [now apply decode_items_ok|].
  split; [apply dupdate_wf; constructor|]. intro k. rewrite dget_last.
  now destruct (last_binding kvs k).
Qed.
Print Assumptions C42_every_attribute.

(** *** What CF writes *)
Lemma word_no_space_in x s a b : all_chars is_word s = true -> s = a ++ x ++ b -> blank x -> x = "".
Proof.
  intros Hw -> Hb. rewrite !all_chars_app in Hw. apply andb_prop in Hw as [_ Hw].
  apply andb_prop in Hw as [Hw _]. destruct x as [|c x]; auto. cbn in Hw. apply andb_prop in Hw as [Hw _].
  apply blank_cons in Hb as [Hb _]. apply space_not_word in Hb. congruence.
Qed.
Lemma item_no_gap t a b v : word t -> word v -> blank a -> blank b -> ~ has_gap (t ++ a ++ ":" ++ b ++ v).
Proof.
  intros [_ Ht] [_ Hv] Ha Hb (a' & w1 & x & w2 & b' & E & H1 & H2 & Hx & Hbx).
  change (a' ++ String w1 (x ++ String w2 b')) with (a' ++ String w1 "" ++ x ++ String w2 b') in E.
  (* position of the colon *)
  assert (C : forall p q, p ++ q = t ++ a ++ ":" ++ b ++ v ->
     (exists z, t ++ a = p ++ z /\ q = z ++ ":" ++ b ++ v) \/ (exists z, p = t ++ a ++ ":" ++ z /\ b ++ v = z ++ q)).
  { intros p q Epq. destruct (Nat.le_gt_cases (String.length p) (String.length (t ++ a))) as [L|L].
    - left. rewrite <- (sapp_assoc t a) in Epq. apply sapp_split in Epq as (z & Ez & Eq'); auto.
      exists z. auto.
    - right. rewrite <- (sapp_assoc t a) in Epq. symmetry in Epq.
      apply sapp_split in Epq as (z & Ez & Eq'); [|lia].
      destruct z as [|c z]; [rewrite sapp_nil_r in Ez; rewrite Ez in L; lia|].
      cbn in Eq'. injection Eq' as <- Eq'. exists z. rewrite Ez, sapp_assoc. auto. }
  symmetry in E. rewrite <- sapp_assoc in E.
  destruct (C _ _ E) as [(z & E1 & E2) | (z & E1 & E2)].
  - (* w1 in t ++ a, so in t *)
    assert (E2' : z ++ String ":" (b ++ v) = x ++ String w2 b') by (symmetry; exact E2).
    destruct (blank_dec z) as [Hz|Hz].
    + apply blank_split in E2' as (-> & E3); auto; [|now apply word_not_space].
      injection E3 as <- _. discriminate.
    + (* z not blank: w2 is inside z, t ++ a = a' w1 x w2 z' *)
      rewrite sapp_assoc in E1.
      destruct (Nat.le_gt_cases (String.length z) (String.length x)) as [L|L].
      * apply sapp_split in E2' as (y & -> & _); [|auto]. apply blank_app in Hbx as [Hbz _]. auto.
      * symmetry in E2'. apply sapp_split in E2' as (y & Ez & E3); [|lia].
        destruct y as [|d y]; [rewrite sapp_nil_r in Ez; rewrite Ez in L; lia|].
        cbn in E3. injection E3 as <- _. subst z.
        (* in t ++ a, w2 is a word character, so everything up to w2 is in t *)
        assert (E1' : t ++ a = (a' ++ String w1 "" ++ x ++ String w2 "") ++ y).
        { rewrite E1. rewrite !sapp_assoc. reflexivity. }
        destruct (Nat.le_gt_cases (String.length (a' ++ String w1 "" ++ x ++ String w2 "")) (String.length t)) as [L2|L2].
        -- symmetry in E1'. apply sapp_split in E1' as (u & Et & _); auto.
           apply Hx. apply (word_no_space_in x t (a' ++ String w1 "") (String w2 u)); auto.
           rewrite Et. rewrite !sapp_assoc. reflexivity.
        -- apply sapp_split in E1' as (u & Et & Ea); [|lia].
           rewrite Ea in Ha. apply blank_app in Ha as [Hu _].
           destruct (snoc_cases u) as [-> | (u' & c & ->)]; [rewrite sapp_nil_r in Et; rewrite Et in L2; lia|].
           assert (Ec : (a' ++ String w1 "" ++ x) ++ String w2 "" = (t ++ u') ++ String c "").
           { rewrite !sapp_assoc. exact Et. }
           apply snoc_inj in Ec as [_ <-]. apply blank_app in Hu as [_ Hu].
           apply blank_cons in Hu as [Hu _]. apply space_not_word in Hu. congruence.
  - (* w1 after the colon *)
    destruct (snoc_cases z) as [-> | (z' & c & ->)].
    { assert (Ew : a' ++ String w1 "" = (t ++ a) ++ String ":" "") by (rewrite E1; now rewrite sapp_assoc).
      apply snoc_inj in Ew as [_ ->]. discriminate. }
    assert (Ec : a' ++ String w1 "" = (t ++ a ++ ":" ++ z') ++ String c "").
    { rewrite E1. now rewrite !sapp_assoc. }
    apply snoc_inj in Ec as [_ <-].
    rewrite sapp_assoc in E2. cbn in E2.
    (* b ++ v = z' w1 x w2 b' : w1 is a word character so z' w1 goes beyond b *)
    destruct (Nat.le_gt_cases (String.length (z' ++ String w1 "")) (String.length b)) as [L|L].
    + assert (E3 : (z' ++ String w1 "") ++ x ++ String w2 b' = b ++ v) by (rewrite E2, sapp_assoc; reflexivity).
      apply sapp_split in E3 as (u & Eb & _); auto. rewrite Eb in Hb.
      apply blank_app in Hb as [Hb _]. apply blank_app in Hb as [_ Hb]. apply blank_cons in Hb as [Hb _].
      apply space_not_word in Hb. congruence.
    + assert (E3 : b ++ v = (z' ++ String w1 "") ++ x ++ String w2 b') by (rewrite E2, sapp_assoc; reflexivity).
      apply sapp_split in E3 as (u & Eb & Ev); [|lia].
      apply Hx. now apply (word_no_space_in x v u (String w2 b')).
Qed.
Lemma word_last v : word v -> exists v' w, v = v' ++ String w "" /\ is_word w = true.
Proof.
  intros [Hn Hv]. destruct (snoc_cases v) as [|(v' & w & ->)]; [easy|]. exists v', w. split; auto.
  rewrite all_chars_app in Hv. apply andb_prop in Hv as [_ Hv]. cbn in Hv. now apply andb_prop in Hv as [Hv _].
Qed.
Lemma written_head ps s : written ps s -> exists w r, s = String w r /\ is_word w = true.
Proof.
  assert (G : forall t r, word t -> exists w r', t ++ r = String w r' /\ is_word w = true).
  { intros [|w t] r [Hn Ht]; [easy|]. cbn in Ht. apply andb_prop in Ht as [Ht _]. exists w, (t ++ r). auto. }
  destruct 1; apply G; auto.
Qed.
Lemma rstrip_word_blank t a : word t -> blank a -> rstrip (t ++ a) = t.
Proof.
  intros [Hn Ht] Ha. clear Hn. induction t as [|c t IH]; cbn; [now apply rstrip_blank|].
  cbn in Ht. apply andb_prop in Ht as [Hc Ht]. rewrite IH by auto.
  rewrite (word_not_space c Hc). now destruct t.
Qed.
Lemma lstrip_blank_word b v : blank b -> word v -> lstrip (b ++ v) = v.
Proof.
  intros Hb [Hn Hv]. induction b as [|c b IH]; cbn.
  - destruct v as [|c v]; auto. cbn in Hv |- *. apply andb_prop in Hv as [Hc _].
    now rewrite (word_not_space c Hc).
  - apply blank_cons in Hb as [Hc Hb]. rewrite Hc. auto.
Qed.
Lemma colons_word w : word w -> colons w = 0.
Proof. intros [_ H]. now apply (colons_class is_word). Qed.
Lemma colons_blank w : blank w -> colons w = 0.
Proof. intros H. now apply (colons_class is_space). Qed.
Lemma written_item t a b v : word t -> word v -> blank a -> blank b ->
  item_of (t ++ a ++ ":" ++ b ++ v) t v.
Proof.
  intros Ht Hv Ha Hb. exists (t ++ a), (b ++ v). split; [now rewrite !sapp_assoc|].
  rewrite !colons_app, (colons_word t), (colons_word v), (colons_blank a), (colons_blank b) by auto.
  rewrite rstrip_word_blank, lstrip_blank_word by auto. auto.
Qed.
Lemma written_pieces ps s : written ps s ->
  exists l, pieces l s /\ Forall2 (fun p kv => item_of p (fst kv) (snd kv)) l ps.
Proof.
  induction 1 as [t v a b Ht Hv Ha Hb|t v a b sep ps s Ht Hv Ha Hb Hs Hn Hw (l & IH & IHF)].
  - eexists. split; [apply p_last; now apply item_no_gap|]. constructor; [now apply written_item|constructor].
  - destruct (word_last v Hv) as (v' & w & Ev & Hw1).
    destruct (written_head _ _ Hw) as (w2 & r & -> & Hw2).
    assert (E : t ++ a ++ ":" ++ b ++ v = (t ++ a ++ ":" ++ b ++ v') ++ String w "")
      by (rewrite Ev, !sapp_assoc; reflexivity).
    exists ((t ++ a ++ ":" ++ b ++ v) :: l). split.
    + replace (t ++ a ++ ":" ++ b ++ v ++ sep ++ String w2 r)
        with ((t ++ a ++ ":" ++ b ++ v') ++ String w (sep ++ String w2 r))
        by (rewrite Ev, !sapp_assoc; reflexivity).
      rewrite E. constructor; auto. rewrite <- E. now apply item_no_gap.
    + constructor; auto. now apply written_item.
Qed.
Lemma written_decode ps s : written ps s -> decode_formula_terms s = Ok (dupdate [] ps).
Proof.
  intro H. destruct (written_pieces _ _ H) as (l & Hl & HF).
  unfold decode_formula_terms. rewrite (pieces_unique _ _ Hl). now apply decode_items_ok.
Qed.

(** Whatever the white space, the attribute "t1: v1 t2: v2 ..." decodes to the mapping of its pairs. *)
Theorem C42_roundtrip ps s : written ps s ->
  (exists d, decode_formula_terms s = Ok d /\ dict_wf d /\ forall k, dget d k = last_binding ps k) /\
  (NoDup (map fst ps) -> decode_formula_terms s = Ok ps).
Proof.
  intro H. rewrite (written_decode _ _ H). split.
  - exists (dupdate [] ps). split; auto. split; [apply dupdate_wf; constructor|].
    intro k. rewrite dget_last. now destruct (last_binding ps k).
  - intro Hn. now rewrite dupdate_fresh.
Qed.
Print Assumptions C42_roundtrip.

Definition roms_terms : list (string * string) :=
  [("s", "sc_r"); ("C", "Cs_r"); ("eta", "zeta"); ("depth", "h"); ("depth_c", "hc")].
Definition roms_attr := "s: sc_r C: Cs_r eta: zeta depth :h   depth_c: hc".
Example C42_written : written roms_terms roms_attr.
Proof.
  assert (W : forall s, nonempty s && all_chars is_word s = true -> word s).
  { intros s H. apply andb_prop in H as [H1 H2]. split; auto. now apply nonempty_iff. }
  apply (w_cons "s" "sc_r" "" " " " "); try (now apply W); try easy.
  apply (w_cons "C" "Cs_r" "" " " " "); try (now apply W); try easy.
  apply (w_cons "eta" "zeta" "" " " " "); try (now apply W); try easy.
  apply (w_cons "depth" "h" " " "" "   "); try (now apply W); try easy.
  apply (w_one "depth_c" "hc" "" " "); try (now apply W); easy.
Qed.
Example C42_decoded : decode_formula_terms roms_attr = Ok roms_terms.
Proof. vm_compute. reflexivity. Qed.
(** Leading and trailing white space ends up in the names; an empty attribute raises; a
    variable name ending with a character that is not a word character is not separated *)
Example C42_not_stripped : decode_formula_terms " s: sc_r" = Ok [(" s", "sc_r")].
Proof. vm_compute. reflexivity. Qed.
Example C42_not_stripped_r : decode_formula_terms "s: sc_r " = Ok [("s", "sc_r ")].
Proof. vm_compute. reflexivity. Qed.
Example C42_empty : decode_formula_terms "" = Raise XoaSigmaError.
Proof. vm_compute. reflexivity. Qed.
Example C42_not_word : decode_formula_terms "s: a+ C: b" = Raise XoaSigmaError.
Proof. vm_compute. reflexivity. Qed.
