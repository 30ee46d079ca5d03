(** Lemmas for C28: the recursion and the loop. *)
From Verif Require Export CFInheritProofs2.
From Coq Require Import Lia.
Open Scope string_scope.

Definition good_items (cfg : config) (items : list item) : Prop :=
  Forall (fun it : item => let '(c, n, s) := it in (exists own, cfg c n = Some own) /\ final cfg c n s) items.

Lemma has_parent_own cfg cat name own pc pn : cfg cat name = Some own -> has_parent cfg cat name pc pn ->
  exists s, dget own "inherit" = Some (VStr s) /\ s <> "" /\ parent_of cat s = (pc, pn).
Proof.
  intros E (own' & s & E' & H1 & H2 & H3). rewrite E in E'. injection E' as <-. exists s.
  repeat split; auto. now apply refers_parent.
Qed.
Lemma pair_neq (a b c d : string) : (a, b) <> (c, d) -> String.eqb a c && String.eqb d b = false.
Proof. intro H. destruct (String.eqb_spec a c), (String.eqb_spec d b); subst; auto. congruence. Qed.

Lemma fill_cases cfg cat name own e st : inv cfg st -> cfg cat name = Some own -> ent st cat name = Some (VDict e) ->
  exists f, fill_long_name name e = Ok f /\
    ((final cfg cat name e /\ f = e) \/
     (fill_long_name name own = Ok f /\ named name own f /\ titled f /\ wf (VDict f) /\ dget f "inherit" = dget own "inherit")).
Proof.
  intros Hi Hc He. specialize (Hi cat name). rewrite Hc in Hi. destruct Hi as (V & e' & E & H).
  rewrite He in E. injection E as <-. destruct (fill_ok name own V) as (f & F & Hf).
  destruct H as [->|[H|H]].
  - exists f. auto.
  - rewrite F in H. injection H as <-. exists f. split; [apply fill_titled, Hf|]. right. auto.
  - exists e. split; [apply fill_titled, H|]. auto.
Qed.

Lemma process_ok cfg cat name n : chain cfg cat name n ->
  forall fuel st, n < fuel -> inv cfg st ->
  exists st' items e, process_entry fuel cat name st = Ok (st', items) /\
    inv cfg st' /\ good_items cfg items /\ same_keys st' st /\ In (cat, name, e) items /\
    ent st' cat name = Some (VDict e) /\ final cfg cat name e.
Proof.
  induction 1 as [cat name Hr|cat name pc pn n Hp Hn Hch IH]; intros fuel st Hf Hi;
    (destruct fuel as [|fuel]; [lia|]).
  - (* root *)
    destruct Hr as (own & Hc & Hroot). assert (H := Hi cat name). rewrite Hc in H.
    destruct H as (V & e & He & _). destruct (ent_get _ _ _ _ He) as (entries & Hg & Hd).
    destruct (fill_cases cfg cat name own e st Hi Hc He) as (f & F & H).
    cbn [process_entry]. rewrite Hg. cbn [bind]. unfold getitem. rewrite Hd. cbn [bind as_dict].
    rewrite F. cbn [bind].
    assert (Fin : final cfg cat name (dset f "processed" (VBool true))).
    { destruct H as [[H ->]|(H1 & H2 & H3 & H4 & H5)].
      - rewrite dset_same; [exact H|apply H].
      - eapply root_final; eauto. exists own. auto. }
    assert (I : falsy (dget f "inherit")).
    { destruct H as [[H ->]|(H1 & H2 & H3 & H4 & H5)]; [apply H|]. rewrite H5. exact Hroot. }
    rewrite (inherit_falsy cat f I). cbn [bind]. rewrite cat_set_set.
    do 3 eexists. split; [reflexivity|]. split; [eapply set_inv; eauto|]. split; [|split; [|split; [|split]]].
    + constructor; [|constructor]. split; [eauto|exact Fin].
    + apply same_keys_set; auto. unfold dmem. now rewrite Hd.
    + left. reflexivity.
    + rewrite (ent_set _ _ _ _ _ cat name Hg), !String.eqb_refl. reflexivity.
    + exact Fin.
  - (* child *)
    assert (Hp' := Hp). destruct Hp' as (own & s & Hc & _). assert (H := Hi cat name). rewrite Hc in H.
    destruct H as (V & e & He & _). destruct (ent_get _ _ _ _ He) as (entries & Hg & Hd).
    destruct (fill_cases cfg cat name own e st Hi Hc He) as (f & F & H).
    cbn [process_entry]. rewrite Hg. cbn [bind]. unfold getitem. rewrite Hd. cbn [bind as_dict].
    rewrite F. cbn [bind].
    destruct H as [[H ->]|(H1 & H2 & H3 & H4 & H5)].
    + rewrite (inherit_falsy cat e) by apply H. cbn [bind]. rewrite cat_set_set.
      rewrite (dset_same e) by apply H.
      do 3 eexists. split; [reflexivity|]. split; [eapply set_inv; eauto|]. split; [|split; [|split; [|split]]].
      * constructor; [|constructor]. split; eauto.
      * apply same_keys_set; auto. unfold dmem. now rewrite Hd.
      * left. reflexivity.
      * rewrite (ent_set _ _ _ _ _ cat name Hg), !String.eqb_refl. reflexivity.
      * exact H.
    + destruct (has_parent_own _ _ _ _ _ _ Hc Hp) as (s' & S1 & S2 & S3).
      rewrite <- H5 in S1. rewrite (inherit_str cat f s' S1 S2), S3. cbn [bind].
      rewrite (pair_neq pc pn cat name Hn).
      set (st1 := cat_set st cat (dset entries name (VDict f))).
      assert (I1 : inv cfg st1) by (eapply set_inv; eauto).
      assert (K1 : same_keys st1 st). { apply same_keys_set; auto. unfold dmem. now rewrite Hd. }
      destruct (IH fuel st1) as (st2 & items & p & E & I2 & G2 & K2 & _ & Hp2 & Fp); [lia|exact I1|].
      rewrite E. cbn [bind]. destruct (ent_get _ _ _ _ Hp2) as (pentries & Hpg & Hpd).
      rewrite Hpg. cbn [bind]. rewrite Hpd. cbn [bind as_dict].
      assert (Wp : wf (VDict p)) by apply Fp.
      destruct (cf_merge_ok f p H4 Wp) as (m & Em & Wm & Hm). rewrite Em. cbn [bind].
      assert (H' := I2 cat name). rewrite Hc in H'. destruct H' as (_ & e2 & He2 & _).
      destruct (ent_get _ _ _ _ He2) as (entries2 & Hg2 & Hd2). rewrite Hg2. cbn [bind].
      assert (Fin := child_final cfg cat name pc pn own f p m Hc Hp Hn H2 H3 Fp Wm Hm).
      do 3 eexists. split; [reflexivity|]. split; [eapply set_inv; eauto|]. split; [|split; [|split; [|split]]].
      * apply Forall_app. split; [exact G2|]. constructor; [|constructor]. split; eauto.
      * eapply same_keys_trans; [|eapply same_keys_trans; [exact K2|exact K1]].
        apply same_keys_set; auto. unfold dmem. now rewrite Hd2.
      * apply in_or_app. right. left. reflexivity.
      * rewrite (ent_set _ _ _ _ _ cat name Hg2), !String.eqb_refl. reflexivity.
      * exact Fin.
Qed.

(** Results of entries that have no complete chain *)
Lemma process_child cfg cat name pc pn st fuel :
  has_parent cfg cat name pc pn -> inv cfg st ->
  (forall n, ~ chain cfg cat name n) ->
  exists st1, inv cfg st1 /\
    (if String.eqb pc cat && String.eqb name pn then process_entry (S fuel) cat name st = Raise AssertionError
     else forall ex, process_entry fuel pc pn st1 = Raise ex -> process_entry (S fuel) cat name st = Raise ex).
Proof.
  intros Hp Hi Hno. assert (Hp' := Hp). destruct Hp' as (own & s & Hc & _). assert (H := Hi cat name). rewrite Hc in H.
  destruct H as (V & e & He & _). destruct (ent_get _ _ _ _ He) as (entries & Hg & Hd).
  destruct (fill_cases cfg cat name own e st Hi Hc He) as (f & F & H).
  destruct H as [[H ->]|(H1 & H2 & H3 & H4 & H5)].
  - exfalso. destruct H as (R & _). clear - R Hno. induction R as [cat name own f e Hc Hr|cat name pc pn own f p m e Hc Hp Hn _ _ IH].
    + apply (Hno 0). now constructor.
    + apply IH. intros n Hch. apply (Hno (S n)). econstructor; eauto.
  - destruct (has_parent_own _ _ _ _ _ _ Hc Hp) as (s' & S1 & S2 & S3). rewrite <- H5 in S1.
    exists (cat_set st cat (dset entries name (VDict f))). split; [eapply set_inv; eauto|].
    cbn [process_entry]. rewrite Hg. cbn [bind]. unfold getitem. rewrite Hd. cbn [bind as_dict].
    rewrite F. cbn [bind]. rewrite (inherit_str cat f s' S1 S2), S3. cbn [bind].
    destruct (String.eqb pc cat && String.eqb name pn); [reflexivity|].
    intros ex E. rewrite E. reflexivity.
Qed.
Lemma process_missing cfg cat name st fuel : inv cfg st -> cfg cat name = None ->
  process_entry (S fuel) cat name st = Raise KeyError.
Proof.
  intros Hi Hc. specialize (Hi cat name). rewrite Hc in Hi. cbn [process_entry].
  unfold ent, cat_get in *. destruct (String.eqb cat "data_vars").
  - cbn [bind]. unfold getitem. rewrite Hi. reflexivity.
  - destruct (String.eqb cat "coords"); [|reflexivity]. cbn [bind]. unfold getitem. rewrite Hi. reflexivity.
Qed.

Lemma parent_unique cfg cat name pc pn pc' pn' : has_parent cfg cat name pc pn ->
  has_parent cfg cat name pc' pn' -> (pc, pn) = (pc', pn').
Proof.
  intros H H'. assert (Hc := H). destruct Hc as (own & s & Hc & _).
  destruct (has_parent_own _ _ _ _ _ _ Hc H) as (s1 & A1 & A2 & A3).
  destruct (has_parent_own _ _ _ _ _ _ Hc H') as (s2 & B1 & B2 & B3). congruence.
Qed.
Lemma root_no_parent cfg cat name pc pn : is_root cfg cat name -> has_parent cfg cat name pc pn -> False.
Proof.
  intros (own & E & H) (own' & s & E' & H1 & H2 & _). rewrite E in E'. injection E' as <-. rewrite H1 in H.
  cbn [truthy] in H. destruct (String.eqb_spec s ""); [congruence|discriminate].
Qed.
Lemma no_chain_parent cfg cat name pc pn : has_parent cfg cat name pc pn -> (pc, pn) <> (cat, name) ->
  (forall n, ~ chain cfg pc pn n) -> forall n, ~ chain cfg cat name n.
Proof.
  intros Hp Hn Hno n Hch. inversion Hch as [? ? Hr|? ? pc' pn' n' Hp' Hn' Hc']; subst.
  - eapply root_no_parent; eauto.
  - assert (E := parent_unique _ _ _ _ _ _ _ Hp Hp'). injection E as -> ->. eapply Hno; eauto.
Qed.

Lemma process_ends cfg cat name k ac an : ancestor cfg cat name k ac an ->
  (forall n, ~ chain cfg ac an n) ->
  forall ex, (forall fuel st, inv cfg st -> process_entry (S fuel) ac an st = Raise ex) ->
  forall fuel st, k < fuel -> inv cfg st -> process_entry fuel cat name st = Raise ex.
Proof.
  induction 1 as [cat name|cat name pc pn n ac an Hp Hn Ha IH]; intros Hno ex Hex fuel st Hk Hi;
    (destruct fuel as [|fuel]; [lia|]); auto.
  assert (Hno' : forall n, ~ chain cfg pc pn n).
  { clear IH. clear - Ha Hno. induction Ha as [|c2 n2 pc2 pn2 n0 a1 a2 Hp2 Hn2 Ha2 IH2]; auto.
    eapply no_chain_parent; eauto. }
  destruct (process_child cfg cat name pc pn st fuel Hp Hi) as (st1 & I1 & H).
  { eapply no_chain_parent; eauto. }
  rewrite (pair_neq _ _ _ _ Hn) in H. apply H. apply IH; auto. lia.
Qed.

(** Endless inheritance *)
Lemma process_endless cfg cat name : (forall k, exists ac an, ancestor cfg cat name k ac an) ->
  forall fuel st, inv cfg st -> process_entry fuel cat name st = Raise RecursionError.
Proof.
  intros H fuel. revert cat name H. induction fuel as [|fuel IH]; intros cat name H st Hi; [reflexivity|].
  assert (Hno : forall n, ~ chain cfg cat name n).
  { intros n Hch. destruct (H (S n)) as (ac & an & Ha). clear - Hch Ha. revert ac an Ha.
    induction Hch as [cat name Hr|cat name pc pn n Hp Hn Hch IH]; intros ac an Ha; inversion Ha; subst.
    - eapply root_no_parent; eauto.
    - match goal with H1 : has_parent cfg cat name pc pn, H2 : has_parent cfg cat name ?a ?b |- _ =>
        assert (E := parent_unique _ _ _ _ _ _ _ H1 H2); injection E as -> -> end. eauto. }
  destruct (H 1) as (ac & an & Ha). inversion Ha as [|? ? pc pn ? ? ? Hp Hn _]; subst.
  destruct (process_child cfg cat name pc pn st fuel Hp Hi Hno) as (st1 & I1 & H').
  rewrite (pair_neq _ _ _ _ Hn) in H'. apply H'. apply IH; auto.
  intro k. destruct (H (S k)) as (bc & bn & Hb). inversion Hb as [|? ? pc' pn' ? ? ? Hp' Hn' Hb']; subst.
  assert (E := parent_unique _ _ _ _ _ _ _ Hp Hp'). injection E as -> ->. eauto.
Qed.

(** ** The loop *)
Lemma process_all_ok cfg fuel todo :
  (forall c n, In (c, n) todo -> exists k, chain cfg c n k /\ k < fuel) ->
  forall st items, inv cfg st -> good_items cfg items ->
  exists st' items', process_all fuel todo st items = Ok (st', items') /\ inv cfg st' /\ same_keys st' st /\
    good_items cfg items' /\ (exists more, items' = items ++ more)%list /\
    forall c n, In (c, n) todo -> exists e, In (c, n, e) items'.
Proof.
  induction todo as [|[c n] todo IH]; intros Hch st items Hi Hg.
  - exists st, items. cbn [process_all]. repeat split; auto. + exists []. now rewrite app_nil_r. + intros ? ? [].
  - cbn [process_all]. destruct (Hch c n) as (k & Hk & Hlt); [left; reflexivity|].
    destruct (process_ok cfg c n k Hk fuel st Hlt Hi) as (st1 & its & e & E & I1 & G1 & K1 & In1 & _).
    rewrite E. cbn [bind].
    destruct (IH (fun c n H => Hch c n (or_intror H)) st1 (items ++ its)%list I1) as (st2 & its2 & E2 & I2 & K2 & G2 & (more & M2) & H2).
    { apply Forall_app. auto. }
    exists st2, its2. split; auto. split; auto. split; [eapply same_keys_trans; eauto|]. split; auto. split.
    + exists (its ++ more)%list. now rewrite M2, app_assoc.
    + intros c' n' [H|H]; [|auto]. injection H as <- <-. exists e. rewrite M2.
      apply in_or_app. left. apply in_or_app. right. exact In1.
Qed.
Lemma process_all_bad cfg fuel todo c n :
  In (c, n) todo -> (forall st, inv cfg st -> exists ex, process_entry fuel c n st = Raise ex) ->
  (forall c n, In (c, n) todo -> forall st, inv cfg st ->
     (exists st' its, process_entry fuel c n st = Ok (st', its) /\ inv cfg st') \/ exists ex, process_entry fuel c n st = Raise ex) ->
  forall st items, inv cfg st -> exists ex, process_all fuel todo st items = Raise ex.
Proof.
  intros Hin Hbad Hall. induction todo as [|[c0 n0] todo IH]; intros st items Hi; [destruct Hin|].
  cbn [process_all]. destruct (Hall c0 n0 (or_introl eq_refl) st Hi) as [(st' & its & E & I')|[ex E]].
  - rewrite E. cbn [bind]. destruct Hin as [H|Hin].
    + injection H as -> ->. destruct (Hbad st Hi) as [ex E']. congruence.
    + apply IH; auto. intros c1 n1 H. apply Hall. now right.
  - rewrite E. cbn [bind]. eauto.
Qed.

Lemma refill_spec cfg cat items : good_items cfg items -> forall acc,
  let r := fold_left (fun d it => let '(c, n, s) := it in if String.eqb c cat then dset d n (VDict s) else d) items acc in
  (dict_wf acc -> dict_wf r) /\
  forall n, (dget r n = dget acc n /\ (forall e, ~ In (cat, n, e) items)) \/
    (exists e, In (cat, n, e) items /\ dget r n = Some (VDict e)).
Proof.
  induction items as [|[[c n0] s] items IH]; intros Hg acc r; subst r.
  - split; auto.
  - cbn [fold_left]. inversion Hg as [|? ? _ Hg']; subst. specialize (IH Hg').
    destruct (String.eqb_spec c cat) as [->|N].
    + destruct (IH (dset acc n0 (VDict s))) as [W H]. split.
      * intro Wa. apply W. now apply dset_wf.
      * intro n. destruct (H n) as [[E Hno]|(e & Hin & E)].
        -- rewrite E, dget_dset. destruct (String.eqb_spec n n0) as [->|Nn].
           ++ right. exists s. split; [left; reflexivity|reflexivity].
           ++ left. split; auto. intros e [H'|H']; [congruence|]. eapply Hno; eauto.
        -- right. exists e. split; [right; exact Hin|exact E].
    + destruct (IH acc) as [W H]. split; auto.
      intro n. destruct (H n) as [[E Hno]|(e & Hin & E)].
      * left. split; auto. intros e [H'|H']; [congruence|]. eapply Hno; eauto.
      * right. exists e. split; [right; exact Hin|exact E].
Qed.
