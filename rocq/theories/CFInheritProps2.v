(** C28, continued: uniqueness, properties of the inherited values, failures, examples. *)
From Verif Require Export CFInheritProps.
From Coq Require Import Lia.
Open Scope string_scope.

(** ** What an entry resolves to is unique: the order of the entries is irrelevant. *)
Lemma dict_same (a b : dict pyval) : dkeys a = dkeys b -> dict_wf a -> (forall k, dget a k = dget b k) -> a = b.
Proof. intros H1 H2 H3. now apply dict_ext. Qed.
Scheme over_mind := Induction for over Sort Prop with over_opt_mind := Induction for over_opt Sort Prop.
Combined Scheme over_mutind from over_mind, over_opt_mind.

Lemma over_fun : (forall a b c, over a b c -> forall c', over a b c' -> c = c') /\
  (forall a b c, over_opt a b c -> forall c', over_opt a b c' -> c = c').
Proof.
  apply over_mutind.
  - intros a b T c' H. inversion H; subst; auto; congruence.
  - intros a b T c' H. inversion H; subst; auto; try congruence.
    match goal with N : forall x y, ~ (VList _ = VList x /\ _) |- _ => exfalso; apply (N a b); auto end.
  - intros a b T c' H. inversion H; subst; auto; try congruence.
    match goal with N : forall x y, ~ (VTuple _ = VTuple x /\ _) |- _ => exfalso; apply (N a b); auto end.
  - intros a b c T Ho IH K c' H. inversion H as [? ? T'|? ? T'|? ? T'|? ? d T' Hk K'|? ? T' _ _ N]; subst; try congruence.
    + f_equal. apply dict_same; [congruence| |auto]. unfold dict_wf. rewrite K. apply gunique_str_nodup.
    + exfalso. apply (N a b). auto.
  - intros a b T N1 N2 N3 c' H. inversion H; subst; auto; try congruence.
    + exfalso. eapply N1; eauto.
    + exfalso. eapply N2; eauto.
    + exfalso. eapply N3; eauto.
  - intros b c' H. now inversion H.
  - intros a c' H. now inversion H.
  - intros a b c _ IH c' H. inversion H; subst. f_equal. auto.
Qed.

Lemma named_fun name own f g : valid_entry own -> named name own f -> named name own g -> forall k, dget f k = dget g k.
Proof.
  intros (W & _) (attrs & ln & A1 & A2 & A3) (attrs2 & ln2 & B1 & B2 & B3) k.
  rewrite A1 in B1. injection B1 as <-. rewrite A2 in B2. injection B2 as <-.
  destruct A3 as [[N ->]|(-> & fa & src & S1 & F1 & F2 & F3 & F4 & F5)], B3 as [[N' ->]|(E & ga & src' & S2 & G1 & G2 & G3 & G4 & G5)]; try congruence.
  destruct (String.eqb_spec k "attrs") as [->|Nk]; [|rewrite F1, G1; auto].
  rewrite F2, G2. do 2 f_equal.
  assert (Hsrc : src = src').
  { destruct S1 as [[S1 ->]|(r1 & S1)], S2 as [[S2 ->]|(r2 & S2)]; congruence. }
  subst src'. apply wf_dict in W. destruct W as [W1 W2]. assert (Wa := W2 _ _ A1). apply wf_dict in Wa. destruct Wa as [Wa _].
  apply dict_same.
  - congruence.
  - unfold dict_wf. rewrite F4. exact Wa.
  - intro k. destruct (String.eqb_spec k "long_name") as [->|Nk]; [congruence|]. rewrite F3, G3; auto.
Qed.

Theorem C28_unique cfg : (forall c n own, cfg c n = Some own -> valid_entry own) ->
  forall cat name e e', resolves cfg cat name e -> resolves cfg cat name e' -> forall k, dget e k = dget e' k.
Proof.
  intros V cat name e e' H. revert e'. induction H as [cat name own f e Hc Hr Hf Hp He We|
      cat name pc pn own f p m e Hc Hpa Hn Hf Hres IH Hm Hp Hi Hfor He We]; intros e' H' k.
  - inversion H' as [? ? own' f' ? Hc' Hr' Hf' Hp' He' We'|? ? ? ? ? ? ? ? ? ? Hpa']; subst.
    + rewrite Hc in Hc'. injection Hc' as <-. destruct (String.eqb_spec k "processed") as [->|N]; [congruence|].
      rewrite He, He' by auto. eapply named_fun; eauto.
    + exfalso. eapply root_no_parent; eauto.
  - inversion H' as [? ? own' f' ? Hc' Hr' Hf' Hp' He' We'|? ? pc' pn' own' f' p' m' ? Hc' Hpa' Hn' Hf' Hres' Hm' Hp' Hi' Hfor' He' We']; subst.
    + exfalso. eapply root_no_parent; eauto.
    + assert (E := parent_unique _ _ _ _ _ _ _ Hpa Hpa'). injection E as <- <-.
      rewrite Hc in Hc'. injection Hc' as <-.
      destruct (String.eqb_spec k "processed") as [->|N1]; [congruence|].
      destruct (String.eqb_spec k "inherit") as [->|N2]; [congruence|].
      assert (Hmm : dget m k = dget m' k).
      { specialize (Hm k). specialize (Hm' k). rewrite <- (IH p' Hres' k) in Hm'.
        rewrite <- (named_fun name own f f') in Hm' by eauto. eapply (proj2 over_fun); eauto. }
      assert (D : foreign cat pc k \/ ~ foreign cat pc k).
      { unfold foreign. rewrite <- !own_key_mem. destruct (string_dec cat pc), (str_mem k (cat_keys pc)), (str_mem k (cat_keys cat)); intuition congruence. }
      destruct D as [D|D].
      * rewrite Hfor, Hfor'; auto.
      * rewrite He, He'; auto.
Qed.

(** Two loadings of the same specifications in different orders give the same lookups. *)
Theorem C28_order_independent fuel fuel' s t s' t' :
  valid_cfg s -> valid_dims s -> valid_cfg t -> valid_dims t ->
  (forall c n, config_of s c n = config_of t c n) ->
  (forall cat name own, config_of s cat name = Some own ->
     exists n, chain (config_of s) cat name n /\ n < fuel /\ n < fuel') ->
  post_process fuel s = Ok s' -> post_process fuel' t = Ok t' ->
  forall cat name, match config_of s' cat name, config_of t' cat name with
    | None, None => True
    | Some e, Some e' => forall k, dget e k = dget e' k
    | _, _ => False
    end.
Proof.
  intros V1 D1 V2 D2 Heq Hch E1 E2 cat name.
  assert (Hc1 : forall cat name own, config_of s cat name = Some own -> exists n, chain (config_of s) cat name n /\ n < fuel).
  { intros c n own H. destruct (Hch c n own H) as (k & ? & ? & ?). eauto. }
  assert (Hpa : forall a b c d, has_parent (config_of s) a b c d -> has_parent (config_of t) a b c d).
  { intros a b c d (own & x & H1 & H2). exists own, x. rewrite <- Heq. auto. }
  assert (Hpa' : forall a b c d, has_parent (config_of t) a b c d -> has_parent (config_of s) a b c d).
  { intros a b c d (own & x & H1 & H2). exists own, x. rewrite Heq. auto. }
  assert (Hro : forall a b, is_root (config_of s) a b -> is_root (config_of t) a b).
  { intros a b (own & H1 & H2). exists own. rewrite <- Heq. auto. }
  assert (Hro' : forall a b, is_root (config_of t) a b -> is_root (config_of s) a b).
  { intros a b (own & H1 & H2). exists own. rewrite Heq. auto. }
  assert (Hct : forall a b n, chain (config_of s) a b n -> chain (config_of t) a b n).
  { induction 1; [constructor; auto|econstructor; eauto]. }
  assert (Hc2 : forall cat name own, config_of t cat name = Some own -> exists n, chain (config_of t) cat name n /\ n < fuel').
  { intros c n own H. rewrite <- Heq in H. destruct (Hch c n own H) as (k & ? & ? & ?). eauto. }
  assert (Hres : forall a b e, resolves (config_of t) a b e -> resolves (config_of s) a b e).
  { induction 1.
    - eapply res_root; eauto. rewrite Heq. eauto.
    - eapply res_child; eauto. rewrite Heq. eauto. }
  destruct (C28_inheritance fuel s V1 D1 Hc1) as (s1 & F1 & A1 & B1 & _). rewrite E1 in F1. injection F1 as <-.
  destruct (C28_inheritance fuel' t V2 D2 Hc2) as (t1 & F2 & A2 & B2 & _). rewrite E2 in F2. injection F2 as <-.
  destruct (config_of s cat name) as [own|] eqn:Ec.
  - destruct (A1 _ _ _ Ec) as (e & -> & R1). assert (Ec' := Ec). rewrite Heq in Ec'. destruct (A2 _ _ _ Ec') as (e' & -> & R2).
    apply (C28_unique (config_of s)) with (cat := cat) (name := name); auto.
    intros c n o Ho. assert (I := inv_init s V1 c n). rewrite Ho in I. apply I.
  - rewrite (B1 _ _ Ec). rewrite Heq in Ec. rewrite (B2 _ _ Ec). exact Logic.I.
Qed.

(** ** Reading a resolved entry *)
Definition attr (e : dict pyval) (k : string) : option pyval :=
  match dget e "attrs" with Some (VDict a) => dget a k | _ => None end.

(** An entry has its parent's value for each attribute it leaves empty, its own value otherwise,
    and lists of both. *)
Theorem C28_attrs cfg cat name e pcat pname own :
  resolves cfg cat name e -> cfg cat name = Some own -> has_parent cfg cat name pcat pname ->
  exists p, resolves cfg pcat pname p /\
  (exists pa, dget p "attrs" = Some (VDict pa)) /\
  forall k, k <> "long_name" -> over_opt (attr own k) (attr p k) (attr e k).
Proof.
  intros R Hc Hp. inversion R as [? ? own' f' ? Hc' Hr' |? ? pc pn own' f p m ? Hc' Hpa Hn Hf Hres Hm Hpr Hi Hfor He We]; subst.
  { exfalso. eapply root_no_parent; eauto. }
  assert (E := parent_unique _ _ _ _ _ _ _ Hp Hpa). injection E as <- <-. rewrite Hc in Hc'. injection Hc' as <-.
  exists p. split; auto. destruct (named_get _ _ _ Hf) as (Hg & fa & attrs & ln & A1 & A2 & A3 & A4 & A5).
  assert (Hpat : exists pa, dget p "attrs" = Some (VDict pa)).
  { clear - Hres. induction Hres as [cat name own f e Hc Hr Hf Hp He We|
      cat name pc pn own f p m e Hc Hpa Hn Hf Hres IH Hm Hp Hi Hfor He We];
      destruct (named_get _ _ _ Hf) as (Hg & fa & attrs & ln & A1 & A2 & A3 & A4 & A5).
    - exists fa. rewrite He by discriminate. exact A1.
    - destruct IH as (pa & Hpa'). specialize (Hm "attrs"). rewrite A1, Hpa' in Hm.
      destruct (over_opt_dicts fa pa (dget m "attrs")) as (d & Ed & _); auto.
      { destruct fa; [discriminate A4|reflexivity]. }
      exists d. rewrite He; try discriminate; auto. apply not_foreign_name; simpl; auto. }
  split; auto. intros k Nk. destruct Hpat as (pa & Hpa'). specialize (Hm "attrs"). rewrite A1, Hpa' in Hm.
  destruct (over_opt_dicts fa pa (dget m "attrs")) as (d & Ed & Hd); auto.
  { destruct fa; [discriminate A4|reflexivity]. }
  unfold attr. rewrite A2, Hpa', He; try discriminate; [|apply not_foreign_name; simpl; auto].
  rewrite Ed. specialize (Hd k). rewrite A3 in Hd by auto. exact Hd.
Qed.
(** Lists of attributes (standard names, units...) are concatenated along the chain. *)
Theorem C28_attr_lists cfg cat name e pcat pname own k a :
  resolves cfg cat name e -> cfg cat name = Some own -> has_parent cfg cat name pcat pname ->
  k <> "long_name" -> attr own k = Some (VList a) ->
  exists p, resolves cfg pcat pname p /\
    forall b, attr p k = Some (VList b) -> attr e k = Some (VList (a ++ b)).
Proof.
  intros R Hc Hp Nk Ha. destruct (C28_attrs _ _ _ _ _ _ _ R Hc Hp) as (p & Rp & _ & H). exists p. split; auto.
  intros b Hb. specialize (H k Nk). rewrite Ha, Hb in H. now apply over_opt_lists in H.
Qed.
(** Lists of names too, and a set option of an entry hides that of the parent: as a validated
    [domain] or [search_order] is never empty, these two are not inherited. *)
Theorem C28_options cfg cat name e pcat pname own k :
  resolves cfg cat name e -> cfg cat name = Some own -> has_parent cfg cat name pcat pname ->
  In k ["name"; "domain"; "search_order"] ->
  exists p, resolves cfg pcat pname p /\ over_opt (dget own k) (dget p k) (dget e k) /\
    forall s, dget own k = Some (VStr s) -> s <> "" -> dget e k = Some (VStr s).
Proof.
  intros R Hc Hp Hk. inversion R as [? ? own' f' ? Hc' Hr' |? ? pc pn own' f p m ? Hc' Hpa Hn Hf Hres Hm Hpr Hi Hfor He We]; subst.
  { exfalso. eapply root_no_parent; eauto. }
  assert (E := parent_unique _ _ _ _ _ _ _ Hp Hpa). injection E as <- <-. rewrite Hc in Hc'. injection Hc' as <-.
  exists p. split; auto. destruct (named_get _ _ _ Hf) as (Hg & _).
  assert (Nk : k <> "attrs" /\ k <> "processed" /\ k <> "inherit").
  { simpl in Hk. repeat split; intros ->; intuition discriminate. }
  destruct Nk as (N1 & N2 & N3).
  assert (F : ~ foreign cat pcat k). { apply not_foreign_name. simpl in Hk |- *. intuition. }
  specialize (Hm k). rewrite Hg in Hm by auto. rewrite He by auto. split; auto.
  intros s Hs Ns. rewrite Hs in Hm. inversion Hm as [|? X|? ? c Ho]; subst; auto.
  inversion Ho as [? ? T|? ? T|? ? T|? ? ? T|? ? T N]; subst; auto.
  cbn [truthy] in T. destruct (String.eqb_spec s ""); [congruence|discriminate].
Qed.

(** ** Failures *)
Lemma loop_or cfg fuel cat name st : inv cfg st -> (exists own, cfg cat name = Some own) ->
  (exists st' its e, process_entry fuel cat name st = Ok (st', its) /\ inv cfg st' /\
     ent st' cat name = Some (VDict e) /\ final cfg cat name e) \/
  exists ex, process_entry fuel cat name st = Raise ex.
Proof.
  revert cat name st. induction fuel as [|fuel IH]; intros cat name st Hi (own & Hc); [right; eexists; reflexivity|].
  assert (H := Hi cat name). rewrite Hc in H. destruct H as (V & e & He & _).
  destruct (ent_get _ _ _ _ He) as (entries & Hg & Hd).
  destruct (fill_cases cfg cat name own e st Hi Hc He) as (f & F & H).
  cbn [process_entry]. rewrite Hg. cbn [bind]. unfold getitem. rewrite Hd. cbn [bind as_dict]. rewrite F. cbn [bind].
  destruct H as [[H ->]|(H1 & H2 & H3 & H4 & H5)].
  - rewrite (inherit_falsy cat e) by apply H. cbn [bind]. rewrite cat_set_set, (dset_same e) by apply H.
    left. do 3 eexists. split; [reflexivity|]. split; [eapply set_inv; eauto|].
    rewrite (ent_set _ _ _ _ _ cat name Hg), !String.eqb_refl. split; [reflexivity|exact H].
  - assert (D : falsy (dget own "inherit") \/ exists s, dget own "inherit" = Some (VStr s) /\ s <> "").
    { destruct V as (_ & _ & V). unfold falsy. destruct (dget own "inherit") as [[]|]; auto; try contradiction.
      cbn [truthy]. destruct (String.eqb_spec s ""); [left; subst; reflexivity|right; eauto]. }
    destruct D as [D|(s & S1 & S2)].
    + rewrite (inherit_falsy cat f) by (rewrite H5; exact D). cbn [bind]. rewrite cat_set_set.
      assert (Fin : final cfg cat name (dset f "processed" (VBool true))).
      { eapply root_final; eauto. exists own. auto. }
      left. do 3 eexists. split; [reflexivity|]. split; [eapply set_inv; eauto|].
      rewrite (ent_set _ _ _ _ _ cat name Hg), !String.eqb_refl. split; [reflexivity|exact Fin].
    + assert (S1' := S1). rewrite <- H5 in S1'. rewrite (inherit_str cat f s S1' S2). cbn [bind].
      assert (Hpar := parent_refers cat s). destruct (parent_of cat s) as [pc pn]. cbn [fst snd] in Hpar.
      assert (HP : has_parent cfg cat name pc pn) by (exists own, s; auto).
      destruct (String.eqb pc cat && String.eqb name pn) eqn:Eb; [right; eexists; reflexivity|].
      assert (Hn : (pc, pn) <> (cat, name)). { intro X. injection X as -> ->. rewrite !String.eqb_refl in Eb. discriminate. }
      set (st1 := cat_set st cat (dset entries name (VDict f))).
      assert (I1 : inv cfg st1) by (eapply set_inv; eauto).
      destruct (cfg pc pn) as [pown|] eqn:Ep.
      2:{ right. destruct fuel as [|fuel]; [eexists; reflexivity|]. rewrite (process_missing cfg pc pn st1 fuel I1 Ep). eexists; reflexivity. }
      destruct (IH pc pn st1 I1 (ex_intro _ pown Ep)) as [(st2 & its & pe & E2 & I2 & Hpe & Fp)|(ex & E2)]; rewrite E2; [|right; eexists; reflexivity].
      cbn [bind].
      destruct (ent_get _ _ _ _ Hpe) as (pentries & Hpg & Hpdd). rewrite Hpg. cbn [bind]. rewrite Hpdd. cbn [bind as_dict].
      destruct (cf_merge_ok f pe H4) as (m & Em & Wm & Hm); [apply Fp|]. rewrite Em. cbn [bind].
      assert (H' := I2 cat name). rewrite Hc in H'. destruct H' as (_ & e2 & He2 & _).
      destruct (ent_get _ _ _ _ He2) as (entries2 & Hg2 & Hd2). rewrite Hg2. cbn [bind].
      assert (Fin := child_final cfg cat name pc pn own f pe m Hc HP Hn H2 H3 Fp Wm Hm).
      left. do 3 eexists. split; [reflexivity|]. split; [eapply set_inv; eauto|].
      rewrite (ent_set _ _ _ _ _ cat name Hg2), !String.eqb_refl. split; [reflexivity|exact Fin].
Qed.

(** An entry that inherits from itself, from a missing entry, or endlessly, makes the loading fail. *)
Inductive wrong (cfg : config) (cat name : string) : exn -> nat -> Prop :=
| wrong_self k ac an : ancestor cfg cat name k ac an -> has_parent cfg ac an ac an -> wrong cfg cat name AssertionError (S k)
| wrong_missing k ac an : ancestor cfg cat name k ac an -> cfg ac an = None -> wrong cfg cat name KeyError (S k)
| wrong_endless : (forall k, exists ac an, ancestor cfg cat name k ac an) -> wrong cfg cat name RecursionError 0.

Lemma process_wrong cfg cat name ex need fuel st : wrong cfg cat name ex need -> need <= fuel -> inv cfg st ->
  process_entry fuel cat name st = Raise ex.
Proof.
  intros H L Hi. destruct H as [k ac an Ha Hp|k ac an Ha Hc|Hend].
  - assert (Hno : forall n, ~ chain cfg ac an n).
    { intros n Hch. inversion Hch as [? ? Hr|? ? ? ? ? HP' Nq]; subst.
      - eapply root_no_parent; eauto.
      - assert (X := parent_unique _ _ _ _ _ _ _ Hp HP'). congruence. }
    eapply process_ends; eauto. intros fuel' st' Hi'.
    destruct (process_child cfg ac an ac an st' fuel' Hp Hi' Hno) as (st1 & _ & H). now rewrite !String.eqb_refl in H.
  - eapply process_ends; eauto.
    + intros n Hch. inversion Hch as [? ? (o & A & _)|? ? ? ? ? (o & ? & A & _)]; congruence.
    + intros fuel' st' Hi'. now apply (process_missing cfg).
  - now apply (process_endless cfg).
Qed.

Theorem C28_wrong_inheritance fuel st cat name own ex need :
  valid_cfg st -> config_of st cat name = Some own -> wrong (config_of st) cat name ex need -> need <= fuel ->
  process_entry fuel cat name st = Raise ex /\ exists ex', post_process fuel st = Raise ex'.
Proof.
  intros V Hc Hw L. assert (I := inv_init st V). split; [eapply process_wrong; eauto|].
  unfold post_process.
  set (todo := (map (pair "data_vars") (dkeys (data_vars st)) ++ map (pair "coords") (dkeys (coords st)))%list).
  assert (Hin : In (cat, name) todo).
  { rewrite config_ent in Hc. unfold ent in Hc. unfold todo. rewrite in_app_iff, !in_map_iff.
    destruct (String.eqb_spec cat "data_vars") as [->|N1].
    + left. exists name. split; auto. apply dmem_in. unfold dmem. destruct (dget (data_vars st) name); [reflexivity|discriminate].
    + destruct (String.eqb_spec cat "coords") as [->|N2]; [|discriminate].
      right. exists name. split; auto. apply dmem_in. unfold dmem. destruct (dget (coords st) name); [reflexivity|discriminate]. }
  destruct (process_all_bad (config_of st) fuel todo cat name Hin) with (st := st) (items := @nil item) as (ex' & E).
  - intros st' Hi'. exists ex. eapply process_wrong; eauto.
  - intros c n Hcn st' Hi'.
    assert (Hown : exists own, config_of st c n = Some own).
    { unfold todo in Hcn. rewrite in_app_iff, !in_map_iff in Hcn.
      destruct Hcn as [(x & Ex & Hx)|(x & Ex & Hx)]; injection Ex as <- <-; apply in_map_iff in Hx; destruct Hx as ([n1 v] & En & Hv); cbn [fst] in En; subst.
      * destruct V as [(W1 & V1) _]. destruct (V1 _ _ Hv) as (o & -> & _). exists o. rewrite config_ent. unfold ent.
        rewrite String.eqb_refl. apply (proj2 (dget_in _ _ _ W1)) in Hv. now rewrite Hv.
      * destruct V as [_ (W1 & V1)]. destruct (V1 _ _ Hv) as (o & -> & _). exists o. rewrite config_ent. unfold ent.
        cbn [String.eqb Ascii.eqb Bool.eqb]. apply (proj2 (dget_in _ _ _ W1)) in Hv. now rewrite Hv. }
    destruct (loop_or (config_of st) fuel c n st' Hi' Hown) as [(st2 & its & e & E & I2 & _)|H]; [left|right; exact H].
    exists st2, its. auto.
  - exact I.
  - rewrite E. cbn [bind]. eauto.
Qed.

(** *** Examples: temp inherits from tempo of the other category, which inherits from base. *)
Definition mk (names : list pyval) (inh : pyval) (sn ln : list pyval) (axis : option pyval) (dom : string) : pyval :=
  VDict ([("name", VList names); ("domain", VStr dom); ("inherit", inh); ("search_order", VStr "sn");
   ("attrs", VDict ([("long_name", VList ln); ("standard_name", VList sn); ("units", VList [])] ++ match axis with Some v => [("axis", v)] | None => [] end))])%list.
Definition ex_cfg (inh_base : pyval) : cfdict := mkcf
  [("temp", mk [VStr "T"] (VStr "coords:tempo") [VStr "sea_temperature"] [] None "generic");
   ("base", mk [VStr "B"; VStr "T"] inh_base [VStr "temperature"] [VStr "Base"] None "ocean")]
  [("tempo", mk [] (VStr "data_vars:base") [] [] (Some (VStr "Z")) "atmos")]
  [("x", VList []); ("z", VList [VStr "lev"])].
Example ex_cfg_valid : valid_cfg (ex_cfg VNone) /\ valid_dims (ex_cfg VNone).
Proof.
  assert (W : forall d : dict pyval, dict_wf d -> (forall k v, dget d k = Some v -> wf v) -> wf (VDict d)).
  { intros. apply wf_dict. auto. }
  assert (V : forall names inh sn ln axis dom, (inh = VNone \/ exists s, inh = VStr s) -> (forall v, In v sn -> exists s, v = VStr s) ->
     match axis with Some (VDict _) => False | _ => True end ->
     exists own, mk names inh sn ln axis dom = VDict own /\ valid_entry own).
  { intros names inh sn ln axis dom Hi Hs Hax. eexists. split; [reflexivity|]. split; [|split].
    - simpl. destruct Hi as [->|[s ->]]; destruct axis as [[]|]; try contradiction; simpl;
        repeat split; repeat (constructor; [simpl; intuition discriminate|]); constructor.
    - do 3 eexists. split; [reflexivity|]. split; [reflexivity|]. split; [reflexivity|exact Hs].
    - simpl. destruct Hi as [->|[s ->]]; exact Logic.I. }
  split.
  - split; (split; [repeat (constructor; [simpl; intuition discriminate|]); constructor|]);
      intros name v Hin; simpl in Hin;
      repeat (destruct Hin as [E|Hin]; [injection E as <- <-; apply V;
        [eauto|intros ? Hx; simpl in Hx; intuition (subst; eauto)|exact Logic.I]|]); destruct Hin.
  - split; [repeat (constructor; [simpl; intuition discriminate|]); constructor|].
    intros cat name own H. unfold config_of in H.
    destruct (String.eqb_spec cat "data_vars") as [->|N1].
    + simpl in H. destruct (String.eqb name "temp"); [|destruct (String.eqb name "base"); [|discriminate]];
        injection H as <-; (split; [eexists; reflexivity|]); intros attrs E; injection E as <-; (split; [discriminate|]); intros v E; discriminate.
    + destruct (String.eqb cat "coords"); [|discriminate]. simpl in H. destruct (String.eqb name "tempo"); [|discriminate].
      injection H as <-; (split; [eexists; reflexivity|]); intros attrs E; injection E as <-; split.
      * intros _. eexists. reflexivity.
      * intros v E; injection E as <-. right. exists "Z". split; auto. intros _. exists [VStr "lev"]. reflexivity.
Qed.
(** The duplicated name stays; the own default long name precedes the inherited ones; the domain is
    not inherited; the axis of the coordinate reaches the variable. *)
Example ex_cfg_resolved :
  match post_process 5 (ex_cfg VNone) with
  | Ok st => match config_of st "data_vars" "temp" with
    | Some e => dget e "name" = Some (VList [VStr "T"; VStr "B"; VStr "T"]) /\
        attr e "long_name" = Some (VList [VStr "Sea temperature"; VStr "Tempo"; VStr "Base"]) /\
        attr e "standard_name" = Some (VList [VStr "sea_temperature"; VStr "temperature"]) /\
        dget e "domain" = Some (VStr "generic") /\ attr e "axis" = Some (VStr "Z") /\
        dget (dims st) "z" = Some (VList [VStr "lev"; VStr "tempo"; VStr "B"; VStr "T"])
    | None => False end
  | Raise _ => False end.
Proof. vm_compute. repeat split. Qed.
Example ex_chain : chain (config_of (ex_cfg VNone)) "data_vars" "temp" 2.
Proof.
  apply (chain_step _ _ _ "coords" "tempo").
  - do 2 eexists. repeat split; try reflexivity; try discriminate.
    apply refers_other; [reflexivity| |]; simpl; repeat split; discriminate.
  - discriminate.
  - apply (chain_step _ _ _ "data_vars" "base").
    + do 2 eexists. repeat split; try reflexivity; try discriminate.
      apply refers_other; [reflexivity| |]; simpl; repeat split; discriminate.
    + discriminate.
    + constructor. eexists. split; reflexivity.
Qed.
(** A cycle: base inherits from temp. *)
Lemma ex_cycle_parents : let cfg := config_of (ex_cfg (VStr "temp")) in
  has_parent cfg "data_vars" "temp" "coords" "tempo" /\ has_parent cfg "coords" "tempo" "data_vars" "base" /\
  has_parent cfg "data_vars" "base" "data_vars" "temp".
Proof.
  repeat split; do 2 eexists; repeat split; try reflexivity; try discriminate.
  - apply refers_other; [reflexivity| |]; simpl; repeat split; discriminate.
  - apply refers_other; [reflexivity| |]; simpl; repeat split; discriminate.
  - apply refers_same. simpl. repeat split; discriminate.
Qed.
Example ex_cycle : wrong (config_of (ex_cfg (VStr "temp"))) "data_vars" "temp" RecursionError 0.
Proof.
  apply wrong_endless. destruct ex_cycle_parents as (P1 & P2 & P3).
  assert (H : forall k c n, In (c, n) [("data_vars", "temp"); ("coords", "tempo"); ("data_vars", "base")] ->
    exists ac an, ancestor (config_of (ex_cfg (VStr "temp"))) c n k ac an).
  { induction k as [|k IH]; intros c n Hin; [exists c, n; constructor|].
    simpl in Hin. destruct Hin as [E|[E|[E|[]]]]; injection E as <- <-.
    - destruct (IH "coords" "tempo") as (a & b & H); [simpl; auto|]. exists a, b. econstructor; eauto; discriminate.
    - destruct (IH "data_vars" "base") as (a & b & H); [simpl; auto|]. exists a, b. econstructor; eauto; discriminate.
    - destruct (IH "data_vars" "temp") as (a & b & H); [simpl; auto|]. exists a, b. econstructor; eauto; discriminate. }
  intro k. apply H. simpl. auto.
Qed.
Example ex_missing : post_process 9 (ex_cfg (VStr "nothing")) = Raise KeyError.
Proof. vm_compute. reflexivity. Qed.
Example ex_self : post_process 9 (ex_cfg (VStr "base")) = Raise AssertionError.
Proof. vm_compute. reflexivity. Qed.
