(** Facts for C25. *)
From Verif Require Export OptionsSpec PyDictFacts PyBaseFacts.
Open Scope nat_scope.

Definition look (o : options) (s k : string) : option oval := dget (section_of o s) k.
Lemma look_opt_of o s k : look o s k = opt_of o s k.
Proof. unfold look, section_of, opt_of. destruct (dget o s); reflexivity. Qed.
Lemma look_dset o s d s' k : look (dset o s d) s' k = if String.eqb s' s then dget d k else look o s' k.
Proof. unfold look, section_of. rewrite dget_dset. destruct (String.eqb s' s); reflexivity. Qed.

Lemma validate_section_dget spec : forall s k, dict_wf spec ->
  dget (validate_section spec s) k =
  match dget spec k with
  | Some c => Some (match dget s k with Some v => check c v | None => default_of c end)
  | None => dget s k
  end.
Proof.
  unfold validate_section. induction spec as [|[k0 c0] spec IH]; intros s k Hw; [reflexivity|].
  cbn [fold_left fst snd]. assert (Hw' : dict_wf spec) by (inversion Hw; auto).
  rewrite IH by auto. cbn [dget]. rewrite !dget_dset.
  destruct (String.eqb_spec k k0) as [->|Hne]; [|reflexivity].
  assert (Hn : dget spec k0 = None) by (apply dget_none; inversion Hw; auto).
  now rewrite Hn.
Qed.
Lemma validate_look o s k :
  look (validate o) s k =
  match documented s k with
  | Some c => Some (match look o s k with Some v => check c v | None => default_of c end)
  | None => look o s k
  end.
Proof.
  unfold validate, config_specs. cbn [fold_left fst snd]. rewrite look_dset.
  destruct (String.eqb_spec s "plot") as [->|H1].
  - rewrite validate_section_dget.
    2: { repeat (constructor; [simpl; intuition discriminate|]). constructor. }
    fold (look (dset o "cf" (validate_section [("accessors", CBool true); ("cache", CBool true)]%string (section_of o "cf"))) "plot" k).
    rewrite look_dset. cbn [String.eqb Ascii.eqb Bool.eqb documented dget].
    destruct (String.eqb k "cmapdiv"); [reflexivity|]. destruct (String.eqb k "cmappos"); [reflexivity|].
    destruct (String.eqb k "cmapneg"); [reflexivity|]. destruct (String.eqb k "cmapcyc"); reflexivity.
  - rewrite look_dset. destruct (String.eqb_spec s "cf") as [->|H2].
    + rewrite validate_section_dget.
      2: { repeat (constructor; [simpl; intuition discriminate|]). constructor. }
      cbn [dget]. unfold documented. cbn [String.eqb Ascii.eqb Bool.eqb].
      destruct (String.eqb k "accessors"); [reflexivity|]. destruct (String.eqb k "cache"); reflexivity.
    + unfold documented. rewrite (proj2 (String.eqb_neq _ _) H2), (proj2 (String.eqb_neq _ _) H1). reflexivity.
Qed.
Lemma validate_nonempty o : validate o <> [].
Proof.
  unfold validate, config_specs. cbn [fold_left]. intro H.
  match type of H with dset ?d ?k ?v = [] => assert (E : dget (dset d k v) k = None) by (rewrite H; reflexivity) end.
  rewrite dget_dset, String.eqb_refl in E. discriminate.
Qed.

Definition wf2 (e : options) : Prop := dict_wf e /\ forall s d, dget e s = Some d -> dict_wf d.
Lemma merge_look e : forall o s k, wf2 e ->
  look (merge o e) s k = match look e s k with Some v => Some v | None => look o s k end.
Proof.
  unfold merge. induction e as [|[s0 d0] e IH]; intros o s k [Hw Hd]; [reflexivity|].
  cbn [fold_left fst snd].
  assert (Hw' : wf2 e).
  { split; [inversion Hw; auto|]. intros s' d' H. apply (Hd s'). cbn [dget].
    destruct (String.eqb_spec s' s0) as [->|]; auto.
    exfalso. assert (Hn : dget e s0 = None) by (apply dget_none; inversion Hw; auto). congruence. }
  rewrite IH by auto. rewrite look_dset.
  assert (Hd0 : dict_wf d0) by (apply (Hd s0); cbn [dget]; now rewrite String.eqb_refl).
  unfold look at 1 3, section_of. cbn [dget].
  destruct (String.eqb_spec s s0) as [->|Hne].
  - assert (Hn : dget e s0 = None) by (apply dget_none; inversion Hw; auto).
    rewrite Hn. cbn [dget]. rewrite dget_dupdate. rewrite last_bound_wf by auto. reflexivity.
  - reflexivity.
Qed.

(** *** Keywords *)
Lemma section_wf o s : wf2 o -> dict_wf (section_of o s).
Proof.
  intros [_ H]. unfold section_of. destruct (dget o s) eqn:E; [now apply (H s)|]. constructor.
Qed.
Lemma wf2_dset o s d : wf2 o -> dict_wf d -> wf2 (dset o s d).
Proof.
  intros [H1 H2] Hd. split; [now apply dset_wf|]. intros s' d'. rewrite dget_dset.
  destruct (String.eqb s' s); [intro E; injection E as <-; auto|apply H2].
Qed.
Definition parse_from (section : option string) (opts : list (string * oval)) (acc : res options) : res options :=
  fold_left (fun acc kv =>
    let* o := acc in
    let* so := match re_option (fst kv) with
               | Some so => Ok so
               | None => match section with Some s => Ok (s, fst kv) | None => Raise XoaConfigError end
               end in
    Ok (dset o (fst so) (dset (section_of o (fst so)) (snd so) (snd kv)))) opts acc.
Lemma parse_from_raise section opts e : parse_from section opts (Raise e) = Raise e.
Proof. induction opts; simpl; auto. Qed.
Lemma parse_ok section : forall opts o, wf2 o ->
  (forall name v, In (name, v) opts -> designated section name <> None) ->
  exists o', parse_from section opts (Ok o) = Ok o' /\ wf2 o' /\
    forall s k, look o' s k = match given section opts s k with Some v => Some v | None => look o s k end.
Proof.
  induction opts as [|[name v] opts IH]; intros o Hw Hd.
  - exists o. auto.
  - assert (H0 := Hd name v (or_introl eq_refl)).
    assert (Ed : exists s0 k0, designated section name = Some (s0, k0) /\
      match re_option name with
      | Some so => Ok so
      | None => match section with Some s => Ok (s, name) | None => Raise XoaConfigError end end = Ok (s0, k0)).
    { unfold designated in *. destruct (re_option name) as [[s0 k0]|]; [eauto|]. destruct section; [eauto|congruence]. }
    destruct Ed as (s0 & k0 & E1 & E2).
    unfold parse_from. cbn [fold_left]. cbn [bind fst snd]. rewrite E2. cbn [bind fst snd].
    fold (parse_from section opts (Ok (dset o s0 (dset (section_of o s0) k0 v)))).
    destruct (IH (dset o s0 (dset (section_of o s0) k0 v))) as (o' & E3 & W3 & L3).
    + apply wf2_dset; auto. apply dset_wf. now apply section_wf.
    + intros n w H. apply (Hd n w). simpl; auto.
    + exists o'. split; auto. split; auto. intros s k. rewrite L3. cbn [given].
      destruct (given section opts s k); auto. rewrite E1. rewrite look_dset.
      destruct (String.eqb_spec s s0) as [->|Hs].
      * rewrite String.eqb_refl. cbn [andb]. rewrite dget_dset.
        destruct (String.eqb_spec k k0) as [->|Hk]; [now rewrite String.eqb_refl|].
        destruct (String.eqb_spec k0 k); [congruence|reflexivity].
      * destruct (String.eqb_spec s0 s); [congruence|reflexivity].
Qed.
Lemma parse_bad section : forall opts acc name v, In (name, v) opts -> designated section name = None ->
  parse_from section opts acc = Raise XoaConfigError \/ exists e, acc = Raise e.
Proof.
  induction opts as [|[n w] opts IH]; intros acc name v Hin Hd; [destruct Hin|].
  destruct acc as [o|e]; [|right; eauto]. left. unfold parse_from. cbn [fold_left bind fst snd].
  match goal with |- fold_left _ opts ?x = _ => change (parse_from section opts x = Raise XoaConfigError) end.
  destruct Hin as [E|Hin].
  - injection E as -> ->. unfold designated in Hd. destruct (re_option name); [discriminate|].
    destruct section; [discriminate|]. cbn [bind]. apply parse_from_raise.
  - destruct (IH (let* so := match re_option n with
               | Some so => Ok so
               | None => match section with Some s => Ok (s, n) | None => Raise XoaConfigError end
               end in Ok (dset o (fst so) (dset (section_of o (fst so)) (snd so) w))) name v Hin Hd) as [H|[e H]]; auto.
    assert (e = XoaConfigError).
    { destruct (re_option n); [discriminate|]. destruct section; [discriminate|]. cbn [bind] in H. congruence. }
    subst e. etransitivity; [|apply (parse_from_raise section opts)]. f_equal. exact H.
Qed.

(** *** States *)
Definition Inv (st : state) : Prop :=
  (forall i, cache st = Some i -> i < List.length (objs st)) /\
  (forall i, i < List.length (objs st) -> exists o, content st i = validate o).
Lemma Inv_init : Inv init.
Proof. split; simpl; [discriminate|lia]. Qed.
Lemma content_upd l i j o : i < List.length l -> nth j (upd l i o) ([] : options) = if j =? i then o else nth j l [].
Proof.
  revert i j; induction l as [|x l IH]; intros i j H; simpl in H; [lia|].
  destruct i as [|i], j as [|j]; simpl; auto. rewrite IH by lia. reflexivity.
Qed.
Lemma upd_len {A} (l : list A) i x : List.length (upd l i x) = List.length l.
Proof. revert i; induction l; intros [|i]; simpl; auto. Qed.

(** load_options: the object of the cache, new or not *)
Lemma load_facts user cfg st : Inv st ->
  let st' := load_options user cfg st in
  let i := match cache st with Some i => i | None => List.length (objs st) end in
  let o := match cache st with Some i => content st i | None => user end in
  Inv st' /\ cache st' = Some i /\ List.length (objs st) <= List.length (objs st') /\
  content st' i = validate (match cfg with [] => o | _ => merge o cfg end) /\
  (forall j, j <> i -> j < List.length (objs st) -> content st' j = content st j).
Proof.
  intros [I1 I2]. cbn zeta. unfold load_options. destruct (cache st) as [i|] eqn:Ec.
  - specialize (I1 i eq_refl). cbn [cache].
    assert (Hc : forall j, content (mkst (upd (objs st) i (validate
       match cfg with [] => content st i | _ :: _ => merge (content st i) cfg end)) (Some i)) j =
       if j =? i then validate match cfg with [] => content st i | _ :: _ => merge (content st i) cfg end else content st j).
    { intro j. unfold content at 1. cbn [objs]. now apply content_upd. }
    split; [split|split; [reflexivity|split; [|split]]].
    + intros j H. cbn [cache objs] in *. injection H as <-. now rewrite upd_len.
    + intros j H. cbn [objs] in H. rewrite upd_len in H. rewrite Hc. destruct (j =? i); eauto.
    + cbn [objs]. rewrite upd_len. lia.
    + rewrite Hc, Nat.eqb_refl. reflexivity.
    + intros j Hj _. rewrite Hc. now rewrite (proj2 (Nat.eqb_neq _ _) Hj).
  - set (n := List.length (objs st)). cbn [cache objs].
    assert (Hu : content (mkst (objs st ++ [user]) (Some n)) n = user).
    { unfold content. cbn [objs]. rewrite app_nth2 by (unfold n; lia). unfold n. rewrite Nat.sub_diag. reflexivity. }
    rewrite Hu. set (o := validate _).
    assert (Hl : List.length (objs st ++ [user]) = S n) by (rewrite app_length; simpl; unfold n; lia).
    assert (Hc : forall j, content (mkst (upd (objs st ++ [user]) n o) (Some n)) j =
       if j =? n then o else nth j (objs st ++ [user]) []).
    { intro j. unfold content. cbn [objs]. apply content_upd. rewrite Hl. lia. }
    split; [split|split; [reflexivity|split; [|split]]].
    + intros j H. cbn [cache objs] in *. injection H as <-. rewrite upd_len, Hl. lia.
    + intros j H. cbn [objs] in H. rewrite upd_len, Hl in H. rewrite Hc. destruct (Nat.eqb_spec j n); [unfold o; eauto|].
      rewrite app_nth1 by (unfold n in *; lia). apply I2. unfold n in *; lia.
    + cbn [objs]. rewrite upd_len, Hl. unfold n. lia.
    + rewrite Hc, Nat.eqb_refl. reflexivity.
    + intros j Hj Hlt. rewrite Hc. rewrite (proj2 (Nat.eqb_neq _ _) Hj). rewrite app_nth1 by auto. reflexivity.
Qed.
Lemma Inv_none st : Inv st -> Inv (mkst (objs st) None).
Proof. intros [H1 H2]. split; [discriminate|exact H2]. Qed.

(** Objects below [n] are neither in the cache nor modified. *)
Definition above (n : nat) (st : state) : Prop :=
  n <= List.length (objs st) /\ match cache st with Some i => n <= i | None => True end.
Definition same_below (n : nat) (st st' : state) : Prop :=
  forall j, j < n -> content st' j = content st j.

Lemma load_above n user cfg st : Inv st -> above n st ->
  above n (load_options user cfg st) /\ same_below n st (load_options user cfg st).
Proof.
  intros HI [H1 H2]. destruct (load_facts user cfg st HI) as (_ & Hc & Hl & _ & Hj). cbn zeta in *.
  split; [split; [lia|]|].
  - rewrite Hc. destruct (cache st); lia.
  - intros j Hlt. apply Hj; [|lia]. destruct (cache st); lia.
Qed.
Lemma get_above n user s o st : Inv st -> above n st ->
  let st' := fst (get_option user s o st) in Inv st' /\ above n st' /\ same_below n st st' /\
    List.length (objs st) <= List.length (objs st').
Proof.
  intros HI HA. cbn zeta. unfold get_option, get_options. cbn [fst]. destruct (cache st) eqn:E; cbn [fst].
  - split; [exact HI|]. split; [exact HA|]. split; [intros j _; reflexivity|auto].
  - destruct (load_above n user [] st HI HA) as [H1 H2]. destruct (load_facts user [] st HI) as (H3 & _ & H4 & _).
    auto.
Qed.
Lemma init_above n user s o st : Inv st -> above n st ->
  let st' := fst (set_init user s o st) in Inv st' /\ above n st' /\ same_below n st st' /\
  List.length (objs st) <= List.length (objs st') /\
  (forall old, snd (set_init user s o st) = Ok old -> n <= old < List.length (objs st') /\ cache st = Some old).
Proof.
  intros HI [H1 H2]. cbn zeta. unfold set_init. destruct (cache st) as [old|] eqn:E.
  - assert (HI' := Inv_none st HI). assert (HA' : above n (mkst (objs st) None)) by (split; [exact H1|exact Logic.I]).
    destruct (parse_opts s o) as [cfg|e]; cbn [fst snd].
    + destruct (load_above n user cfg _ HI' HA') as [L1 L2].
      destruct (load_facts user cfg _ HI') as (L3 & _ & L4 & _). cbn [objs] in L4.
      split; auto. split; auto. split; auto. split; auto. intros old' Ho. injection Ho as <-. split; auto.
      destruct HI as [HI _]. specialize (HI old E). lia.
    + split; auto. split; auto. split; [intros j _; reflexivity|]. split; [auto|discriminate].
  - cbn [fst snd]. split; auto. split; [split; auto; now rewrite E|]. split; [intros j _; reflexivity|]. split; [auto|discriminate].
Qed.
Lemma exit_facts old st : Inv st -> old < List.length (objs st) ->
  set_exit old st = (mkst (objs st) (Some old), Ok tt).
Proof.
  intros [_ HI] Ho. unfold set_exit. destruct (HI old Ho) as [o E].
  destruct (content st old) eqn:E'; auto. exfalso. now apply (validate_nonempty o).
Qed.
Lemma run_above user : forall p n st, Inv st -> above n st ->
  let st' := fst (run user p st) in
  Inv st' /\ above n st' /\ same_below n st st' /\ List.length (objs st) <= List.length (objs st').
Proof.
  induction p as [|e|s o k IH|cfg k IH|s o k IH|k IH|s o body IHb k IHk]; intros n st HI HA; cbn zeta; cbn [run].
  - split; [exact HI|]. split; [exact HA|]. split; [intros j _; reflexivity|auto].
  - split; [exact HI|]. split; [exact HA|]. split; [intros j _; reflexivity|auto].
  - destruct (get_above n user s o st HI HA) as (G1 & G2 & G3 & G4). cbn zeta in *.
    destruct (get_option user s o st) as [st1 r]. cbn [fst] in *.
    destruct (IH r n st1 G1 G2) as (F1 & F2 & F3 & F4). split; auto. split; auto. split; [|lia].
    intros j Hj. rewrite F3, G3; auto.
  - destruct (load_above n user cfg st HI HA) as [G2 G3]. destruct (load_facts user cfg st HI) as (G1 & _ & G4 & _).
    destruct (IH n _ G1 G2) as (F1 & F2 & F3 & F4). split; auto. split; auto. split; [|lia].
    intros j Hj. rewrite F3, G3; auto.
  - destruct (init_above n user s o st HI HA) as (G1 & G2 & G3 & G4 & _). cbn zeta in *.
    destruct (set_init user s o st) as [st1 r]. cbn [fst] in *.
    destruct (IH (as_unit r) n st1 G1 G2) as (F1 & F2 & F3 & F4). split; auto. split; auto. split; [|lia].
    intros j Hj. rewrite F3, G3; auto.
  - assert (HG : let st1 := fst (reset_options st) in Inv st1 /\ above n st1 /\ same_below n st st1 /\
      List.length (objs st) <= List.length (objs st1)).
    { unfold reset_options. destruct (cache st) eqn:E; cbn [fst].
      - split; [now apply Inv_none|]. split; [split; [apply HA|exact Logic.I]|]. split; [intros j _; reflexivity|auto].
      - split; [exact HI|]. split; [exact HA|]. split; [intros j _; reflexivity|auto]. }
    destruct (reset_options st) as [st1 r]. cbn [fst] in HG. destruct HG as (G1 & G2 & G3 & G4).
    destruct (IH r n st1 G1 G2) as (F1 & F2 & F3 & F4). split; auto. split; auto. split; [|lia].
    intros j Hj. rewrite F3, G3; auto.
  - unfold with_options. destruct (init_above n user s o st HI HA) as (G1 & G2 & G3 & G4 & G5). cbn zeta in *.
    destruct (set_init user s o st) as [st1 [old|e]]; cbn [fst snd] in *.
    + destruct (G5 old eq_refl) as [Ho Hco]. destruct (IHb n st1 G1 G2) as (F1 & F2 & F3 & F4).
      destruct (run user body st1) as [st2 r] eqn:Er. cbn [fst] in *.
      rewrite (exit_facts old st2 F1) by lia.
      assert (HI3 : Inv (mkst (objs st2) (Some old))).
      { split; [intros i Hi; cbn in Hi |- *; injection Hi as <-; lia|apply F1]. }
      assert (HA3 : above n (mkst (objs st2) (Some old))) by (split; [apply F2|cbn; lia]).
      destruct (IHk r n _ HI3 HA3) as (K1 & K2 & K3 & K4). cbn [objs] in K4.
      split; auto. split; auto. split; [|lia]. intros j Hj. rewrite K3 by auto.
      transitivity (content st2 j); [reflexivity|]. rewrite F3, G3; auto.
    + destruct (IHk (Raise e) n st1 G1 G2) as (F1 & F2 & F3 & F4). split; auto. split; auto. split; [|lia].
      intros j Hj. rewrite F3, G3; auto.
Qed.
Lemma reachable_Inv user st : reachable user st -> Inv st.
Proof.
  intros [p <-]. apply (run_above user p 0 init Inv_init). split; [apply Nat.le_0_l|exact Logic.I].
Qed.
