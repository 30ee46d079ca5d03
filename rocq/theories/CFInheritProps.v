(** C28: inheritance between CF specifications. *)
From Verif Require Export CFInheritProofs3.
From Coq Require Import Lia.
Open Scope string_scope.

Lemma inv_init st : valid_cfg st -> inv (config_of st) st.
Proof.
  intros [(W1 & V1) (W2 & V2)] cat name. rewrite config_ent.
  assert (H : forall v, ent st cat name = Some v -> exists own, v = VDict own /\ valid_entry own).
  { intros v. unfold ent. destruct (String.eqb cat "data_vars").
    - intro E. apply dget_some_in in E. eauto.
    - destruct (String.eqb cat "coords"); [|discriminate]. intro E. apply dget_some_in in E. eauto. }
  destruct (ent st cat name) as [v|] eqn:E; [|reflexivity].
  destruct (H v eq_refl) as (own & -> & V). split; auto. exists own. auto.
Qed.

(** What is needed to update the dimension names: lists of names, and axes that are keys of [dims] *)
Definition valid_axis (dims : dict pyval) (v : pyval) : Prop :=
  v = VNone \/ exists s, v = VStr s /\ (s <> "" -> exists l, dget dims (lower s) = Some (VList l)).
Definition valid_dims (st : cfdict) : Prop :=
  dict_wf (dims st) /\
  forall cat name own, config_of st cat name = Some own ->
    (exists l, dget own "name" = Some (VList l)) /\
    forall attrs, dget own "attrs" = Some (VDict attrs) ->
      (cat = "coords" -> exists v, dget attrs "axis" = Some v) /\
      forall v, dget attrs "axis" = Some v -> valid_axis (dims st) v.

(** *** What inheritance gives, property by property *)
Lemma over_opt_lists a b c : over_opt (Some (VList a)) (Some (VList b)) c -> c = Some (VList (a ++ b)).
Proof.
  intro H. inversion H as [| |? ? c' Ho]; subst.
  inversion Ho as [? ? T|? ? T|? ? T|? ? ? T|? ? T N]; subst; auto.
  - destruct a; [reflexivity|discriminate].
  - exfalso. apply (N a b). auto.
Qed.
Lemma over_opt_dicts a b c : truthy (VDict a) = true -> over_opt (Some (VDict a)) (Some (VDict b)) c ->
  exists d, c = Some (VDict d) /\ forall k, over_opt (dget a k) (dget b k) (dget d k).
Proof.
  intros T H. inversion H as [| |? ? c' Ho]; subst.
  inversion Ho as [? ? T'|? ? T'|? ? T'|? ? d T' Hk|? ? T' _ _ N]; subst; eauto; try congruence.
  exfalso. apply (N a b). auto.
Qed.

Lemma named_get name own f : named name own f -> (forall k, k <> "attrs" -> dget f k = dget own k) /\
  exists fa attrs ln, dget f "attrs" = Some (VDict fa) /\ dget own "attrs" = Some (VDict attrs) /\
    (forall k, k <> "long_name" -> dget fa k = dget attrs k) /\
    dget fa "long_name" = Some (VList ln) /\ ln <> [].
Proof.
  intros (attrs & ln & E1 & E2 & [[N ->]|(-> & attrs' & src & _ & H1 & H2 & H3 & _ & H4)]).
  - split; auto. exists attrs, attrs, ln. auto.
  - split; auto. exists attrs', attrs, [VStr (nice src)]. repeat split; auto. discriminate.
Qed.

Lemma not_foreign_name cat pcat k : In k ["name"; "attrs"; "domain"; "search_order"] -> ~ foreign cat pcat k.
Proof.
  intros Hk (_ & _ & H). apply H. unfold own_key. destruct (String.eqb cat "data_vars"); simpl in Hk |- *; intuition.
Qed.

Lemma res_name dims cfg : (forall cat name own, cfg cat name = Some own ->
    (exists l, dget own "name" = Some (VList l)) /\
    forall attrs, dget own "attrs" = Some (VDict attrs) ->
      (cat = "coords" -> exists v, dget attrs "axis" = Some v) /\
      forall v, dget attrs "axis" = Some v -> valid_axis dims v) ->
  forall cat name e, resolves cfg cat name e ->
    (exists l, dget e "name" = Some (VList l)) /\
    exists attrs, dget e "attrs" = Some (VDict attrs) /\
      (cat = "coords" -> exists v, dget attrs "axis" = Some v) /\
      forall v, dget attrs "axis" = Some v -> valid_axis dims v.
Proof.
  intros Hcfg. induction 1 as [cat name own f e Hc Hr Hf Hp He We|
      cat name pc pn own f p m e Hc Hpa Hn Hf Hres IH Hm Hp Hi Hfor He We].
  - destruct (Hcfg _ _ _ Hc) as [(l & Hl) Ha]. destruct (named_get _ _ _ Hf) as (Hg & fa & attrs & ln & A1 & A2 & A3 & _).
    split.
    + exists l. rewrite He, Hg by discriminate. exact Hl.
    + exists fa. rewrite He by discriminate. split; auto. specialize (Ha _ A2). rewrite A3 by discriminate. exact Ha.
  - destruct (Hcfg _ _ _ Hc) as [(l & Hl) Ha]. destruct (named_get _ _ _ Hf) as (Hg & fa & attrs & ln & A1 & A2 & A3 & A4 & A5).
    destruct IH as [(pl & Hpl) (pa & Hpat & _ & Hpax)]. split.
    + exists (l ++ pl)%list. rewrite He; try discriminate; [|apply not_foreign_name; simpl; auto].
      specialize (Hm "name"). rewrite Hg, Hl, Hpl in Hm by discriminate. now apply over_opt_lists in Hm.
    + assert (Hm' := Hm "attrs"). rewrite A1, Hpat in Hm'.
      destruct (over_opt_dicts fa pa (dget m "attrs")) as (d & Ed & Hd).
      { destruct fa; [discriminate A4|reflexivity]. } { exact Hm'. }
      exists d. rewrite He; try discriminate; [|apply not_foreign_name; simpl; auto]. split; auto.
      specialize (Ha _ A2). specialize (Hd "axis"). rewrite A3 in Hd by discriminate. destruct Ha as [Ha1 Ha2]. split.
      * intro E. destruct (Ha1 E) as (v & Hv). rewrite Hv in Hd. inversion Hd; eauto.
      * intros v Hv. rewrite Hv in Hd. inversion Hd as [b E1 E2 E3|a E1 E2 E3|a b c Ho E1 E2 E3]; subst.
        -- apply Hpax. congruence.
        -- apply Ha2. congruence.
        -- assert (Va : valid_axis dims a) by (apply Ha2; congruence).
           assert (Vb : valid_axis dims b) by (apply Hpax; congruence).
           inversion Ho; subst; auto.
           ++ destruct Va as [?|(? & ? & _)]; discriminate.
           ++ destruct Va as [?|(? & ? & _)]; discriminate.
           ++ destruct Va as [?|(? & ? & _)]; discriminate.
Qed.

(** Names of the dimensions that a coordinate gives to the type [t] *)
Definition dims_of_coord (t : string) (kv : string * pyval) : list pyval :=
  match snd kv with
  | VDict e =>
    match dget e "attrs", dget e "name" with
    | Some (VDict attrs), Some (VList names) =>
      match dget attrs "axis" with
      | Some (VStr s) => if String.eqb s "" then [] else if String.eqb (lower s) t then VStr (fst kv) :: names else []
      | _ => []
      end
    | _, _ => []
    end
  | _ => []
  end.

Lemma coord_dims_ok l : forall d0 d, dict_wf d ->
  (forall t x, dget d0 t = Some (VList x) -> exists y, dget d t = Some (VList y)) ->
  (forall n v, In (n, v) l -> exists e attrs ax names, v = VDict e /\ dget e "attrs" = Some (VDict attrs) /\
     dget attrs "axis" = Some ax /\ valid_axis d0 ax /\ dget e "name" = Some (VList names)) ->
  exists d', fold_left coord_dims l (Ok d) = Ok d' /\ dkeys d' = dkeys d /\
    (forall t x, dget d t = Some (VList x) -> dget d' t = Some (VList (x ++ flat_map (dims_of_coord t) l))).
Proof.
  induction l as [|[n v] l IH]; intros d0 d Wd Hd Hl.
  - exists d. split; [reflexivity|]. split; [reflexivity|]. intros t x Hx. cbn [flat_map]. now rewrite app_nil_r.
  - destruct (Hl n v (or_introl eq_refl)) as (e & attrs & ax & names & -> & E1 & E2 & Vx & E3).
    assert (Hl' : forall n v, In (n, v) l -> exists e attrs ax names, v = VDict e /\ dget e "attrs" = Some (VDict attrs) /\
       dget attrs "axis" = Some ax /\ valid_axis d0 ax /\ dget e "name" = Some (VList names)).
    { intros n' v' H. apply (Hl n' v'). now right. }
    cbn [fold_left]. unfold coord_dims at 2. cbn [bind snd as_dict fst]. unfold getitem.
    rewrite E1. cbn [bind as_dict]. rewrite E2. cbn [bind].
    assert (Hfm : forall t, flat_map (dims_of_coord t) ((n, VDict e) :: l) =
      ((match ax with VStr s => if String.eqb s "" then [] else if String.eqb (lower s) t then VStr n :: names else [] | _ => [] end)
       ++ flat_map (dims_of_coord t) l)%list).
    { intro t. cbn [flat_map]. f_equal. unfold dims_of_coord. cbn [snd fst]. rewrite E1, E3, E2. reflexivity. }
    destruct Vx as [->|(s & -> & Hs)]; cbn [truthy].
    + destruct (IH d0 d Wd Hd Hl') as (d' & F & K & H). exists d'. split; auto. split; auto.
      intros t x Hx. rewrite Hfm. now apply H.
    + destruct (String.eqb_spec s "") as [->|Ns]; cbn [negb].
      * destruct (IH d0 d Wd Hd Hl') as (d' & F & K & H). exists d'. split; auto. split; auto.
        intros t x Hx. rewrite Hfm. now apply H.
      * rewrite E3. cbn [bind]. destruct (Hs Ns) as (x0 & Hx0). destruct (Hd _ _ Hx0) as (y & Hy). rewrite Hy. cbn [bind].
        set (dd := dset d (lower s) (VList (y ++ VStr n :: names))).
        assert (Hdk : dkeys dd = dkeys d).
        { unfold dd. rewrite dkeys_dset. unfold dmem. now rewrite Hy. }
        destruct (IH d0 dd) as (d' & F & K & H).
        { now apply dset_wf. }
        { intros t x Hx. unfold dd. rewrite dget_dset. destruct (String.eqb t (lower s)); eauto. }
        { exact Hl'. }
        exists d'. split; auto. split; [congruence|]. intros t x Hx. rewrite Hfm.
        destruct (String.eqb_spec s "") as [?|_]; [contradiction|].
        destruct (String.eqb_spec (lower s) t) as [<-|Nt].
        -- rewrite (H (lower s) (y ++ VStr n :: names)%list).
           ++ rewrite Hy in Hx. injection Hx as <-. now rewrite <- app_assoc.
           ++ unfold dd. now rewrite dget_dset, String.eqb_refl.
        -- rewrite (H t x); [reflexivity|]. unfold dd. rewrite dget_dset.
           destruct (String.eqb_spec t (lower s)); [congruence|exact Hx].
Qed.

(** *** Main theorem: whatever the order of the entries and the inheritance graph, provided every
    chain of inheritance ends (within the recursion limit), each entry becomes what it resolves to. *)
Theorem C28_inheritance fuel st :
  valid_cfg st -> valid_dims st ->
  (forall cat name own, config_of st cat name = Some own -> exists n, chain (config_of st) cat name n /\ n < fuel) ->
  exists st', post_process fuel st = Ok st' /\
    (forall cat name own, config_of st cat name = Some own ->
       exists e, config_of st' cat name = Some e /\ resolves (config_of st) cat name e) /\
    (forall cat name, config_of st cat name = None -> config_of st' cat name = None) /\
    (forall t names, dget (dims st) t = Some (VList names) ->
       dget (dims st') t = Some (VList (names ++ flat_map (dims_of_coord t) (coords st')))).
Proof.
  intros V [Wd VD] Hch. assert (I := inv_init st V).
  set (cfg := config_of st) in *.
  set (todo := (map (pair "data_vars") (dkeys (data_vars st)) ++ map (pair "coords") (dkeys (coords st)))%list).
  assert (Htodo : forall c n, In (c, n) todo <-> exists own, cfg c n = Some own).
  { intros c n. unfold todo. rewrite in_app_iff, !in_map_iff. split.
    - intros [(x & E & Hx)|(x & E & Hx)]; injection E as <- <-.
      + apply in_map_iff in Hx. destruct Hx as ([n v] & E & Hin). cbn [fst] in E. subst.
        destruct V as [(W1 & V1) _]. destruct (V1 _ _ Hin) as (own & -> & _). exists own.
        unfold cfg. rewrite config_ent. unfold ent. rewrite String.eqb_refl.
        apply (proj2 (dget_in _ _ _ W1)) in Hin. now rewrite Hin.
      + apply in_map_iff in Hx. destruct Hx as ([n v] & E & Hin). cbn [fst] in E. subst.
        destruct V as [_ (W1 & V1)]. destruct (V1 _ _ Hin) as (own & -> & _). exists own.
        unfold cfg. rewrite config_ent. unfold ent. cbn [String.eqb Ascii.eqb Bool.eqb].
        apply (proj2 (dget_in _ _ _ W1)) in Hin. now rewrite Hin.
    - intros (own & E). unfold cfg in E. rewrite config_ent in E. unfold ent in E.
      destruct (String.eqb_spec c "data_vars") as [->|N1].
      + left. exists n. split; auto. apply dmem_in. unfold dmem. destruct (dget (data_vars st) n); [reflexivity|discriminate].
      + destruct (String.eqb_spec c "coords") as [->|N2]; [|discriminate].
        right. exists n. split; auto. apply dmem_in. unfold dmem. destruct (dget (coords st) n); [reflexivity|discriminate]. }
  destruct (process_all_ok cfg fuel todo) with (st := st) (items := @nil item) as (st1 & items & E & I1 & K1 & G & _ & Hit).
  { intros c n Hin. apply Htodo in Hin. destruct Hin as (own & Hc). destruct (Hch c n own Hc) as (k & H1 & H2). eauto. }
  { exact I. } { constructor. }
  unfold post_process. fold todo. rewrite E. cbn [bind].
  assert (R : forall cat n, (cfg cat n = None -> dget (refill cat items) n = None) /\
     (forall own, cfg cat n = Some own -> In cat ["data_vars"; "coords"] -> exists e, dget (refill cat items) n = Some (VDict e) /\ final cfg cat n e)).
  { intros cat n. destruct (refill_spec cfg cat items G []) as [_ H]. fold (refill cat items) in H.
    destruct (H n) as [[E1 Hno]|(e & Hin & E1)].
    - split; [auto|]. intros own Hc Hcat. exfalso. destruct (Hit cat n) as (e & He); [apply Htodo; eauto|]. eapply Hno; eauto.
    - unfold good_items in G. rewrite Forall_forall in G. specialize (G _ Hin). cbn in G.
      destruct G as ((own & Hc) & F). split; [congruence|]. intros own' _ _. eauto. }
  assert (Wc : dict_wf (refill "coords" items)).
  { destruct (refill_spec cfg "coords" items G []) as [H _]. apply H. constructor. }
  destruct (coord_dims_ok (refill "coords" items) (dims st) (dims st1)) as (d' & F & K & H).
  { destruct K1 as (_ & _ & ->). exact Wd. }
  { destruct K1 as (_ & _ & ->). eauto. }
  { intros n v Hin. apply (proj2 (dget_in _ _ _ Wc)) in Hin. destruct (R "coords" n) as [R1 R2].
    destruct (cfg "coords" n) as [own|] eqn:Hc; [|specialize (R1 eq_refl); congruence].
    destruct (R2 own eq_refl) as (e & He & Fe); [simpl; auto|]. rewrite Hin in He. injection He as ->.
    destruct (res_name (dims st) cfg VD "coords" n e) as ((l & Hl) & attrs & Ha & Hax & Hv); [apply Fe|].
    destruct (Hax eq_refl) as (ax & Eax). exists e, attrs, ax, l. repeat split; auto. }
  rewrite F. cbn [bind]. eexists. split; [reflexivity|]. split; [|split].
  - intros cat name own Hc. rewrite config_ent. unfold ent. cbn [data_vars coords].
    destruct (R cat name) as [_ R2]. assert (Hin : In cat ["data_vars"; "coords"]).
    { unfold cfg in Hc. rewrite config_ent in Hc. unfold ent in Hc. destruct (String.eqb_spec cat "data_vars") as [->|]; [simpl; auto|].
      destruct (String.eqb_spec cat "coords") as [->|]; [simpl; auto|discriminate]. }
    destruct (R2 own Hc Hin) as (e & He & Fe). exists e. split; [|apply Fe].
    destruct Hin as [<-|[<-|[]]]; cbn [String.eqb Ascii.eqb Bool.eqb]; now rewrite He.
  - intros cat name Hc. rewrite config_ent. unfold ent. cbn [data_vars coords].
    destruct (String.eqb_spec cat "data_vars") as [->|].
    + now rewrite (proj1 (R "data_vars" name) Hc).
    + destruct (String.eqb_spec cat "coords") as [->|]; [|reflexivity]. now rewrite (proj1 (R "coords" name) Hc).
  - intros t names Ht. cbn [dims coords]. apply H. destruct K1 as (_ & _ & ->). exact Ht.
Qed.
