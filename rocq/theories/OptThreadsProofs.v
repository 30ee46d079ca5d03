(** Facts for C72: a thread that is not interrupted. *)
From Verif Require Export OptThreadsSpec.
Open Scope nat_scope.

Lemma same_look st st' : same_session st st' <-> cache st = cache st' /\ List.length (objs st) = List.length (objs st') /\
  forall i s o, look (content st i) s o = look (content st' i) s o.
Proof.
  unfold same_session. split; intros (A & B & C); split; auto; split; auto; intros i s o; specialize (C i s o);
    rewrite ?look_opt_of in *; auto.
Qed.
(** *** Flat options *)
Fixpoint lastw {A} (l : list (string * string * A)) (s o : string) : option A :=
  match l with
  | [] => None
  | (s0, o0, v) :: l' => match lastw l' s o with Some w => Some w
      | None => if String.eqb s s0 && String.eqb o o0 then Some v else None end
  end.
Lemma lastw_app {A} (l1 l2 : list (string * string * A)) s o :
  lastw (l1 ++ l2) s o = match lastw l2 s o with Some w => Some w | None => lastw l1 s o end.
Proof.
  induction l1 as [|[[s0 o0] v] l1 IH]; cbn [lastw app]; [destruct (lastw l2 s o); reflexivity|].
  rewrite IH. destruct (lastw l2 s o); reflexivity.
Qed.
Lemma lastw_sec {A} (d : dict A) s0 s o :
  lastw (map (fun kv => (s0, fst kv, snd kv)) d) s o = if String.eqb s s0 then last_bound d o else None.
Proof.
  induction d as [|[k v] d IH]; [cbn; destruct (String.eqb s s0); reflexivity|].
  cbn [lastw map fst snd]. rewrite IH. destruct (String.eqb s s0); cbn [andb last_bound]; [|reflexivity].
  destruct (last_bound d o); [reflexivity|]. reflexivity.
Qed.
Lemma flat_cons {A} s (d : dict A) e : flat ((s, d) :: e) = map (fun kv => (s, fst kv, snd kv)) d ++ flat e.
Proof. reflexivity. Qed.
Lemma lastw_flat (e : options) : forall s o, wf2 e -> lastw (flat e) s o = look e s o.
Proof.
  induction e as [|[s0 d0] e IH]; intros s o [Hw Hd]; [reflexivity|].
  assert (Hn : dget e s0 = None) by (apply dget_none; inversion Hw; auto).
  assert (Hd0 : dict_wf d0) by (apply (Hd s0); cbn [dget]; now rewrite String.eqb_refl).
  assert (Hw' : wf2 e).
  { split; [inversion Hw; auto|]. intros s' d' H. apply (Hd s'). cbn [dget].
    destruct (String.eqb_spec s' s0) as [->|]; auto. congruence. }
  rewrite flat_cons, lastw_app, lastw_sec, (IH s o Hw'), last_bound_wf by auto.
  unfold look, section_of. cbn [dget]. destruct (String.eqb_spec s s0) as [->|N].
  - rewrite Hn. reflexivity.
  - destruct (dget e s) as [d|]; [|reflexivity]. destruct (dget d o); reflexivity.
Qed.
Lemma lastw_some {A} (l : list (string * string * A)) s o v : lastw l s o = Some v -> In (s, o, v) l.
Proof.
  induction l as [|[[s0 o0] v0] l IH]; cbn [lastw]; [discriminate|].
  destruct (lastw l s o) as [w|] eqn:E.
  - intro H. injection H as ->. right. auto.
  - destruct (String.eqb_spec s s0) as [->|]; cbn [andb]; [|discriminate]. destruct (String.eqb_spec o o0) as [->|]; [|discriminate].
    intro H. injection H as ->. left. reflexivity.
Qed.
Lemma lastw_in {A} (l : list (string * string * A)) s o v : NoDup (map fst l) -> In (s, o, v) l -> lastw l s o = Some v.
Proof.
  induction l as [|[[s0 o0] v0] l IH]; intros Hn Hi; [destruct Hi|]. cbn [map fst] in Hn. inversion Hn as [|? ? H1 H2]; subst.
  cbn [lastw]. destruct Hi as [E|Hi].
  - injection E as -> -> ->. destruct (lastw l s o) as [w|] eqn:E.
    + exfalso. apply H1. apply lastw_some in E. apply (in_map fst) in E. exact E.
    + now rewrite !String.eqb_refl.
  - now rewrite (IH H2 Hi).
Qed.
Lemma flat_nodup (e : options) : wf2 e -> NoDup (map fst (flat e)).
Proof.
  induction e as [|[s0 d0] e IH]; intros [Hw Hd]; [constructor|].
  assert (Hn : dget e s0 = None) by (apply dget_none; inversion Hw; auto).
  assert (Hd0 : dict_wf d0) by (apply (Hd s0); cbn [dget]; now rewrite String.eqb_refl).
  assert (Hw' : wf2 e).
  { split; [inversion Hw; auto|]. intros s' d' H. apply (Hd s'). cbn [dget].
    destruct (String.eqb_spec s' s0) as [->|]; auto. congruence. }
  specialize (IH Hw'). rewrite flat_cons, map_app, map_map. cbn [fst].
  assert (Hout : forall o, ~ In (s0, o) (map fst (flat e))).
  { intros o Hi. apply in_map_iff in Hi. destruct Hi as ([[s1 o1] v1] & E & Hi). cbn [fst] in E. injection E as -> ->.
    unfold flat in Hi. apply in_concat in Hi. destruct Hi as (l & Hl & Hi). apply in_map_iff in Hl.
    destruct Hl as ([s2 d2] & <- & Hl). apply in_map_iff in Hi. destruct Hi as (kv & E & _). cbn [fst] in E.
    injection E as -> _ _. apply (proj1 (dget_none e s0) Hn). apply in_map_iff. exists (s0, d2). auto. }
  clear -Hd0 IH Hout. induction d0 as [|[k v] d IHd]; [exact IH|]. cbn [map fst app].
  constructor; [|apply IHd; inversion Hd0; auto].
  rewrite in_app_iff. intros [Hi|Hi]; [|now apply (Hout k)].
  apply in_map_iff in Hi. destruct Hi as ([k' v'] & E & Hi). cbn [fst] in E. injection E as ->.
  inversion Hd0 as [|? ? H1 H2]; subst. apply H1. apply in_map_iff. exists (k, v'). auto.
Qed.
Lemma in_flat (e : options) s o v : wf2 e -> (In (s, o, v) (flat e) <-> look e s o = Some v).
Proof.
  intro Hw. rewrite <- lastw_flat by auto. split.
  - apply lastw_in. now apply flat_nodup.
  - apply lastw_some.
Qed.
Lemma specs_nodup : NoDup (map fst (flat config_specs)).
Proof.
  cbv [flat config_specs map List.concat app fst snd].
  repeat (constructor; [simpl; intuition congruence|]). constructor.
Qed.
Lemma specs_last s o : lastw (flat config_specs) s o = documented s o.
Proof.
  cbv [flat config_specs map List.concat app fst snd lastw]. unfold documented.
  destruct (String.eqb_spec s "cf") as [->|N1].
  - cbn [String.eqb Ascii.eqb Bool.eqb andb].
    destruct (String.eqb_spec o "accessors") as [->|]; [reflexivity|]. destruct (String.eqb o "cache"); reflexivity.
  - destruct (String.eqb_spec s "plot") as [->|N2]; cbn [andb]; [|reflexivity].
    destruct (String.eqb_spec o "cmapcyc") as [->|]; [reflexivity|].
    destruct (String.eqb_spec o "cmapneg") as [->|]; [reflexivity|].
    destruct (String.eqb_spec o "cmappos") as [->|]; [reflexivity|].
    destruct (String.eqb_spec o "cmapdiv") as [->|]; reflexivity.
Qed.
Lemma in_specs s o c : In (s, o, c) (flat config_specs) <-> documented s o = Some c.
Proof. rewrite <- specs_last. split; [apply lastw_in, specs_nodup|apply lastw_some]. Qed.

Lemma look_write c s0 o0 v s o : look (write_opt c s0 o0 v) s o =
  if String.eqb s s0 && String.eqb o o0 then Some v else look c s o.
Proof.
  unfold write_opt. rewrite look_dset. destruct (String.eqb_spec s s0) as [->|]; cbn [andb]; [|reflexivity].
  rewrite dget_dset. reflexivity.
Qed.
Lemma check_id c v : converts c v = false -> check c v = v.
Proof. destruct c, v; cbn; auto. destruct (bool_of_string s); [discriminate|reflexivity]. Qed.
Lemma converts_check c v : converts c (check c v) = false.
Proof. destruct c, v; cbn; auto. destruct (bool_of_string s) eqn:E; cbn; [reflexivity|now rewrite E]. Qed.

(** *** A thread that runs alone *)
Section solo.
Variable user : options.
Inductive steps : act -> state -> act -> state -> Prop :=
| steps_refl a st : steps a st a st
| steps_step a st a1 st1 e a2 st2 : step user a st = (a1, st1, e) -> steps a1 st1 a2 st2 -> steps a st a2 st2.
Lemma steps_trans a st a1 st1 a2 st2 : steps a st a1 st1 -> steps a1 st1 a2 st2 -> steps a st a2 st2.
Proof. induction 1; intro H1; [auto|]. econstructor; eauto. Qed.
Lemma one a st a1 st1 e : step user a st = (a1, st1, e) -> steps a st a1 st1.
Proof. intro H. econstructor; [exact H|constructor]. Qed.

Lemma content_write st i s o v j : i < List.length (objs st) ->
  content (mkst (upd (objs st) i (write_opt (content st i) s o v)) (cache st)) j =
  if j =? i then write_opt (content st i) s o v else content st j.
Proof. intro H. unfold content at 1. cbn [objs]. now apply content_upd. Qed.
Lemma writes_solo l : forall i k st, i < List.length (objs st) -> exists st',
  steps (writes i l k) st k st' /\ cache st' = cache st /\ List.length (objs st') = List.length (objs st) /\
  (forall s o, look (content st' i) s o = match lastw l s o with Some v => Some v | None => look (content st i) s o end) /\
  forall j, j <> i -> content st' j = content st j.
Proof.
  induction l as [|[[s0 o0] v0] l IH]; intros i k st Hi.
  - exists st. split; [constructor|]. auto.
  - set (st1 := mkst (upd (objs st) i (write_opt (content st i) s0 o0 v0)) (cache st)).
    assert (Hl : List.length (objs st1) = List.length (objs st)) by apply upd_len.
    destruct (IH i k st1) as (st' & H1 & H2 & H3 & H4 & H5); [lia|].
    exists st'. split; [eapply steps_step; [reflexivity|exact H1]|]. split; [exact H2|]. split; [lia|]. split.
    + intros s o. rewrite H4. cbn [lastw]. destruct (lastw l s o); [reflexivity|].
      unfold st1. rewrite content_write, Nat.eqb_refl, look_write by auto. destruct (String.eqb s s0 && String.eqb o o0); reflexivity.
    + intros j Hj. rewrite H5 by auto. unfold st1. rewrite content_write by auto. now rewrite (proj2 (Nat.eqb_neq _ _) Hj).
Qed.
Lemma lastw_none {A} (l : list (string * string * A)) s o : ~ In (s, o) (map fst l) -> lastw l s o = None.
Proof.
  induction l as [|[[s0 o0] v] l IH]; intro H; [reflexivity|]. cbn [lastw map fst] in *.
  rewrite IH by (intro; apply H; right; auto).
  destruct (String.eqb_spec s s0) as [->|]; cbn [andb]; [|reflexivity]. destruct (String.eqb_spec o o0) as [->|]; [|reflexivity].
  exfalso. apply H. left. reflexivity.
Qed.
Lemma checks_solo l : forall i k st, i < List.length (objs st) -> NoDup (map fst l) -> exists st',
  steps (checks i l k) st k st' /\ cache st' = cache st /\ List.length (objs st') = List.length (objs st) /\
  (forall s o, look (content st' i) s o = match lastw l s o with
     | Some c => Some (match look (content st i) s o with Some v => check c v | None => default_of c end)
     | None => look (content st i) s o end) /\
  forall j, j <> i -> content st' j = content st j.
Proof.
  induction l as [|[[s0 o0] c0] l IH]; intros i k st Hi Hn.
  - exists st. split; [constructor|]. auto.
  - cbn [map fst] in Hn. inversion Hn as [|? ? H1 H2]; subst.
    assert (Hnone := lastw_none l s0 o0 H1).
    assert (Hstep : forall w, exists st', steps (AWrite i s0 o0 w (checks i l k)) st k st' /\
      cache st' = cache st /\ List.length (objs st') = List.length (objs st) /\
      (forall s o, look (content st' i) s o = match lastw l s o with
         | Some c => Some (match look (content st i) s o with Some v => check c v | None => default_of c end)
         | None => if String.eqb s s0 && String.eqb o o0 then Some w else look (content st i) s o end) /\
      forall j, j <> i -> content st' j = content st j).
    { intro w. set (st1 := mkst (upd (objs st) i (write_opt (content st i) s0 o0 w)) (cache st)).
      assert (Hl : List.length (objs st1) = List.length (objs st)) by apply upd_len.
      destruct (IH i k st1) as (st' & F1 & F2 & F3 & F4 & F5); [lia|auto|].
      exists st'. split; [eapply steps_step; [reflexivity|exact F1]|]. split; [exact F2|]. split; [lia|]. split.
      - intros s o. rewrite F4. unfold st1. rewrite content_write, Nat.eqb_refl, look_write by auto.
        destruct (String.eqb_spec s s0) as [->|]; cbn [andb]; [|reflexivity].
        destruct (String.eqb_spec o o0) as [->|]; [|reflexivity]. rewrite Hnone. reflexivity.
      - intros j Hj. rewrite F5 by auto. unfold st1. rewrite content_write by auto. now rewrite (proj2 (Nat.eqb_neq _ _) Hj). }
    assert (E : dget (section_of (content st i) s0) o0 = look (content st i) s0 o0) by reflexivity.
    cbn [checks lastw].
    destruct (look (content st i) s0 o0) as [v|] eqn:Ev.
    + destruct (converts c0 v) eqn:Ec.
      * destruct (Hstep (check c0 v)) as (st' & F1 & F2 & F3 & F4 & F5). exists st'.
        split. { eapply steps_step; [cbn [step]; rewrite E; reflexivity|]. rewrite Ec. exact F1. }
        split; [auto|]. split; [auto|]. split; [|auto]. intros s o. rewrite F4.
        destruct (lastw l s o); [reflexivity|].
        destruct (String.eqb_spec s s0) as [->|]; cbn [andb]; [|reflexivity].
        destruct (String.eqb_spec o o0) as [->|]; [|reflexivity]. rewrite Ev. reflexivity.
      * destruct (IH i k st Hi H2) as (st' & F1 & F2 & F3 & F4 & F5). exists st'.
        split. { eapply steps_step; [cbn [step]; rewrite E; reflexivity|]. rewrite Ec. exact F1. }
        split; [auto|]. split; [auto|]. split; [|auto]. intros s o. rewrite F4.
        destruct (lastw l s o) eqn:El; [reflexivity|].
        destruct (String.eqb_spec s s0) as [->|]; cbn [andb]; [|reflexivity].
        destruct (String.eqb_spec o o0) as [->|]; [|reflexivity]. rewrite Ev. now rewrite check_id.
    + destruct (Hstep (default_of c0)) as (st' & F1 & F2 & F3 & F4 & F5). exists st'.
      split. { eapply steps_step; [cbn [step]; rewrite E; reflexivity|]. exact F1. }
      split; [auto|]. split; [auto|]. split; [|auto]. intros s o. rewrite F4.
      destruct (lastw l s o); [reflexivity|].
      destruct (String.eqb_spec s s0) as [->|]; cbn [andb]; [|reflexivity].
      destruct (String.eqb_spec o o0) as [->|]; [|reflexivity]. rewrite Ev. reflexivity.
Qed.
(** load_options *)
Lemma load_len cfg st : List.length (objs (load_options user cfg st)) =
  match cache st with Some _ => List.length (objs st) | None => S (List.length (objs st)) end.
Proof.
  unfold load_options. destruct (cache st); cbn [objs]; rewrite upd_len; auto. rewrite app_length. simpl. lia.
Qed.
Lemma load_body cfg k st i : cache st = Some i -> i < List.length (objs st) -> wf2 cfg -> exists st',
  steps (match cfg with [] => ACur (fun c => match c with None => k (Raise KeyError) | Some i => checks i (flat config_specs) (k (Ok tt)) end)
         | _ => ACur (fun c => match c with None => k (Raise KeyError) | Some i => writes i (flat cfg)
                (ACur (fun c => match c with None => k (Raise KeyError) | Some i => checks i (flat config_specs) (k (Ok tt)) end)) end) end)
        st (k (Ok tt)) st' /\
  cache st' = Some i /\ List.length (objs st') = List.length (objs st) /\
  (forall s o, look (content st' i) s o = look (validate (match cfg with [] => content st i | _ => merge (content st i) cfg end)) s o) /\
  forall j, j <> i -> content st' j = content st j.
Proof.
  intros Hc Hi Hw.
  assert (V : forall st0, cache st0 = Some i -> i < List.length (objs st0) -> exists st',
    steps (ACur (fun c => match c with None => k (Raise KeyError) | Some i => checks i (flat config_specs) (k (Ok tt)) end)) st0 (k (Ok tt)) st' /\
    cache st' = Some i /\ List.length (objs st') = List.length (objs st0) /\
    (forall s o, look (content st' i) s o = match documented s o with
     | Some c => Some (match look (content st0 i) s o with Some v => check c v | None => default_of c end)
     | None => look (content st0 i) s o end) /\ forall j, j <> i -> content st' j = content st0 j).
  { intros st0 Hc0 Hi0. destruct (checks_solo (flat config_specs) i (k (Ok tt)) st0 Hi0 specs_nodup) as (st' & F1 & F2 & F3 & F4 & F5).
    exists st'. split. { eapply steps_step; [cbn [step]; rewrite Hc0; reflexivity|exact F1]. }
    split; [congruence|]. split; [auto|]. split; [|auto]. intros s o. rewrite F4, specs_last. reflexivity. }
  destruct cfg as [|sd cfg].
  - destruct (V st Hc Hi) as (st' & F1 & F2 & F3 & F4 & F5). exists st'. repeat (split; [assumption|]). split; [|auto].
    intros s o. rewrite F4, validate_look. reflexivity.
  - set (e := sd :: cfg) in *.
    destruct (writes_solo (flat e) i (ACur (fun c => match c with None => k (Raise KeyError) | Some i => checks i (flat config_specs) (k (Ok tt)) end)) st Hi)
      as (st1 & G1 & G2 & G3 & G4 & G5).
    destruct (V st1) as (st' & F1 & F2 & F3 & F4 & F5); [congruence|lia|].
    exists st'. split. { eapply steps_step; [cbn [step]; rewrite Hc; reflexivity|]. eapply steps_trans; [exact G1|exact F1]. }
    split; [auto|]. split; [lia|]. split.
    + intros s o. rewrite F4, validate_look, merge_look, G4, lastw_flat by auto. reflexivity.
    + intros j Hj. rewrite F5, G5; auto.
Qed.
Lemma nth_snoc {A} (l : list A) x j d : nth j (l ++ [x]) d = if j =? List.length l then x else nth j l d.
Proof.
  destruct (Nat.eqb_spec j (List.length l)) as [->|N].
  - rewrite app_nth2, Nat.sub_diag by lia. reflexivity.
  - destruct (Nat.lt_ge_cases j (List.length l)) as [H|H]; [now rewrite app_nth1|].
    rewrite !nth_overflow; auto. rewrite app_length. simpl. lia.
Qed.
Lemma vm_look o o' cfg s k : wf2 cfg -> (forall s k, look o s k = look o' s k) ->
  look (validate (match cfg with [] => o | _ => merge o cfg end)) s k =
  look (validate (match cfg with [] => o' | _ => merge o' cfg end)) s k.
Proof.
  intros Hw H. rewrite !validate_look. destruct cfg as [|x cfg]; [now rewrite H|].
  rewrite !merge_look by auto. now rewrite H.
Qed.
Lemma content_over st j : List.length (objs st) <= j -> content st j = [].
Proof. intro H. unfold content. now rewrite nth_overflow. Qed.
Lemma load_solo cfg k st stA : wf2 cfg -> Inv stA -> same_session st stA -> exists st',
  steps (load_act cfg k) st (k (Ok tt)) st' /\ same_session st' (load_options user cfg stA).
Proof.
  intros Hw HI Hs. apply same_look in Hs. destruct Hs as (S1 & S2 & S3).
  destruct (load_facts user cfg stA HI) as (L1 & L2 & _ & L4 & L5). cbn zeta in *. assert (L3 := load_len cfg stA).
  unfold load_act. cbv zeta.
  destruct (cache stA) as [i|] eqn:Ec.
  - assert (Hi : i < List.length (objs st)) by (rewrite S2; apply (proj1 HI); auto).
    destruct (load_body cfg k st i S1 Hi Hw) as (st' & F1 & F2 & F3 & F4 & F5).
    exists st'. split. { eapply steps_step; [cbn [step]; rewrite S1; reflexivity|]. exact F1. }
    apply same_look. split; [congruence|]. split; [lia|]. intros j s o. destruct (Nat.eq_dec j i) as [->|N].
    + rewrite F4, L4. apply vm_look; auto.
    + rewrite F5 by auto. destruct (Nat.lt_ge_cases j (List.length (objs stA))) as [H|H].
      * rewrite L5 by auto. apply S3.
      * rewrite !content_over by lia. reflexivity.
  - set (n := List.length (objs stA)) in *.
    set (st1 := mkst (objs st ++ [user]) (Some n)).
    assert (Hl : List.length (objs st1) = S n) by (cbn; rewrite app_length; simpl; lia).
    destruct (load_body cfg k st1 n eq_refl) as (st' & F1 & F2 & F3 & F4 & F5); [lia|auto|].
    exists st'. split.
    { eapply steps_step; [cbn [step]; rewrite S1; reflexivity|]. eapply steps_step; [reflexivity|].
      eapply steps_step; [reflexivity|]. cbn [objs cache]. rewrite S2. exact F1. }
    apply same_look. split; [congruence|]. split; [lia|]. intros j s o.
    assert (Hc1 : content st1 n = user).
    { unfold st1, content. cbn [objs]. rewrite nth_snoc, S2, Nat.eqb_refl. reflexivity. }
    destruct (Nat.eq_dec j n) as [->|N].
    + rewrite F4, L4, Hc1. reflexivity.
    + rewrite F5 by auto. unfold st1 at 1, content at 1. cbn [objs]. rewrite nth_snoc, S2.
      rewrite (proj2 (Nat.eqb_neq _ _) N). destruct (Nat.lt_ge_cases j n) as [H|H].
      * rewrite L5 by auto. apply S3.
      * rewrite (content_over (load_options user cfg stA)) by lia. rewrite nth_overflow by lia. reflexivity.
Qed.
Lemma get_solo s o k st stA : Inv stA -> same_session st stA -> exists st',
  steps (get_act s o k) st (k (snd (get_option user s o stA))) st' /\ same_session st' (fst (get_option user s o stA)).
Proof.
  intros HI Hs.
  assert (F : forall st0 stA0, same_session st0 stA0 -> cache stA0 <> None ->
    steps (ACur (fun c => match c with None => k (Raise KeyError) | Some i =>
     match (match o with Some o => Ok (s, o) | None => match re_option s with Some so => Ok so | None => Raise XoaConfigError end end) with
     | Ok so => ARead i (fst so) (snd so) (fun v => k (Ok (answer_of v)))
     | Raise e => k (Raise e) end end)) st0
     (k (let* so := match o with Some o => Ok (s, o) | None => match re_option s with Some so => Ok so | None => Raise XoaConfigError end end in
       Ok (match dget (section_of (current stA0) (fst so)) (snd so) with Some v => Value v | None => ErrorObject end))) st0).
  { intros st0 stA0 H Hn. apply same_look in H. destruct H as (S1 & _ & S3).
    destruct (cache stA0) as [i|] eqn:Ec; [|congruence].
    eapply steps_step; [cbn [step]; rewrite S1; reflexivity|]. cbv beta iota.
    destruct (match o with Some o => Ok (s, o) | None => match re_option s with Some so => Ok so | None => Raise XoaConfigError end end) as [so|e].
    - eapply steps_step; [reflexivity|]. cbn [bind].
      assert (E : dget (section_of (content st0 i) (fst so)) (snd so) = dget (section_of (current stA0) (fst so)) (snd so)).
      { unfold current. rewrite Ec. apply S3. }
      rewrite E. constructor.
    - constructor. }
  unfold get_act, get_option, get_options. cbv zeta. cbn [fst snd].
  destruct (cache stA) as [i|] eqn:Ec.
  - exists st. split; [|exact Hs]. eapply steps_step; [cbn [step]; rewrite (proj1 Hs), Ec; reflexivity|].
    apply F; auto. congruence.
  - destruct (load_solo [] (fun r => match r with
      | Ok _ => ACur (fun c => match c with None => k (Raise KeyError) | Some i =>
         match (match o with Some o => Ok (s, o) | None => match re_option s with Some so => Ok so | None => Raise XoaConfigError end end) with
         | Ok so => ARead i (fst so) (snd so) (fun v => k (Ok (answer_of v)))
         | Raise e => k (Raise e) end end)
      | Raise e => k (Raise e) end) st stA) as (st' & G1 & G2); auto.
    { split; [constructor|]. discriminate. }
    exists st'. split; [|exact G2]. eapply steps_step; [cbn [step]; rewrite (proj1 Hs), Ec; reflexivity|].
    eapply steps_trans; [exact G1|]. apply F; auto.
    destruct (load_facts user [] stA HI) as (_ & L2 & _). cbn zeta in L2. congruence.
Qed.
Lemma parse_wf section opts cfg : parse_opts section opts = Ok cfg -> wf2 cfg.
Proof.
  intro H. change (parse_from section opts (Ok []) = Ok cfg) in H.
  assert (W : wf2 []) by (split; [constructor|discriminate]).
  assert (D : forall name v, In (name, v) opts -> designated section name <> None).
  { intros name v Hi Hd. destruct (parse_bad section opts (Ok []) name v Hi Hd) as [E|[e E]]; congruence. }
  destruct (parse_ok section opts [] W D) as (o' & E & Hw & _). assert (Q : Ok cfg = Ok o') by (rewrite <- H; exact E). injection Q as ->. exact Hw.
Qed.
Lemma set_solo section opts k st stA : Inv stA -> same_session st stA -> exists st',
  steps (set_act section opts k) st (k (match snd (set_init user section opts stA) with Ok old => Ok (Some old) | Raise e => Raise e end)) st' /\
  same_session st' (fst (set_init user section opts stA)).
Proof.
  intros HI Hs. unfold set_act, set_init. destruct (cache stA) as [old|] eqn:Ec.
  - assert (Hs1 : same_session (mkst (objs st) None) (mkst (objs stA) None)).
    { destruct Hs as (S1 & S2 & S3). split; [reflexivity|]. split; [exact S2|exact S3]. }
    assert (C : cache st = Some old) by (rewrite (proj1 Hs); auto).
    destruct (parse_opts section opts) as [cfg|e] eqn:Ep; cbn [fst snd].
    + destruct (load_solo cfg (fun r => match r with Ok _ => k (Ok (Some old)) | Raise e => k (Raise e) end)
        (mkst (objs st) None) (mkst (objs stA) None)) as (st' & G1 & G2); auto.
      { eapply parse_wf; eauto. } { now apply Inv_none. }
      exists st'. split; [|exact G2]. eapply steps_step; [cbn [step]; rewrite C; reflexivity|].
      eapply steps_step; [cbn [step]; rewrite C; reflexivity|]. exact G1.
    + exists (mkst (objs st) None). split; [|exact Hs1].
      eapply steps_step; [reflexivity|]. eapply steps_step; [cbn [step]; rewrite C; reflexivity|]. constructor.
  - cbn [fst snd]. assert (C : cache st = None) by (rewrite (proj1 Hs); auto).
    exists st. split; [|exact Hs]. eapply steps_step; [reflexivity|]. eapply steps_step; [cbn [step]; rewrite C; reflexivity|]. constructor.
Qed.
Lemma nonempty_doc o : look o "cf" "cache" <> None -> o <> [].
Proof. intros H ->. now apply H. Qed.
Lemma exit_solo old k st stA : Inv stA -> same_session st stA -> old < List.length (objs stA) -> exists st',
  steps (exit_act (Some old) k) st (k (snd (set_exit old stA))) st' /\ same_session st' (fst (set_exit old stA)).
Proof.
  intros HI Hs Ho. rewrite (exit_facts old stA HI Ho). cbn [fst snd]. exists (mkst (objs st) (Some old)). split.
  - unfold exit_act. assert (N : content st old <> []).
    { apply nonempty_doc. destruct (proj2 HI old Ho) as [o E]. apply same_look in Hs. destruct Hs as (_ & _ & S3).
      rewrite S3, E, validate_look. discriminate. }
    eapply steps_step; [reflexivity|]. destruct (content st old); [congruence|]. eapply steps_step; [reflexivity|]. constructor.
  - destruct Hs as (S1 & S2 & S3). split; [reflexivity|]. split; [exact S2|exact S3].
Qed.
Lemma del_solo k st stA : same_session st stA -> exists st',
  steps (del_act k) st (k (snd (reset_options stA))) st' /\ same_session st' (fst (reset_options stA)).
Proof.
  intros Hs. unfold reset_options, del_act. destruct (cache stA) as [i|] eqn:Ec; cbn [fst snd].
  - exists (mkst (objs st) None). split. { eapply steps_step; [cbn [step]; rewrite (proj1 Hs), Ec; reflexivity|]. constructor. }
    destruct Hs as (S1 & S2 & S3). split; [reflexivity|]. split; [exact S2|exact S3].
  - exists st. split; [|exact Hs]. eapply steps_step; [cbn [step]; rewrite (proj1 Hs), Ec; reflexivity|]. constructor.
Qed.
Lemma say_solo e k st a st' : steps k st a st' -> steps (ASay e k) st a st'.
Proof. intro H. eapply steps_step; [reflexivity|exact H]. Qed.
Lemma Inv_above0 st : Inv st -> above 0 st.
Proof. intros [H _]. split; [apply Nat.le_0_l|]. destruct (cache st); [apply Nat.le_0_l|exact Logic.I]. Qed.
Lemma run_Inv p st : Inv st -> Inv (fst (run user p st)) /\ List.length (objs st) <= List.length (objs (fst (run user p st))).
Proof. intro H. destruct (run_above user p 0 st H (Inv_above0 st H)) as (A & _ & _ & B). auto. Qed.
Lemma thread_solo : forall p fin st stA, proper p -> Inv stA -> same_session st stA -> exists st',
  steps (thread p fin) st (fin (snd (run user p stA))) st' /\ same_session st' (fst (run user p stA)).
Proof.
  induction p as [|e|s o k IH|cfg k IH|s o k IH|k IH|s o body IHb k IHk]; intros fin st stA Hp HI Hs; cbn [run thread].
  - exists st. split; [constructor|exact Hs].
  - exists st. split; [constructor|exact Hs].
  - destruct (get_solo s o (fun r => ASay (EGet s o r) (thread (k r) fin)) st stA HI Hs) as (st1 & G1 & G2).
    assert (HI1 : Inv (fst (get_option user s o stA))) by (apply (get_above 0 user s o stA HI (Inv_above0 stA HI))).
    destruct (get_option user s o stA) as [stA1 r]. cbn [fst snd] in *.
    destruct (IH r fin st1 stA1 (Hp r) HI1 G2) as (st2 & F1 & F2). exists st2. split; [|exact F2].
    eapply steps_trans; [exact G1|]. apply say_solo. exact F1.
  - destruct Hp as [Hw Hp].
    destruct (load_solo cfg (fun r => ASay (ELoad r) (match r with Ok _ => thread k fin | Raise e => fin (Raise e) end)) st stA Hw HI Hs) as (st1 & G1 & G2).
    assert (HI1 : Inv (load_options user cfg stA)) by (apply (load_facts user cfg stA HI)).
    destruct (IH fin st1 _ Hp HI1 G2) as (st2 & F1 & F2). exists st2. split; [|exact F2].
    eapply steps_trans; [exact G1|]. apply say_solo. exact F1.
  - destruct (set_solo s o (fun r => ASay (ESet (as_unit r)) (thread (k (as_unit r)) fin)) st stA HI Hs) as (st1 & G1 & G2).
    assert (HI1 : Inv (fst (set_init user s o stA))) by (apply (init_above 0 user s o stA HI (Inv_above0 stA HI))).
    destruct (set_init user s o stA) as [stA1 r]. cbn [fst snd] in *.
    destruct (IH (as_unit r) fin st1 stA1 (Hp _) HI1 G2) as (st2 & F1 & F2). exists st2. split; [|exact F2].
    eapply steps_trans; [exact G1|]. apply say_solo. destruct r; exact F1.
  - destruct (del_solo (fun r => ASay (EReset r) (thread (k r) fin)) st stA Hs) as (st1 & G1 & G2).
    assert (HI1 : Inv (fst (reset_options stA))).
    { unfold reset_options. destruct (cache stA); cbn [fst]; [now apply Inv_none|exact HI]. }
    destruct (reset_options stA) as [stA1 r]. cbn [fst snd] in *.
    destruct (IH r fin st1 stA1 (Hp r) HI1 G2) as (st2 & F1 & F2). exists st2. split; [|exact F2].
    eapply steps_trans; [exact G1|]. apply say_solo. exact F1.
  - destruct Hp as [Hb Hk]. unfold with_options.
    match goal with |- context [set_act s o ?K] => destruct (set_solo s o K st stA HI Hs) as (st1 & G1 & G2) end.
    destruct (init_above 0 user s o stA HI (Inv_above0 stA HI)) as (HI1 & _ & _ & _ & Hold). cbn zeta in *.
    assert (Hload : forall old, snd (set_init user s o stA) = Ok old -> cache (fst (set_init user s o stA)) <> None).
    { unfold set_init. destruct (cache stA); [|discriminate]. destruct (parse_opts s o) as [c|]; [|discriminate]. cbn [fst snd].
      intros _ _. destruct (load_facts user c _ (Inv_none stA HI)) as (_ & L & _). cbn zeta in L. congruence. }
    destruct (set_init user s o stA) as [stA1 [old|e]]; cbn [fst snd] in *.
    + destruct (Hold old eq_refl) as [Ho _]. specialize (Hload old eq_refl).
      match type of G1 with steps _ _ (enter_act ?K) _ => set (kont := K) in * end.
      set (fin1 := fun r1 : res unit => exit_act (Some old) (fun r2 =>
          let r3 := match r2 with Raise e => Raise e | Ok _ => r1 end in ASay (EWith r3) (thread (k r3) fin))).
      destruct (IHb fin1 st1 stA1 Hb HI1 G2) as (st2 & F1 & F2).
      destruct (run_Inv body stA1 HI1) as [HI2 Hlen].
      destruct (run user body stA1) as [stA2 r1]. cbn [fst snd] in *.
      destruct (exit_solo old (fun r2 => let r3 := match r2 with Raise e => Raise e | Ok _ => r1 end in ASay (EWith r3) (thread (k r3) fin))
         st2 stA2 HI2 F2) as (st3 & X1 & X2); [lia|].
      assert (EX := exit_facts old stA2 HI2 ltac:(lia)).
      rewrite EX in X1, X2 |- *. cbn [fst snd] in *.
      assert (HI3 : Inv (mkst (objs stA2) (Some old))).
      { split; [intros i Hi; cbn in Hi |- *; injection Hi as <-; lia|apply HI2]. }
      destruct (IHk r1 fin st3 _ (Hk r1) HI3 X2) as (st4 & K1 & K2). exists st4. split; [|exact K2].
      eapply steps_trans; [exact G1|]. unfold enter_act.
      eapply steps_step; [reflexivity|]. rewrite (proj1 G2). destruct (cache stA1); [|congruence].
      eapply steps_trans; [exact F1|]. eapply steps_trans; [exact X1|]. cbv zeta iota beta. apply say_solo. exact K1.
    + destruct (IHk (Raise e) fin st1 stA1 (Hk _) HI1 G2) as (st2 & F1 & F2). exists st2. split; [|exact F2].
      eapply steps_trans; [exact G1|]. apply say_solo. exact F1.
Qed.
End solo.
