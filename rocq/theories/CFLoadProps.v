(** C46: loading of CF specifications and its in-memory cache. *)
From Verif Require Import PyDictFacts CFLoad CFLoadSpec CFLoadProofs.
From Coq Require Import Lia.
Open Scope nat_scope.
Open Scope string_scope.

Lemma flat_map_keys {B} (v : dict B) (f : string * B -> list string) (g : string -> list string) :
  dict_wf v -> (forall k x, dget v k = Some x -> f (k, x) = g k) -> flat_map f v = flat_map g (dkeys v).
Proof.
  intros Hw H. assert (G : forall w, incl w v -> flat_map f w = flat_map g (map fst w)).
  { induction w as [|[k x] w IH]; intro Hi; auto. cbn. rewrite IH by (intros e He; apply Hi; now right).
    rewrite (H k x); auto. apply dget_in; auto. apply Hi. now left. }
  apply G, incl_refl.
Qed.
Lemma firsts_in l : forall seen x, In x (firsts seen l) -> In x l.
Proof.
  induction l as [|y l IH]; intros seen x H; cbn in *; auto.
  destruct (existsb (String.eqb y) seen); [right; eauto|]. destruct H as [->|H]; [now left|right; eauto].
Qed.
Lemma in_firsts l : forall seen x, In x l -> In x seen \/ In x (firsts seen l).
Proof.
  induction l as [|y l IH]; intros seen x H; cbn in *; [easy|].
  destruct (existsb (String.eqb y) seen) eqn:E.
  - destruct H as [->|H]; [|eauto]. left. apply existsb_exists in E as (z & Hz & E).
    apply String.eqb_eq in E as ->. auto.
  - destruct H as [->|H]; [right; now left|]. destruct (IH (seen ++ [y])%list x H) as [G|G].
    + apply in_app_or in G as [G|[->|[]]]; auto. right. now left.
    + right. now right.
Qed.
Lemma coord_keys_in k ss : In k (coord_keys ss) <-> has_coord k ss.
Proof.
  unfold coord_keys, has_coord. split.
  - intro H. apply firsts_in in H. apply in_flat_map in H as (s & H1 & H2). eauto.
  - intros (s & H1 & H2). destruct (in_firsts (flat_map (fun s => dkeys (s_coords s)) ss) [] k) as [[]|]; auto.
    apply in_flat_map. eauto.
Qed.

(** Without cache, or with sources that are not cached, the specifications are determined by the
    sources, whatever was loaded before: lists are concatenated in the order of the sources,
    the first axis wins, and each coordinate adds its names to the valid dimensions of its axis. *)
Theorem C46_no_cache disk st refs ss : refs <> [] -> Forall2 (reads disk) refs ss -> Forall src_wf ss ->
  axes_known ss ->
  exists c st', load_cfg false disk refs st = Ok (c, st') /\ st_cache st' = st_cache st /\
  (forall ax, has_dims ax ss -> valid_dims st' c ax = Some (expected_dims ax ss)) /\
  (forall ax, ~ has_dims ax ss -> valid_dims st' c ax = None) /\
  (forall k, has_coord k ss -> coord_view st' c k = Some (first_axis k ss, all_names k ss)) /\
  (forall k, ~ has_coord k ss -> coord_view st' c k = None).
Proof.
  intros Hne HF Hwf Hax.
  destruct (load_all_ok disk refs ss HF st) as (cs & st1 & ext & E1 & H1 & Hc & A1 & R1).
  unfold load_cfg. replace (match refs with [] => _ | _ => refs end) with refs by now destruct refs.
  rewrite E1. cbn [bind fst snd].
  destruct (merge_all (mkcfg [] []) cs (st_heap st1)) as [c h] eqn:Em.
  destruct (merge_all_rep cs ss (st_heap st1) (mkcfg [] []) empty_src c h) as ([Rd Rc] & N & Hb); auto.
  { split; constructor. }
  { cbn. rewrite A1. apply seq_NoDup. }
  { cbn. rewrite A1. intros a Ha. apply in_seq in Ha. rewrite H1, app_length. lia. }
  set (M := fold_left psm ss empty_src) in *.
  assert (HMwf : src_wf M) by (apply psm_wf; split; constructor).
  assert (HMc : forall k, has_coord k ss -> dget (s_coords M) k = Some (first_axis k ss, all_names k ss)).
  { intros k. exact (psm_coord ss Hwf empty_src k). }
  assert (HMk : dkeys (s_coords M) = coord_keys ss) by apply (psm_keys ss empty_src).
  assert (HMd : forall ax, (has_dims ax ss -> dget (s_dims M) ax = Some (tt, all_dims ax ss)) /\
                           (~ has_dims ax ss -> dget (s_dims M) ax = None)).
  { intros ax. exact (psm_dims ss Hwf empty_src ax). }
  assert (HMn : forall k, ~ has_coord k ss -> dget (s_coords M) k = None).
  { intros k Hk. apply dget_none. rewrite HMk, coord_keys_in. auto. }
  assert (Hv : forall k x l, In (k, (x, l)) (s_coords M) -> x <> "" -> In (lower x) (dkeys (s_dims M))).
  { intros k x l Hin Nx. apply (dget_in _ _ _ (proj2 HMwf)) in Hin.
    assert (Hk : has_coord k ss).
    { apply coord_keys_in. rewrite <- HMk. apply dmem_in. unfold dmem. now rewrite Hin. }
    rewrite (HMc k Hk) in Hin. injection Hin as <- _.
    apply dmem_in. unfold dmem. now rewrite (proj1 (HMd _) (Hax k Hk Nx)). }
  assert (Kd : dkeys (c_dims c) = dkeys (s_dims M)).
  { clear - Rd. unfold dkeys. induction Rd as [|p q d v (E & _) _ IH]; cbn; auto. now rewrite E, IH. }
  destruct (update_dims_rep (c_dims c) (c_coords c) h (s_dims M) (s_coords M)) as (h' & Eu & Ru & F & L); auto.
  { intros a Ha. apply Hb, in_or_app. auto. }
  { intros k x a Hin Nx. rewrite Kd.
    assert (G : exists l, In (k, (x, l)) (s_coords M)).
    { clear - Rc Hin. induction Rc as [|[k1 [x1 a1]] [k2 [x2 l2]] d v (E1 & E2 & E3) _ IH]; [easy|].
      cbn in E1, E2, E3. subst. destruct Hin as [E|Hin].
      - injection E as -> -> ->. eexists. now left.
      - destruct (IH Hin) as (l & Hl). exists l. now right. }
    destruct G as (l & G). eapply Hv; eauto. }
  rewrite Eu. cbn [bind]. exists c. eexists. split; [reflexivity|]. split; [exact Hc|].
  assert (Rc' : rep h' (c_coords c) (s_coords M)).
  { apply (rep_frame h); auto. intros a Ha. apply F. intro G.
    apply nd_app in N as (_ & _ & N). now apply (N a). }
  assert (Gd : forall ax, valid_dims (mkst h' (st_cache st1)) c ax =
     match dget (s_dims M) ax with Some (_, l) => Some (l ++ flat_map (contrib ax) (s_coords M))%list | None => None end).
  { intro ax. unfold valid_dims. cbn [st_heap]. assert (G := dget_rep h' _ _ ax Ru).
    rewrite (pup_fold_get _ _ ax Hv) in G.
    destruct (dget (c_dims c) ax) as [[u a]|], (dget (s_dims M) ax) as [[u' l]|]; congruence. }
  assert (Gc : forall k, coord_view (mkst h' (st_cache st1)) c k = dget (s_coords M) k).
  { intro k. unfold coord_view. cbn [st_heap]. assert (G := dget_rep h' _ _ k Rc').
    destruct (dget (c_coords c) k) as [[x a]|]; congruence. }
  split; [|split; [|split]].
  - intros ax Ha. rewrite Gd, (proj1 (HMd ax) Ha). unfold expected_dims. do 2 f_equal.
    rewrite <- HMk. apply flat_map_keys; [apply HMwf|].
    intros k [x l] Hk. assert (Hk' : has_coord k ss).
    { apply coord_keys_in. rewrite <- HMk. apply dmem_in. unfold dmem. now rewrite Hk. }
    rewrite (HMc k Hk') in Hk. injection Hk as <- <-. reflexivity.
  - intros ax Ha. now rewrite Gd, (proj2 (HMd ax) Ha).
  - intros k Hk. now rewrite Gc, HMc.
  - intros k Hk. now rewrite Gc, HMn.
Qed.
Print Assumptions C46_no_cache.

(** *** With the cache *)
Lemma merge_sec_empty {A} (join : A -> A -> A) (d : dict (A * addr)) h : dict_wf d -> merge_sec join [] d h = (d, h).
Proof.
  intro Hw. unfold merge_sec.
  assert (G : forall d out, NoDup (dkeys out ++ dkeys d) -> fold_left (merge_entry join) d (out, h) = ((out ++ d)%list, h)).
  { clear. induction d as [|[k [x b]] d IH]; intros out Hn; cbn [fold_left]; [now rewrite app_nil_r|].
    assert (Hk : ~ In k (dkeys out)).
    { apply NoDup_remove_2 in Hn. intro G. apply Hn, in_or_app. auto. }
    unfold merge_entry at 2. rewrite (proj2 (dget_none out k) Hk). rewrite dset_new by auto.
    rewrite IH; [now rewrite <- app_assoc|]. unfold dkeys in *. rewrite map_app, <- app_assoc. exact Hn. }
  now rewrite G.
Qed.
Lemma rep_keys {A} h (d : dict (A * addr)) v : rep h d v -> dkeys d = dkeys v.
Proof. unfold dkeys. induction 1 as [|p q d v (E & _) _ IH]; cbn; auto. now rewrite E, IH. Qed.

(** Loading the same cached file again and again *)
Fixpoint load_times (k : nat) (disk : string -> res src) (n : string) (st : state) : res (list cfg * state) :=
  match k with
  | O => Ok ([], st)
  | S k' =>
    let* p := load_times k' disk n st in
    let* q := load_cfg true disk [RName n] (snd p) in
    Ok ((fst p ++ [fst q])%list, snd q)
  end.

Lemma pup_keys cs : forall vd, dkeys (fold_left pup cs vd) = dkeys vd.
Proof.
  induction cs as [|[a [x l0]] cs IH]; intro vd; cbn [fold_left]; [reflexivity|].
  rewrite IH. cbn [pup]. destruct (x =? ""); auto.
  destruct (dget vd (lower x)) as [[u l1]|] eqn:E; auto. rewrite dkeys_dset. unfold dmem. now rewrite E.
Qed.
Section Grow.
  Variables (n : string) (s : src).
  Hypothesis (Hwf : src_wf s) (Hax : axes_known [s]).
  Definition grown (k : nat) : src := mksrc (Nat.iter k (fold_left pup (s_coords s)) (s_dims s)) (s_coords s).
  Lemma s_axes k x l : In (k, (x, l)) (s_coords s) -> x <> "" -> In (lower x) (dkeys (s_dims s)).
  Proof using Hwf Hax.
    intros Hin Nx. apply (dget_in _ _ _ (proj2 Hwf)) in Hin.
    assert (Hc : has_coord k [s]).
    { exists s. split; [now left|]. apply dmem_in. unfold dmem. now rewrite Hin. }
    assert (E : first_axis k [s] = x).
    { cbn. unfold axis_of. rewrite Hin. destruct (String.eqb_spec x ""); [contradiction|auto]. }
    destruct (Hax k Hc) as (s0 & [<-|[]] & H); rewrite E in *; auto.
  Qed.
  Lemma grown_keys k : dkeys (s_dims (grown k)) = dkeys (s_dims s).
  Proof using Hwf Hax.
    induction k as [|k IH]; auto.
    change (s_dims (grown (S k))) with (fold_left pup (s_coords s) (s_dims (grown k))).
    now rewrite pup_keys.
  Qed.
  Lemma grown_get k ax : dget (s_dims (grown k)) ax =
    match dget (s_dims s) ax with
    | Some (u, l) => Some (u, l ++ List.concat (repeat (flat_map (contrib ax) (s_coords s)) k))%list
    | None => None
    end.
  Proof using Hwf Hax.
    induction k as [|k IH].
    - cbn. destruct (dget (s_dims s) ax) as [[u l]|]; auto. now rewrite app_nil_r.
    - change (s_dims (grown (S k))) with (fold_left pup (s_coords s) (s_dims (grown k))).
      rewrite pup_fold_get.
      + rewrite IH. destruct (dget (s_dims s) ax) as [[u l]|]; auto.
        cbn [repeat]. rewrite repeat_cons, concat_app. cbn [List.concat]. now rewrite app_nil_r, app_assoc.
      + intros k0 x0 l0 Hin N0. rewrite grown_keys. eapply s_axes; eauto.
  Qed.
  Lemma load_step disk st c k : dget (st_cache st) n = Some c -> crep (st_heap st) c (grown k) ->
    NoDup (caddrs c) -> inb (st_heap st) (caddrs c) ->
    exists st', load_cfg true disk [RName n] st = Ok (c, st') /\ st_cache st' = st_cache st /\
      crep (st_heap st') c (grown (S k)) /\ inb (st_heap st') (caddrs c).
  Proof using Hwf Hax.
    intros Hc [R1 R2] Hn Hb. unfold load_cfg. cbn [load_all load_one]. rewrite Hc. cbn [bind fst snd].
    cbn [merge_all]. unfold merge_cfg. cbn [c_dims c_coords].
    rewrite merge_sec_empty.
    2: { unfold dict_wf. rewrite (rep_keys _ _ _ R1), grown_keys. apply Hwf. }
    rewrite merge_sec_empty.
    2: { unfold dict_wf. rewrite (rep_keys _ _ _ R2). apply Hwf. }
    cbn [c_dims c_coords].
    destruct (update_dims_rep (c_dims c) (c_coords c) (st_heap st) _ _ R1 R2) as (h' & Eu & Ru & F & L); auto.
    { intros a Ha. apply Hb, in_or_app. auto. }
    { intros k0 x a Hin Nx. rewrite (rep_keys _ _ _ R1), grown_keys.
      assert (G : exists l, In (k0, (x, l)) (s_coords s)).
      { clear - R2 Hin. cbn in R2. induction R2 as [|[k1 [x1 a1]] [k2 [x2 l2]] d v (E1 & E2 & E3) _ IH]; [easy|].
        cbn in E1, E2, E3. subst. destruct Hin as [E|Hin].
        - injection E as -> -> ->. eexists. now left.
        - destruct (IH Hin) as (l & Hl). exists l. now right. }
      destruct G as (l & G). eapply s_axes; eauto. }
    rewrite Eu. cbn [bind]. eexists. split; [destruct c; reflexivity|]. split; [reflexivity|].
    split; [|cbn; intros a Ha; rewrite L; auto].
    split; cbn [st_heap].
    - exact Ru.
    - apply (rep_frame (st_heap st)); auto. intros a Ha. apply F. intro G.
      apply nd_app in Hn as (_ & _ & Hn). now apply (Hn a).
  Qed.
  Lemma load_times_inv disk st k : dget (st_cache st) n = None -> disk n = Ok s ->
    exists cs c st', load_times (S k) disk n st = Ok (cs ++ [c], st')%list /\ List.length cs = k /\
      dget (st_cache st') n = Some c /\ crep (st_heap st') c (grown (S k)) /\ NoDup (caddrs c) /\
      inb (st_heap st') (caddrs c) /\ (forall d, In d cs -> d = c).
  Proof using Hwf Hax.
    intros Hn Hd. induction k as [|k IH].
    - cbn [load_times bind fst snd].
      destruct (alloc_src s (st_heap st)) as [c h] eqn:Ea.
      destruct (alloc_src_ok _ _ _ _ Ea) as (ext & H1 & A1 & R1).
      assert (Hnd : NoDup (caddrs c)) by (rewrite A1; apply seq_NoDup).
      assert (Hib : inb h (caddrs c)).
      { intros a Ha. rewrite A1 in Ha. apply in_seq in Ha. rewrite H1, app_length. lia. }
      set (st1 := mkst h (dset (st_cache st) n c)).
      assert (Ec : dget (st_cache st1) n = Some c) by (cbn; rewrite dget_dset, String.eqb_refl; auto).
      destruct (load_step disk st1 c 0 Ec R1 Hnd Hib) as (st2 & E2 & C2 & R2 & B2).
      assert (E : load_cfg true disk [RName n] st = load_cfg true disk [RName n] st1).
      { unfold load_cfg. cbn [load_all load_one]. rewrite Hn, Ec, Hd. cbn [bind]. unfold store. rewrite Ea.
        reflexivity. }
      rewrite E, E2. cbn [bind fst snd]. exists [], c, st2. split; [reflexivity|].
      split; auto. split; [now rewrite C2|]. split; auto. split; auto. split; auto. intros d [].
    - destruct IH as (cs & c & st1 & E1 & L1 & C1 & R1 & N1 & B1 & D1).
      destruct (load_step disk st1 c (S k) C1 R1 N1 B1) as (st2 & E2 & C2 & R2 & B2).
      exists (cs ++ [c])%list, c, st2.
      change (load_times (S (S k)) disk n st) with
        (bind (load_times (S k) disk n st) (fun p => bind (load_cfg true disk [RName n] (snd p))
           (fun q => Ok ((fst p ++ [fst q])%list, snd q)))).
      rewrite E1. cbn [bind fst snd]. rewrite E2. cbn [bind fst snd].
      split; [reflexivity|]. split; [rewrite app_length; cbn; lia|].
      split; [now rewrite C2|]. split; auto. split; auto. split; auto.
      intros d Hdin. apply in_app_or in Hdin as [Hdin|[<-|[]]]; auto.
  Qed.
End Grow.

Lemma contrib_adds ax s : src_wf s ->
  flat_map (contrib ax) (s_coords s) = flat_map (adds ax [s]) (coord_keys [s]).
Proof.
  intros [_ Hw]. assert (E : coord_keys [s] = dkeys (s_coords s)).
  { assert (G := psm_keys [s] empty_src). cbn [s_coords empty_src dkeys map app] in G.
    unfold coord_keys. rewrite <- G. cbn [fold_left]. unfold psm. cbn [s_coords empty_src].
    rewrite fold_pm_keys. cbn [dkeys map app]. fold (dkeys (s_coords s)).
    assert (F : forall l seen, NoDup (seen ++ l) -> firsts seen l = l).
    { clear. induction l as [|x l IH]; intros seen Hn; cbn; auto.
      destruct (existsb (String.eqb x) seen) eqn:E.
      - apply existsb_exists in E as (y & Hy & E). apply String.eqb_eq in E as ->.
        apply NoDup_remove_2 in Hn. destruct Hn. apply in_or_app. auto.
      - f_equal. apply IH. rewrite <- app_assoc. exact Hn. }
    now apply F. }
  rewrite E. apply flat_map_keys; auto.
  intros k [x l] Hk. unfold contrib, adds. cbn [first_axis all_names flat_map]. unfold axis_of, names_of.
  rewrite Hk. rewrite app_nil_r. destruct (x =? "") eqn:Ex; cbn; auto. now rewrite Ex.
Qed.

(** With the cache (the default), each load of a file extends the lists of the cached
    configuration: after [S k] loads, the names of the coordinates appear [S k] times among the
    valid dimensions, in all the specifications made so far. *)
Theorem C46_cache_grows_refuted disk st n s k : src_wf s -> axes_known [s] -> dget (st_cache st) n = None ->
  disk n = Ok s ->
  exists cs st', load_times (S k) disk n st = Ok (cs, st') /\ List.length cs = S k /\
  forall c, In c cs -> forall ax, In ax (dkeys (s_dims s)) ->
    valid_dims st' c ax = Some (dims_of ax s ++ List.concat (repeat (flat_map (adds ax [s]) (coord_keys [s])) (S k)))%list.
Proof.
  intros Hw Ha Hn Hd. destruct (load_times_inv n s Hw Ha disk st k Hn Hd) as (cs & c & st' & E & L & _ & [R _] & _ & _ & D).
  exists (cs ++ [c])%list, st'. split; auto. split; [rewrite app_length; cbn; lia|].
  intros d Hdin ax Hax. assert (d = c) as -> by (apply in_app_or in Hdin as [Hdin|[<-|[]]]; auto).
  unfold valid_dims. assert (G := dget_rep _ _ _ ax R). rewrite (grown_get s Hw Ha) in G.
  rewrite (contrib_adds ax s Hw) in G. apply dmem_in in Hax. unfold dmem in Hax. unfold dims_of.
  destruct (dget (c_dims c) ax) as [[u a]|], (dget (s_dims s) ax) as [[u' l]|]; congruence.
Qed.
Print Assumptions C46_cache_grows_refuted.

(** A cached file is not read again, even if it has changed *)
Theorem C46_stale disk disk' st n c : dget (st_cache st) n = Some c ->
  load_one true disk st (RName n) = Ok (c, st) /\ load_one true disk' st (RName n) = Ok (c, st).
Proof. intro H. cbn. now rewrite H. Qed.

(** A tuple (key, file) can be loaded once: the next time, KeyError is raised, unless the file
    has been loaded under its own name *)
Theorem C46_tuple_refuted disk st k n s : dget (st_cache st) k = None -> dget (st_cache st) n = None -> k <> n ->
  disk n = Ok s ->
  exists c st', load_one true disk st (RTuple k n) = Ok (c, st') /\
  load_one true disk st' (RTuple k n) = Raise KeyError.
Proof.
  intros Hk Hn Ne Hd. cbn. unfold dmem. rewrite Hk, Hd. cbn [bind]. unfold store.
  destruct (alloc_src s (st_heap st)) as [c h]. eexists _, _. split; [reflexivity|].
  cbn [st_cache]. rewrite !dget_dset, String.eqb_refl.
  destruct (String.eqb_spec n k); [congruence|]. now rewrite Hn.
Qed.
Print Assumptions C46_tuple_refuted.

(** [set_specs] does not update the specifications: the entries that came from anything else than
    the user and default files are lost. *)
Theorem C46_set_specs_forgets_refuted disk sp st entry : sp_user sp = None -> sp_default sp = false ->
  src_wf entry -> axes_known [entry] ->
  exists sp' st', set_specs false disk sp entry st = Ok (sp', st') /\
  forall k, ~ In k (dkeys (s_coords entry)) -> coord_view st' (sp_cfg sp') k = None.
Proof.
  intros Hu Hd Hw Ha. unfold set_specs, to_load. rewrite Hu, Hd. cbn [app].
  destruct (C46_no_cache disk st [RText entry] [entry]) as (c & st' & E & _ & _ & _ & _ & H); auto.
  - discriminate.
  - constructor; [reflexivity|constructor].
  - rewrite E. cbn [bind fst snd]. eexists _, _. split; [reflexivity|]. cbn [sp_cfg]. intros k Hk.
    apply H. intros (s & [<-|[]] & G). contradiction.
Qed.
Print Assumptions C46_set_specs_forgets_refuted.

(** [set_specs] loads the new entry, then the user file, then the default one, "cf.cfg", when they
    are asked for; nothing else counts. *)
Theorem C46_set_specs_sources disk sp st entry user default :
  match sp_user sp with Some u => exists s, disk u = Ok s /\ user = [s] | None => user = [] end ->
  (if sp_default sp then exists s, disk "cf.cfg" = Ok s /\ default = [s] else default = []) ->
  let ss := (entry :: user ++ default)%list in Forall src_wf ss -> axes_known ss ->
  exists sp' st', set_specs false disk sp entry st = Ok (sp', st') /\ sp_user sp' = sp_user sp /\ sp_default sp' = sp_default sp /\
  (forall ax, has_dims ax ss -> valid_dims st' (sp_cfg sp') ax = Some (expected_dims ax ss)) /\
  (forall ax, ~ has_dims ax ss -> valid_dims st' (sp_cfg sp') ax = None) /\
  (forall k, has_coord k ss -> coord_view st' (sp_cfg sp') k = Some (first_axis k ss, all_names k ss)) /\
  (forall k, ~ has_coord k ss -> coord_view st' (sp_cfg sp') k = None).
Proof.
  intros Hu Hd ss Hw Ha. unfold set_specs.
  destruct (C46_no_cache disk st (to_load [RText entry] (sp_user sp) (sp_default sp)) ss) as (c & st' & E & _ & H); auto.
  - discriminate.
  - unfold to_load, ss. cbn [app]. constructor; [reflexivity|]. apply Forall2_app.
    + destruct (sp_user sp) as [u|]; [destruct Hu as (s & Hs & ->)|subst]; constructor; [exact Hs|constructor].
    + destruct (sp_default sp); [destruct Hd as (s & Hs & ->)|subst]; constructor; [exact Hs|constructor].
  - rewrite E. cbn [bind fst snd]. eexists _, _. split; [reflexivity|]. cbn [sp_cfg sp_user sp_default]. auto.
Qed.
Print Assumptions C46_set_specs_sources.

(** A small default configuration *)
Definition small := mksrc [("x", (tt, ["nx"; "ni"])); ("y", (tt, ["ny"]))]
  [("lon", ("X", ["longitude"])); ("mask", ("", []))].
Example small_ok : src_wf small /\ axes_known [small].
Proof.
  split.
  - split; repeat (constructor; [cbn; intuition discriminate|]); constructor.
  - intros k (s & [<-|[]] & Hk) Hx. cbn in Hk. destruct Hk as [<-|[<-|[]]].
    + exists small. split; [now left|]. cbn. auto.
    + destruct Hx. reflexivity.
Qed.
Definition disk0 (n : string) : res src := if n =? "cf.cfg" then Ok small else Raise XoaConfigError.
Example C46_once : exists c st, load_cfg false disk0 [RName "cf.cfg"] (mkst [] []) = Ok (c, st) /\
  valid_dims st c "x" = Some ["nx"; "ni"; "lon"; "longitude"].
Proof. eexists _, _. split; vm_compute; reflexivity. Qed.
Example C46_twice : exists c c' st, load_times 2 disk0 "cf.cfg" (mkst [] []) = Ok ([c; c'], st) /\
  valid_dims st c "x" = Some ["nx"; "ni"; "lon"; "longitude"; "lon"; "longitude"].
Proof. eexists _, _, _. split; vm_compute; reflexivity. Qed.
(** and a custom configuration merged with the cached default one pollutes it *)
Definition custom := mksrc [("x", (tt, [])); ("y", (tt, ["jj"]))] [("lon", ("", ["my_lon"]))].
Example C46_pollution : exists c c' st st', load_cfg true disk0 [RText custom; RName "cf.cfg"] (mkst [] []) = Ok (c, st) /\
  load_cfg true disk0 [RName "cf.cfg"] st = Ok (c', st') /\
  valid_dims st' c' "x" = Some ["nx"; "ni"; "lon"; "my_lon"; "longitude"; "lon"; "longitude"].
Proof. eexists _, _, _, _. split; [|split]; vm_compute; reflexivity. Qed.
Example C46_sources_met : exists sp st, set_specs false disk0 (mkspecs (mkcfg [] []) None true) custom (mkst [] []) = Ok (sp, st) /\
  valid_dims st (sp_cfg sp) "x" = Some ["nx"; "ni"; "lon"; "my_lon"; "longitude"] /\ Forall src_wf [custom; small] /\ axes_known [custom; small].
Proof.
  eexists _, _. split; [vm_compute; reflexivity|]. split; [vm_compute; reflexivity|]. split.
  - repeat constructor; cbn; intuition discriminate.
  - intros k (s & Hs & Hk) Hx. exists small. split; [right; now left|]. destruct Hs as [<-|[<-|[]]]; cbn in Hk; intuition subst; cbn; auto; destruct Hx; reflexivity.
Qed.
