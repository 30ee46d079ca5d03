(** C45: [xoa.sigma.get_sigma_terms] and [decode_cf_sigma]. *)
From Verif Require Import PyReFacts PyDictFacts FormulaTerms FormulaTermsSpec FormulaTermsProofs FormulaTermsProps.
From Coq Require Import Lia.
Open Scope string_scope.

Lemma search_ok vars name v : resolves vars name v -> ds_search_ci vars name = Ok v.
Proof.
  intros (l1 & l2 & -> & E & H). unfold ds_search_ci.
  induction l1 as [|u l1 IH]; cbn.
  - rewrite E, String.eqb_refl. auto.
  - destruct (String.eqb_spec (lower u) (lower name)) as [Eu|].
    + destruct (H u (or_introl eq_refl) Eu).
    + apply IH. intros u' Hu'. apply H. now right.
Qed.
Lemma search_fail vars name : (forall u, In u vars -> lower u <> lower name) ->
  ds_search_ci vars name = Raise AttributeError.
Proof.
  intro H. unfold ds_search_ci. destruct (find _ vars) as [u|] eqn:E; auto.
  apply find_some in E as [Hu E]. apply String.eqb_eq in E. destruct (H u Hu E).
Qed.
Lemma term_ok t a : In (t, a) term_args -> dget FORMULA_TERMS_TO_CF_NAMES t = Some a.
Proof.
  intro H. cbn in H.
  repeat match goal with H : _ \/ _ |- _ => destruct H as [H|H] end;
    try (injection H as <- <-; reflexivity). easy.
Qed.
Lemma term_bad t : ~ In t (map fst term_args) -> dget FORMULA_TERMS_TO_CF_NAMES t = None.
Proof.
  intro H. apply dget_none. intro G. apply H. cbn in *. tauto.
Qed.
Lemma sub_terms_ok vars ps vas : Forall2 (good_pair vars) ps vas ->
  forall rest sub, sub_terms vars (ps ++ rest)%list sub = sub_terms vars rest (dupdate sub vas).
Proof.
  induction 1 as [|[t v0] [v a] ps vas [H1 H2] _ IH]; intros rest sub; auto.
  cbn [app sub_terms fst snd] in *. rewrite (search_ok _ _ _ H1). cbn [bind].
  rewrite (term_ok _ _ H2). now rewrite IH.
Qed.
Lemma accepted_ok ty : existsb (String.eqb ty) SIGMA_COORDINATE_TYPES = true <-> In ty accepted_types.
Proof.
  change SIGMA_COORDINATE_TYPES with accepted_types. rewrite existsb_exists. split.
  - intros (x & Hx & E). apply String.eqb_eq in E as ->. auto.
  - intro H. exists ty. split; auto. apply String.eqb_refl.
Qed.
Lemma one_sig_ok sg vars s loc ty vas : declared sg vars s loc ty vas ->
  one_sig sg vars s = Ok (loc, dupdate (dset [(s_name s, "sig")] "type" ty) vas).
Proof.
  intros (sn & ft & ps & E1 & E2 & Ht & E3 & Hw & Hn & HF). unfold one_sig.
  rewrite E1, E2. cbn [bind fst snd]. rewrite (proj2 (accepted_ok ty) Ht), E3.
  rewrite (proj2 (C42_roundtrip _ _ Hw) Hn). cbn [bind].
  rewrite <- (app_nil_r ps). now rewrite (sub_terms_ok vars ps vas HF).
Qed.
Lemma one_sig_refused sg vars s e : refused sg vars s e -> one_sig sg vars s = Raise e.
Proof.
  unfold one_sig.
  destruct 1 as [E|sn ty loc E1 E2 Ht|sn ty loc E1 E2 Ht E3|sn ty loc ft l p E1 E2 Ht E3 Hp Hin Hc
    |sn ty loc ft ps vas t v ps' E1 E2 Ht E3 Hw Hn HF Hv|sn ty loc ft ps vas t v u ps' E1 E2 Ht E3 Hw Hn HF Hv Hu].
  - now rewrite E.
  - rewrite E1, E2. cbn [bind fst]. destruct (existsb _ _) eqn:E; auto.
    apply (proj1 (accepted_ok ty)) in E. contradiction.
  - rewrite E1, E2. cbn [bind fst]. now rewrite (proj2 (accepted_ok ty) Ht), E3.
  - rewrite E1, E2. cbn [bind fst]. rewrite (proj2 (accepted_ok ty) Ht), E3.
    destruct (C42_every_attribute ft) as (l' & Hl' & Hu & Hb & _).
    rewrite Hb; auto. exists p. split; auto. now rewrite <- (Hu l Hp).
  - rewrite E1, E2. cbn [bind fst]. rewrite (proj2 (accepted_ok ty) Ht), E3.
    rewrite (proj2 (C42_roundtrip _ _ Hw) Hn). cbn [bind].
    rewrite (sub_terms_ok vars ps vas HF). cbn [sub_terms]. now rewrite search_fail.
  - rewrite E1, E2. cbn [bind fst]. rewrite (proj2 (accepted_ok ty) Ht), E3.
    rewrite (proj2 (C42_roundtrip _ _ Hw) Hn). cbn [bind].
    rewrite (sub_terms_ok vars ps vas HF). cbn [sub_terms]. rewrite (search_ok _ _ _ Hv). cbn [bind].
    now rewrite term_bad.
Qed.

Lemma oeqb_eq a b : oeqb a b = true <-> a = b.
Proof.
  destruct a as [x|], b as [y|]; cbn; split; intro H; try easy.
  - apply String.eqb_eq in H as ->. auto.
  - injection H as ->. apply String.eqb_refl.
Qed.
Lemma oget_oset {V} (d : list (option string * V)) k v k' :
  oget (oset d k v) k' = if oeqb k' k then Some v else oget d k'.
Proof.
  induction d as [|[k0 v0] d IH]; cbn; [now destruct (oeqb k' k)|].
  destruct (oeqb k k0) eqn:E; cbn.
  - apply oeqb_eq in E as ->. now destruct (oeqb k' k0).
  - rewrite IH. destruct (oeqb k' k0) eqn:E0; auto.
    apply oeqb_eq in E0 as ->. destruct (oeqb k0 k) eqn:E1; auto.
    apply oeqb_eq in E1 as ->. now rewrite (proj2 (oeqb_eq k k) eq_refl) in E.
Qed.
Lemma bindings_get s ty vas x :
  dget (dupdate (dset [(s_name s, "sig")] "type" ty) vas) x = last_binding (bindings s ty vas) x.
Proof.
  rewrite dget_last. unfold bindings. cbn [last_binding].
  destruct (last_binding vas x); auto. rewrite dget_dset. cbn [dget].
  destruct (String.eqb x "type"); auto.
Qed.

Definition ok_entry sg vars s (d : option string * string * list (string * string)) : Prop :=
  declared sg vars s (fst (fst d)) (snd (fst d)) (snd d).
Lemma sig_loop_ok sg vars sigs ds : Forall2 (ok_entry sg vars) sigs ds -> forall rest terms,
  exists terms', sig_loop sg vars (sigs ++ rest)%list terms = sig_loop sg vars rest terms' /\
  forall loc, match last_at loc (combine sigs ds) with
              | None => oget terms' loc = oget terms loc
              | Some (s, (ty, vas)) =>
                exists sub, oget terms' loc = Some sub /\
                forall x, dget sub x = last_binding (bindings s ty vas) x
              end.
Proof.
  induction 1 as [|s [[loc ty] vas] sigs ds H _ IH]; intros rest terms.
  - exists terms. cbn. auto.
  - cbn [app sig_loop]. rewrite (one_sig_ok _ _ _ _ _ _ H). cbn [bind fst snd].
    destruct (IH rest (oset terms loc (dupdate (dset [(s_name s, "sig")] "type" ty) vas))) as (t' & E & G).
    exists t'. split; [exact E|]. intro loc'. specialize (G loc'). cbn [combine last_at].
    destruct (last_at loc' (combine sigs ds)) as [[s' [ty' vas']]|]; auto.
    rewrite oget_oset in G. destruct (oeqb loc' loc); [|exact G].
    eexists. split; [exact G|]. intro x. apply bindings_get.
Qed.

(** The terms of well declared arrays: for each location, those of the last array at this
    location. *)
Theorem C45_terms sg vars sigs ds : Forall2 (ok_entry sg vars) sigs ds ->
  exists all, get_sigma_terms sg vars sigs = Ok all /\
  forall loc, match last_at loc (combine sigs ds) with
              | None => oget all loc = None
              | Some (s, (ty, vas)) =>
                exists sub, oget all loc = Some sub /\
                forall x, dget sub x = last_binding (bindings s ty vas) x
              end.
Proof.
  intro H. destruct (sig_loop_ok _ _ _ _ H [] []) as (t & E & G). rewrite app_nil_r in E.
  exists t. split; [exact E|]. intro loc. specialize (G loc).
  destruct (last_at loc (combine sigs ds)) as [[? [? ?]]|]; auto.
Qed.
Print Assumptions C45_terms.

(** The first array that is not well declared makes the call fail; a variable that is not
    found raises AttributeError, not the documented XoaSigmaError. *)
Theorem C45_refused sg vars sigs ds s e rest : Forall2 (ok_entry sg vars) sigs ds ->
  refused sg vars s e -> get_sigma_terms sg vars (sigs ++ s :: rest)%list = Raise e.
Proof.
  intros H Hr. destruct (sig_loop_ok _ _ _ _ H (s :: rest) []) as (t & E & _).
  unfold get_sigma_terms. rewrite E. cbn [sig_loop]. now rewrite (one_sig_refused _ _ _ _ Hr).
Qed.
Print Assumptions C45_refused.

(** [errors="ignore"] or ["warn"] only hide XoaSigmaError. *)
Theorem C45_errors sg vars coords sigs ds s e rest err : Forall2 (ok_entry sg vars) sigs ds ->
  refused sg vars s e ->
  decode_cf_sigma sg vars coords (sigs ++ s :: rest)%list err =
    match e, err with
    | XoaSigmaError, EIgnore | XoaSigmaError, EWarn => Ok None
    | _, _ => Raise e
    end.
Proof.
  intros H Hr. unfold decode_cf_sigma. rewrite (C45_refused _ _ _ _ _ _ _ H Hr).
  destruct e, err; reflexivity.
Qed.
Print Assumptions C45_errors.

(** *** The calls of the formulas *)
Definition swap (l : dict string) : list (string * string) := map (fun va => (snd va, fst va)) l.
Lemma make_kwargs_ok has terms : (forall v, In v (dkeys terms) -> has v = true) ->
  forall kw, make_kwargs has terms kw = Ok (dupdate kw (swap terms)).
Proof.
  induction terms as [|[v a] terms IH]; intros H kw; auto.
  cbn [make_kwargs]. rewrite H by now left. rewrite IH by (intros; apply H; now right). reflexivity.
Qed.
Lemma make_kwargs_some has terms : forall kw kw', make_kwargs has terms kw = Ok kw' ->
  kw' = dupdate kw (swap terms).
Proof.
  induction terms as [|[v a] terms IH]; intros kw kw'; cbn [make_kwargs].
  - intro H. now injection H as <-.
  - destruct (has v); [|easy]. intro H. rewrite (IH _ _ H). reflexivity.
Qed.
Lemma last_binding_in vas x a : NoDup (map fst vas) -> (last_binding vas x = Some a <-> In (x, a) vas).
Proof.
  intro H. change (last_binding vas x) with (last_bound vas x). rewrite last_bound_wf by auto. now apply dget_in.
Qed.
Lemma resolves_in vars name v : resolves vars name v -> In v vars.
Proof. intros (l1 & l2 & -> & _). apply in_or_app. right. now left. Qed.
Lemma good_in vars ps vas v a : Forall2 (good_pair vars) ps vas -> In (v, a) vas ->
  In v vars /\ In a (map snd term_args).
Proof.
  induction 1 as [|[t v0] [v' a'] ps vas [H1 H2] _ IH]; [easy|]. intros [E|E]; auto.
  injection E as -> ->. split; [now apply resolves_in in H1|]. now apply (in_map snd) in H2.
Qed.
Lemma in_existsb x l : existsb (String.eqb x) l = true <-> In x l.
Proof.
  rewrite existsb_exists. split.
  - intros (y & H & E). apply String.eqb_eq in E as ->. auto.
  - intro H. exists x. split; auto. apply String.eqb_refl.
Qed.

(** A well declared array whose terms suit the formula: the formula is called once, with the
    array as [sig] and the variables of the terms as the other arguments. *)
Theorem C45_call sg vars coords s loc ty vas err :
  declared sg vars s loc ty vas -> In (s_name s) (vars ++ coords) -> s_name s <> "type" ->
  ~ In "type" (map fst vas) -> NoDup (map fst vas) -> NoDup (map snd vas) ->
  (forall v, In (v, "sig") vas -> v = s_name s) ->
  (forall a, In (s_name s, a) vas -> a = "sig") ->
  takes ty ("sig" :: map snd vas) ->
  exists kw, decode_cf_sigma sg vars coords [s] err = Ok (Some [(loc, (ty, kw))]) /\
  forall a v, dget kw a = Some v <-> (a = "sig" /\ v = s_name s) \/ In (v, a) vas.
Proof.
  intros Hd Hin Hnt Ht Hn1 Hn2 Hs Hsa Htk.
  set (sub := dupdate (dset [(s_name s, "sig")] "type" ty) vas).
  assert (Hwf : dict_wf sub).
  { apply dupdate_wf, dset_wf. constructor; [easy|constructor]. }
  assert (Hty : dget sub "type" = Some ty).
  { unfold sub. rewrite bindings_get. unfold bindings. cbn [last_binding].
    destruct (last_binding vas "type") eqn:E; auto.
    apply (last_binding_in _ _ _ Hn1) in E. apply (in_map fst) in E. contradiction. }
  assert (Hx : forall x a, In (x, a) (ddel sub "type") <-> (a = "sig" /\ x = s_name s) \/ In (x, a) vas).
  { intros x a. rewrite <- dget_in by now apply filter_wf.
    unfold ddel. rewrite (dget_filter (fun k => negb (String.eqb "type" k))).
    destruct (String.eqb_spec "type" x) as [E|Ne]; cbn [negb].
    - subst x. split; [easy|]. intros [[_ E]|E]; [now symmetry in E|].
      apply (in_map fst) in E. contradiction.
    - unfold sub. rewrite bindings_get. unfold bindings. cbn [last_binding].
      destruct (last_binding vas x) as [a'|] eqn:E.
      + apply (last_binding_in _ _ _ Hn1) in E. split.
        * intro H. injection H as <-. auto.
        * intros [[-> ->]|H]; [now rewrite (Hsa _ E)|].
          apply (last_binding_in _ _ _ Hn1) in E. apply (last_binding_in _ _ _ Hn1) in H. congruence.
      + assert (Hno : ~ In (x, a) vas).
        { intro H. apply (last_binding_in _ _ _ Hn1) in H. congruence. }
        destruct (String.eqb_spec x "type"); [congruence|].
        destruct (String.eqb_spec x (s_name s)) as [->|Ns].
        * split; [intro H; injection H as <-; auto|]. intros [[-> _]|H]; [auto|contradiction].
        * split; [easy|]. intros [[_ H]|H]; contradiction. }
  destruct Hd as (sn & ft & ps & E1 & E2 & Hty' & E3 & Hw & Hn & HF).
  assert (Hd : declared sg vars s loc ty vas) by (exists sn, ft, ps; auto 10).
  set (kw := dupdate [] (swap (ddel sub "type"))).
  assert (Hkw : forall a v, dget kw a = Some v <-> (a = "sig" /\ v = s_name s) \/ In (v, a) vas).
  { intros a v.
    assert (Hswap : forall a v, In (a, v) (swap (ddel sub "type")) <-> (a = "sig" /\ v = s_name s) \/ In (v, a) vas).
    { intros a' v'. rewrite <- Hx. unfold swap. rewrite in_map_iff. split.
      - intros ([v0 a0] & E & H). cbn in E. injection E as -> ->. auto.
      - intro H. exists (v', a'). auto. }
    assert (Hfun : forall a v v', In (a, v) (swap (ddel sub "type")) -> In (a, v') (swap (ddel sub "type")) -> v = v').
    { intros a0 v0 v1 H0 H1. apply (proj1 (Hswap _ _)) in H0. apply (proj1 (Hswap _ _)) in H1.
      destruct H0 as [[-> ->]|H0], H1 as [[Ea ->]|H1]; auto.
      - symmetry. now apply Hs.
      - subst a0. now apply Hs.
      - clear - Hn2 H0 H1. induction vas as [|[x y] vas IH]; [easy|].
        cbn in Hn2. inversion Hn2 as [|? ? Hni Hn2']; subst.
        destruct H0 as [E0|H0], H1 as [E1|H1]; auto.
        + congruence.
        + injection E0 as -> ->. apply (in_map snd) in H1. contradiction.
        + injection E1 as -> ->. apply (in_map snd) in H0. contradiction. }
    rewrite <- Hswap. unfold kw. rewrite dget_dupdate. cbn [dget].
    destruct (last_bound (swap (ddel sub "type")) a) as [v'|] eqn:E.
    - apply last_bound_in in E. split; [intro H; injection H as <-; auto|].
      intro H. now rewrite (Hfun _ _ _ E H).
    - apply last_bound_none in E. split; [easy|]. intro H. destruct E. now apply (in_map fst) in H. }
  exists kw. split; [|exact Hkw].
  unfold decode_cf_sigma, get_sigma_terms. cbn [sig_loop]. rewrite (one_sig_ok _ _ _ _ _ _ Hd).
  cbn [bind fst snd oset]. cbn [all_calls]. fold sub. unfold one_call. rewrite Hty.
  assert (Hk : forall v, In v (dkeys (ddel sub "type")) -> existsb (String.eqb v) (vars ++ coords) = true).
  { intros v Hv. unfold dkeys in Hv. apply in_map_iff in Hv as ([v' a] & <- & Hv). cbn [fst].
    apply in_existsb. apply Hx in Hv as [[_ ->]|Hv]; auto. apply in_or_app. left. eapply good_in; eauto. }
  rewrite (make_kwargs_ok _ _ Hk). fold kw. cbn [bind].
  assert (Harg : forall a, In a (dkeys kw) <-> In a ("sig" :: map snd vas)).
  { intro a. rewrite <- dmem_in. unfold dmem. cbn [In]. rewrite in_map_iff. split.
    - destruct (dget kw a) as [v|] eqn:E; [|easy]. intros _. apply Hkw in E as [[-> _]|E]; auto.
      right. exists (v, a). auto.
    - intros [<-|([v a'] & Ea & Hv)].
      + now rewrite (proj2 (Hkw "sig" (s_name s))) by auto.
      + cbn in Ea. subst a'. now rewrite (proj2 (Hkw a v)) by auto. }
  assert (Hcall : exists req opt, dget sigma_functions ty = Some (req, opt) /\
    forallb (dmem kw) req && forallb (fun k => existsb (String.eqb k) (req ++ opt)%list) (dkeys kw) = true).
  { cbn in Hty'. destruct Hty' as [<-|[<-|[<-|[<-|[]]]]]; cbn in Htk; try contradiction.
    - eexists _, _. split; [reflexivity|]. apply andb_true_intro. split.
      + apply forallb_forall. intros a Ha. apply dmem_in, Harg, Htk. exact Ha.
      + apply forallb_forall. intros a Ha. apply in_existsb. rewrite app_nil_r. now apply Htk, Harg.
    - eexists _, _. split; [reflexivity|]. apply andb_true_intro. split.
      + apply forallb_forall. intros a Ha. apply dmem_in, Harg. cbn in Ha |- *.
        destruct Ha as [<-|[<-|[<-|[<-|[]]]]]; tauto.
      + apply forallb_forall. intros a Ha. apply in_existsb. apply (proj1 (Harg _)) in Ha.
        destruct Ha as [<-|Ha]; [now left|]. apply in_map_iff in Ha as ([v a'] & <- & Hv).
        destruct (good_in _ _ _ _ _ HF Hv) as [_ Ha]. cbn in Ha |- *. tauto. }
  destruct Hcall as (req & opt & -> & ->). reflexivity.
Qed.
Print Assumptions C45_call.

(** Whatever the dataset, only two of the five formulas are ever called. *)
Lemma sub_terms_vals vars fts : forall sub sub', sub_terms vars fts sub = Ok sub' ->
  (forall v a, In (v, a) sub -> v <> "type" -> In a (map snd term_args)) ->
  (forall v a, In (v, a) sub' -> v <> "type" -> In a (map snd term_args)).
Proof.
  induction fts as [|[t v0] fts IH]; intros sub sub' E H; cbn [sub_terms] in E; [now injection E as <-|].
  destruct (ds_search_ci vars v0) as [u|] eqn:Eu; [|easy]. cbn [bind] in E.
  destruct (dget FORMULA_TERMS_TO_CF_NAMES (lower t)) as [a0|] eqn:Ea; [|easy].
  apply (IH _ _ E). intros v a Hva Hne.
  assert (Hi : In (v, a) sub \/ a = a0).
  { clear - Hva. induction sub as [|[k w] sub IH]; cbn in Hva.
    - destruct Hva as [Hva|[]]. injection Hva as _ <-. auto.
    - destruct (String.eqb u k); destruct Hva as [Hva|Hva]; try (injection Hva as <- <-); cbn; auto.
      destruct (IH Hva); auto. }
  destruct Hi as [Hi | ->]; [eauto|]. apply dget_some_in in Ea. cbn in Ea |- *.
  repeat match goal with H : _ \/ _ |- _ => destruct H as [H|H] end;
    try (injection Ea as _ <-; tauto); easy.
Qed.
Lemma all_calls_in has all : forall calls, all_calls has all = Ok calls -> forall loc c, In (loc, c) calls ->
  exists terms, In (loc, terms) all /\ one_call has terms = Ok c.
Proof.
  induction all as [|[l t] all IH]; intros calls E loc c Hin; cbn in E.
  - injection E as <-. easy.
  - destruct (one_call has t) as [c0|] eqn:Ec; [|easy]. cbn in E.
    destruct (all_calls has all) as [r|] eqn:Er; [|easy]. cbn in E. injection E as <-.
    destruct Hin as [Hin|Hin].
    + injection Hin as -> ->. exists t. split; [now left|auto].
    + destruct (IH r eq_refl _ _ Hin) as (t' & H1 & H2). exists t'. split; [now right|auto].
Qed.
Lemma oset_in {V} (d : list (option string * V)) k v k' v' : In (k', v') (oset d k v) ->
  In (k', v') d \/ v' = v.
Proof.
  induction d as [|[k0 v0] d IH]; cbn.
  - intros [H|[]]. injection H as _ <-. auto.
  - destruct (oeqb k k0); intros [H|H]; try (injection H as <- <-); auto. destruct (IH H); auto.
Qed.
Lemma sig_loop_vals sg vars sigs : forall terms all, sig_loop sg vars sigs terms = Ok all ->
  (forall loc sub, In (loc, sub) terms -> forall v a, In (v, a) sub -> v <> "type" -> In a (map snd term_args)) ->
  (forall loc sub, In (loc, sub) all -> forall v a, In (v, a) sub -> v <> "type" -> In a (map snd term_args)).
Proof.
  induction sigs as [|s sigs IH]; intros terms all E H; cbn [sig_loop] in E; [now injection E as <-|].
  destruct (one_sig sg vars s) as [[loc sub]|] eqn:Es; [|easy]. cbn [bind fst snd] in E.
  apply (IH _ _ E). intros loc' sub' Hin. apply oset_in in Hin as [Hin| ->]; [eauto|].
  unfold one_sig in Es. destruct (dget (s_attrs s) "standard_name") as [sn|]; [|easy].
  destruct (parse_attr sg "standard_name" sn) as [p|]; [|easy]. cbn [bind] in Es.
  destruct (existsb _ _); [|easy]. destruct (dget (s_attrs s) "formula_terms") as [ft|]; [|easy].
  destruct (decode_formula_terms ft) as [fts|]; [|easy]. cbn [bind] in Es.
  destruct (sub_terms _ _ _) as [sub0|] eqn:E0; [|easy]. cbn [bind] in Es. injection Es as _ <-.
  apply (sub_terms_vals _ _ _ _ E0). intros v a Hva Hne. cbn [dset] in Hva.
  destruct (String.eqb "type" (s_name s)) eqn:En; cbn in Hva.
  - destruct Hva as [Hva|[]]. injection Hva as <- <-. apply String.eqb_eq in En. congruence.
  - destruct Hva as [Hva|[Hva|[]]]; injection Hva as <- <-; [cbn; tauto|congruence].
Qed.
Lemma sig_loop_types sg vars sigs : forall terms all, sig_loop sg vars sigs terms = Ok all ->
  (forall loc sub ty, In (loc, sub) terms -> dget sub "type" = Some ty -> In ty (accepted_types ++ map snd term_args)) ->
  (forall loc sub ty, In (loc, sub) all -> dget sub "type" = Some ty -> In ty (accepted_types ++ map snd term_args)).
Proof.
  induction sigs as [|s sigs IH]; intros terms all E H; cbn [sig_loop] in E; [now injection E as <-|].
  destruct (one_sig sg vars s) as [[loc sub]|] eqn:Es; [|easy]. cbn [bind fst snd] in E.
  apply (IH _ _ E). intros loc' sub' ty Hin. apply oset_in in Hin as [Hin| ->]; [eauto|].
  unfold one_sig in Es. destruct (dget (s_attrs s) "standard_name") as [sn|]; [|easy].
  destruct (parse_attr sg "standard_name" sn) as [p|]; [|easy]. cbn [bind] in Es.
  destruct (existsb _ _) eqn:Ex; [|easy]. destruct (dget (s_attrs s) "formula_terms") as [ft|]; [|easy].
  destruct (decode_formula_terms ft) as [fts|]; [|easy]. cbn [bind] in Es.
  destruct (sub_terms _ _ _) as [sub0|] eqn:E0; [|easy]. cbn [bind] in Es. injection Es as _ <-.
  apply (proj1 (accepted_ok _)) in Ex.
  assert (G : forall fts sub sub', sub_terms vars fts sub = Ok sub' ->
    forall ty, dget sub' "type" = Some ty -> dget sub "type" = Some ty \/ In ty (map snd term_args)).
  { clear. induction fts as [|[t v0] fts IH]; intros sub sub' E ty Ht; cbn [sub_terms] in E.
    - injection E as <-. auto.
    - destruct (ds_search_ci vars v0) as [u|] eqn:Eu; [|easy]. cbn [bind] in E.
      destruct (dget FORMULA_TERMS_TO_CF_NAMES (lower t)) as [a0|] eqn:Ea; [|easy].
      destruct (IH _ _ E _ Ht) as [G|]; auto. rewrite dget_dset in G.
      destruct (String.eqb "type" u); auto. injection G as ->. right.
      apply dget_some_in in Ea. cbn in Ea |- *.
      repeat match goal with H : _ \/ _ |- _ => destruct H as [H|H] end;
        try (injection Ea as _ <-; tauto); easy. }
  intro Ht. destruct (G _ _ _ E0 _ Ht) as [G'|G']; apply in_or_app; auto.
  rewrite dget_dset, String.eqb_refl in G'. injection G' as <-. auto.
Qed.

Theorem C45_only_two_formulas sg vars coords sigs err calls :
  decode_cf_sigma sg vars coords sigs err = Ok (Some calls) ->
  forall loc fn kw, In (loc, (fn, kw)) calls -> fn = "ocean_sigma_coordinate" \/ fn = "ocean_s_coordinate_g2".
Proof.
  unfold decode_cf_sigma. destruct (get_sigma_terms sg vars sigs) as [all|e] eqn:Eg.
  2: { destruct e, err; easy. }
  intros E loc fn kw Hin.
  destruct (all_calls _ all) as [c|] eqn:Ec; [|easy]. cbn in E. injection E as ->.
  destruct (all_calls_in _ _ _ Ec _ _ Hin) as (terms & Ht & E1).
  assert (Hv := sig_loop_vals _ _ _ _ _ Eg (fun _ _ F => match F with end) loc terms Ht).
  assert (Hty := fun ty => sig_loop_types _ _ _ _ _ Eg (fun _ _ _ F => match F with end) loc terms ty Ht).
  unfold one_call in E1. destruct (dget terms "type") as [ty|]; [|easy]. specialize (Hty ty eq_refl).
  destruct (make_kwargs _ _ _) as [kw0|] eqn:Ek; [|easy]. cbn [bind] in E1.
  apply make_kwargs_some in Ek.
  destruct (dget sigma_functions ty) as [[req opt]|] eqn:Ef; [|easy].
  destruct (_ && _) eqn:Eb; [|easy]. injection E1 as -> ->.
  apply andb_prop in Eb as [Eb _].
  assert (Ha : forall a, dmem kw a = true -> In a (map snd term_args)).
  { intros a Ha. apply dmem_in in Ha. unfold dkeys in Ha. apply in_map_iff in Ha as ([a' v] & <- & Ha).
    cbn [fst]. assert (Hg : dget kw a' = Some v).
    { apply dget_in; auto. rewrite Ek. apply dupdate_wf. constructor. }
    rewrite Ek, dget_dupdate in Hg. cbn in Hg. destruct (last_bound _ a') as [v'|] eqn:El; [|easy].
    apply last_bound_in in El. unfold swap in El. apply in_map_iff in El as ([v0 a0] & E0 & Hin0).
    cbn in E0. injection E0 as -> ->. unfold ddel in Hin0. apply filter_In in Hin0 as [Hin0 Hne].
    cbn in Hne. apply (Hv _ _ Hin0). intros ->. easy. }
  apply dget_some_in in Ef. cbn in Ef.
  repeat match goal with H : _ \/ _ |- _ => destruct H as [H|H] end; try contradiction; injection Ef as <- <- <-; auto; exfalso.
  - rewrite forallb_forall in Eb. assert (Hp := Ha "ps" (Eb "ps" (or_intror (or_introl eq_refl)))).
    cbn in Hp. repeat destruct Hp as [Hp|Hp]; easy.
  - cbn in Hty. repeat destruct Hty as [Hty|Hty]; easy.
  - cbn in Hty. repeat destruct Hty as [Hty|Hty]; easy.
Qed.
Print Assumptions C45_only_two_formulas.

(** A ROMS dataset *)
Definition sgr := mksg default_name_format ["u"; "v"; "rho"].
Definition roms_vars := ["sc_r"; "Cs_r"; "zeta"; "H"; "hc"; "temp"].
Definition roms_sig := mksig "sc_r"
  [("standard_name", "ocean_s_coordinate_g2_at_rho_location"); ("formula_terms", roms_attr)].
Definition roms_vas := [("sc_r", "sig"); ("Cs_r", "cs"); ("zeta", "ssh"); ("H", "bathy"); ("hc", "hc")].
Example C45_declared : declared sgr roms_vars roms_sig (Some "rho") "ocean_s_coordinate_g2" roms_vas.
Proof.
  eexists _, _, roms_terms. split; [reflexivity|]. split; [vm_compute; reflexivity|].
  split; [cbn; tauto|]. split; [reflexivity|]. split; [apply C42_written|].
  split; [repeat (constructor; [cbn; intuition discriminate|]); constructor|].
  assert (R : forall l1 v l2 n a t, roms_vars = (l1 ++ v :: l2)%list -> lower v = lower n ->
     forallb (fun u => negb (String.eqb (lower u) (lower n))) l1 = true ->
     existsb (fun p => String.eqb (fst p) (lower t) && String.eqb (snd p) a) term_args = true ->
     good_pair roms_vars (t, n) (v, a)).
  { intros l1 v l2 n a t E1 E2 E3 E4. split; cbn [fst snd].
    - exists l1, l2. split; auto. split; auto. intros u Hu. rewrite forallb_forall in E3.
      specialize (E3 u Hu). intro E. rewrite E, String.eqb_refl in E3. easy.
    - apply existsb_exists in E4 as ([x y] & Hin & E). cbn in E. apply andb_prop in E as [Ex Ey].
      apply String.eqb_eq in Ex as <-. apply String.eqb_eq in Ey as <-. auto. }
  constructor; [apply (R [] "sc_r" (tl roms_vars)); reflexivity|].
  constructor; [apply (R ["sc_r"] "Cs_r" (tl (tl roms_vars))); reflexivity|].
  constructor; [apply (R ["sc_r"; "Cs_r"] "zeta" ["H"; "hc"; "temp"]); reflexivity|].
  constructor; [apply (R ["sc_r"; "Cs_r"; "zeta"] "H" ["hc"; "temp"]); reflexivity|].
  constructor; [apply (R ["sc_r"; "Cs_r"; "zeta"; "H"] "hc" ["temp"]); reflexivity|].
  constructor.
Qed.
Example C45_roms : decode_cf_sigma sgr roms_vars ["lon"] [roms_sig] ERaise =
  Ok (Some [(Some "rho", ("ocean_s_coordinate_g2",
     [("sig", "sc_r"); ("cs", "Cs_r"); ("ssh", "zeta"); ("bathy", "H"); ("hc", "hc")]))]).
Proof. vm_compute. reflexivity. Qed.
(** The documented types ocean_s_coordinate and ocean_s_coordinate_g1 are refused *)
Definition g1_sig := mksig "sc_r" [("standard_name", "ocean_s_coordinate_g1"); ("formula_terms", roms_attr)].
Theorem C45_g1_refuted : decode_cf_sigma sgr roms_vars [] [g1_sig] ERaise = Raise XoaSigmaError /\
  decode_cf_sigma sgr roms_vars [] [g1_sig] EIgnore = Ok None.
Proof. vm_compute. auto. Qed.
(** The formula terms that CF prescribes for the sigma coordinates are refused *)
Definition sigma_sig := mksig "lev" [("standard_name", "ocean_sigma_coordinate");
  ("formula_terms", "sigma: lev eta: zeta depth: h")].
Theorem C45_sigma_refuted : decode_cf_sigma sgr ["lev"; "zeta"; "h"] [] [sigma_sig] ERaise = Raise XoaSigmaError.
Proof. vm_compute. auto. Qed.
(** A formula variable that is a coordinate is not found, and errors="ignore" does not help *)
Theorem C45_coord_refuted :
  decode_cf_sigma sgr ["Cs_r"; "zeta"; "H"; "hc"; "temp"] ["sc_r"] [roms_sig] EIgnore = Raise AttributeError.
Proof. vm_compute. auto. Qed.
