(** C54: remove_defaults *)
From Verif Require Import RemDefSpec PyDictFacts.
Open Scope string_scope.

Fixpoint spec_rect' (P : spec -> Prop) (H : forall o ss, (forall k s, In (k, s) ss -> P s) -> P (Spec o ss)) (s : spec) : P s :=
  match s with
  | Spec o ss => H o ss ((fix go (l : dict spec) : forall k s, In (k, s) l -> P s :=
      match l with
      | [] => fun k s (F : In (k, s) []) => match F with end
      | (k', s') :: l' => fun k s F => match F with
                                       | or_introl e => eq_ind s' P (spec_rect' P H s') s (f_equal snd e)
                                       | or_intror F' => go l' k s F'
                                       end
      end) ss)
  end.
Fixpoint cfg_rect' (P : cfg -> Prop) (H : forall o ss, (forall k s, In (k, s) ss -> P s) -> P (Cfg o ss)) (s : cfg) : P s :=
  match s with
  | Cfg o ss => H o ss ((fix go (l : dict cfg) : forall k s, In (k, s) l -> P s :=
      match l with
      | [] => fun k s (F : In (k, s) []) => match F with end
      | (k', s') :: l' => fun k s F => match F with
                                       | or_introl e => eq_ind s' P (cfg_rect' P H s') s (f_equal snd e)
                                       | or_intror F' => go l' k s F'
                                       end
      end) ss)
  end.

(** ** Removing *)
Lemma texts_eq_iff : forall l vs, texts_eq l vs = true <-> vs = map VStr l.
Proof.
  induction l as [|s l IH]; intros [|v vs]; cbn; try (split; [discriminate|discriminate]); [tauto|].
  destruct v; try (split; [discriminate|intro E; discriminate E]). rewrite andb_true_iff, IH. split.
  - intros [E ->]. apply String.eqb_eq in E. now subst.
  - intro E. injection E as -> ->. split; auto. apply String.eqb_refl.
Qed.
Lemma is_default_iff d v : is_default d v = true <-> match d with Some d => v = raw d | None => v = VNone end.
Proof.
  destruct d as [[s|l]|], v; cbn; try (split; [discriminate|intro E; discriminate E]); try tauto.
  - rewrite String.eqb_eq. split; [now intros ->|intro E; now injection E as ->].
  - rewrite texts_eq_iff. split; [now intros ->|intro E; now injection E as ->].
Qed.
Lemma no_spec_iff s : no_spec (Some s) = false <-> specified s.
Proof. destruct s as [[|] [|]]; cbn; unfold specified; cbn; split; intro H; auto; try discriminate; try (now left); try (now right); destruct H; congruence. Qed.
Lemma unchanged_iff s k v : unchanged (Some s) k v = true <-> holds_default s [] k v.
Proof.
  unfold unchanged. destruct (no_spec (Some s)) eqn:N.
  - split; [discriminate|]. intros (s' & E & Sp & _). injection E as <-. apply no_spec_iff in Sp. congruence.
  - apply no_spec_iff in N. rewrite is_default_iff. unfold declared, holds_default. cbn [spec_at]. split.
    + intro H. exists s. split; auto. split; auto. destruct (dget (sopts s) k) as [[d|]|]; [left; eauto|right; auto|right; auto].
    + intros (s' & E & _ & H). injection E as <-. destruct H as [(d & -> & ->)|[[-> | ->] ->]]; reflexivity.
Qed.
Lemma dget_filterv {V} (p : string * V -> bool) (d : dict V) k : dict_wf d ->
  dget (filter p d) k = match dget d k with Some v => if p (k, v) then Some v else None | None => None end.
Proof.
  intro W. induction d as [|[k' v'] d IH]; cbn; auto. unfold dict_wf in W. cbn in W. apply NoDup_cons_iff in W. destruct W as [N W].
  assert (X : dget (filter p d) k' = None). { apply dget_none. intro I. apply N. apply in_map_iff in I. destruct I as (kv & E & I). apply filter_In in I. destruct I as [I _]. apply in_map_iff. eauto. }
  destruct (String.eqb_spec k k') as [->|Nk].
  - destruct (p (k', v')); cbn; [now rewrite String.eqb_refl|exact X].
  - destruct (p (k', v')); cbn; [destruct (String.eqb_spec k k'); [congruence|]|]; now apply IH.
Qed.
Lemma dget_mapv {V W} (f : string -> V -> W) (d : dict V) k : dget (map (fun kv => (fst kv, f (fst kv) (snd kv))) d) k = option_map (f k) (dget d k).
Proof. induction d as [|[k' v'] d IH]; cbn; auto. destruct (String.eqb_spec k k') as [->|]; auto. Qed.
Lemma remove_eq s c : remove_defaults s c = Cfg (filter (fun kv => negb (unchanged s (fst kv) (snd kv))) (copts c))
        (map (fun kc => (fst kc, remove_defaults (sub_spec s (fst kc)) (snd kc))) (csubs c)).
Proof. now destruct c. Qed.
Lemma cfg_ok_inv c : cfg_ok c -> dict_wf (copts c) /\ dict_wf (csubs c) /\ forall k c', dget (csubs c) k = Some c' -> cfg_ok c'.
Proof. intros [o ss W1 W2 H]. cbn. repeat split; auto. intros k c' E. apply dget_some_in in E. eauto. Qed.
Lemma spec_ok_inv s : spec_ok s -> dict_wf (sopts s) /\ dict_wf (ssubs s) /\ forall k c', dget (ssubs s) k = Some c' -> spec_ok c'.
Proof. intros [o ss W1 W2 H]. cbn. repeat split; auto. intros k c' E. apply dget_some_in in E. eauto. Qed.
Lemma remove_none c : remove_defaults None c = c.
Proof.
  induction c as [o ss IH] using cfg_rect'. cbn [remove_defaults]. f_equal.
  - assert (F : forall l : dict val, filter (fun kv => negb (unchanged None (fst kv) (snd kv))) l = l) by (induction l as [|kv l IHl]; [reflexivity|]; cbn [filter]; unfold unchanged at 1; cbn [no_spec negb]; now rewrite IHl). apply F.
  - clear o. induction ss as [|[k c] ss IHs]; cbn; auto. rewrite (IH k c) by now left. f_equal. apply IHs. intros k' c' I. apply (IH k' c'). now right.
Qed.
(** What is removed: exactly the options whose value is the text of their default value... *)
Theorem C54_removed s : forall c p k v, cfg_ok c ->
  option_at (remove_defaults (Some s) c) p k = Some v <-> option_at c p k = Some v /\ ~ holds_default s p k v.
Proof.
  intros c p. revert s c. induction p as [|x p IH]; intros s c k v W; destruct (cfg_ok_inv c W) as (W1 & W2 & W3); rewrite remove_eq; cbn [option_at copts csubs].
  - rewrite dget_filterv by auto. cbn [fst snd]. destruct (dget (copts c) k) as [v'|]; [|split; [discriminate|intros [E _]; discriminate E]].
    destruct (unchanged (Some s) k v') eqn:U; cbn [negb].
    + split; [discriminate|]. intros [E N]. injection E as <-. apply unchanged_iff in U. contradiction.
    + split; intro H; [injection H as <-|destruct H as [H _]; exact H]. split; auto. intro D. apply unchanged_iff in D. congruence.
  - rewrite (dget_mapv (fun k c => remove_defaults (sub_spec (Some s) k) c)). destruct (dget (csubs c) x) as [c'|] eqn:Ex; cbn [option_map].
    + cbn [sub_spec]. destruct (dget (ssubs s) x) as [s'|] eqn:Es.
      * rewrite IH by eauto. unfold holds_default. cbn [spec_at]. rewrite Es. tauto.
      * rewrite remove_none. unfold holds_default. cbn [spec_at]. rewrite Es. split; [|tauto]. intro H. split; auto. intros (s'' & E & _). discriminate E.
    + split; [discriminate|intros [E _]; discriminate E].
Qed.
(** ... and no section. *)
Theorem C54_sections s : forall p c, (exists c', section_at (remove_defaults s c) p = Some c') <-> (exists c', section_at c p = Some c').
Proof.
  intros p. revert s. induction p as [|x p IH]; intros s c; rewrite remove_eq; cbn [section_at csubs].
  - split; eauto.
  - rewrite (dget_mapv (fun k c => remove_defaults (sub_spec s k) c)). destruct (dget (csubs c) x) as [c'|]; cbn [option_map]; [apply IH|].
    split; intros [c' E]; discriminate E.
Qed.
(** Only texts, lists of texts and None are ever removed. *)
Theorem C54_numbers_refuted s c p k v : cfg_ok c -> option_at c p k = Some v ->
  (forall t, v <> VStr t) -> (forall l, v <> VList l) -> v <> VNone -> option_at (remove_defaults (Some s) c) p k = Some v.
Proof.
  intros W H N1 N2 N3. apply C54_removed; auto. split; auto. intros (s' & _ & _ & [([t|l] & _ & E)|[_ E]]); subst; cbn in *; try congruence.
Qed.
Lemma remove_ok s c : cfg_ok c -> cfg_ok (remove_defaults s c).
Proof.
  revert s. induction c as [o ss IH] using cfg_rect'. intros s W. inversion W as [? ? W1 W2 W3]; subst. cbn [remove_defaults]. constructor.
  - now apply filter_wf.
  - unfold dict_wf, dkeys in *. rewrite map_map. exact W2.
  - intros k c I. apply in_map_iff in I. destruct I as ([k' c'] & E & I). injection E as <- <-. cbn. eapply IH; eauto.
Qed.
Theorem C54_idempotent s c p k : cfg_ok c ->
  option_at (remove_defaults (Some s) (remove_defaults (Some s) c)) p k = option_at (remove_defaults (Some s) c) p k.
Proof.
  intro W. destruct (option_at (remove_defaults (Some s) c) p k) as [v|] eqn:E.
  - apply C54_removed; [now apply remove_ok|]. split; auto. apply C54_removed in E; tauto.
  - destruct (option_at (remove_defaults (Some s) (remove_defaults (Some s) c)) p k) as [v|] eqn:E2; auto.
    apply C54_removed in E2; [|now apply remove_ok]. destruct E2. congruence.
Qed.

(** ** Validation *)
Section valid.
  Variable check : list string -> string -> val -> res val.
  Definition opt_result (p : list string) (opts : dict val) (k : string) (d : option dflt) : res val :=
    match dget opts k with Some v => check_value check p k v | None => check_missing check p k d end.
  Lemma validate_opts_ok p specs : forall opts out, NoDup (dkeys specs) ->
    validate_opts check p specs opts = Ok out <->
    exists vs, Forall2 (fun kd v => opt_result p opts (fst kd) (snd kd) = Ok v) specs vs /\
      out = fold_left (fun acc kv => dset acc (fst kv) (snd kv)) (combine (dkeys specs) vs) opts.
  Proof.
    induction specs as [|[k d] specs IH]; intros opts out ND; cbn [validate_opts].
    - split; [intro H; injection H as <-; exists []; auto|]. intros (vs & F & ->). inversion F. reflexivity.
    - cbn in ND. apply NoDup_cons_iff in ND. destruct ND as [Nk ND].
      assert (R : forall v kd, In kd specs -> opt_result p (dset opts k v) (fst kd) (snd kd) = opt_result p opts (fst kd) (snd kd)).
      { intros v [k' d'] I. unfold opt_result. rewrite dget_dset. cbn [fst snd]. destruct (String.eqb_spec k' k) as [->|]; auto.
        exfalso. apply Nk. apply in_map_iff. exists (k, d'). auto. }
      change (match dget opts k with Some v => check_value check p k v | None => check_missing check p k d end) with (opt_result p opts k d).
      destruct (opt_result p opts k d) as [v|e] eqn:E; cbn [bind].
      + rewrite IH by auto. split.
        * intros (vs & F & ->). exists (v :: vs). split; [|reflexivity]. constructor; auto.
          clear -F R. revert R. induction F as [|kd v' l l' Hh F IHf]; intro R; constructor; [rewrite <- Hh; symmetry; apply R; now left|apply IHf; intros; apply R; now right].
        * intros (vs & F & ->). inversion F as [|? v' ? vs' Hh F']; subst. cbn [fst snd] in Hh. assert (v' = v) by congruence. subst. exists vs'. split; [|reflexivity].
          clear -F' R. revert R. induction F' as [|kd v' l l' Hh F IHf]; intro R; constructor; [rewrite <- Hh; apply R; now left|apply IHf; intros; apply R; now right].
      + split; [discriminate|]. intros (vs & F & _). inversion F as [|? v' ? vs' Hh F']; subst. cbn in Hh. congruence.
  Qed.
  Lemma validate_opts_get p specs opts out : NoDup (dkeys specs) -> validate_opts check p specs opts = Ok out ->
    forall k, match dget specs k with
              | Some d => exists v, opt_result p opts k d = Ok v /\ dget out k = Some v
              | None => dget out k = dget opts k
              end.
  Proof.
    intro ND. revert opts out ND. induction specs as [|[k0 d0] specs IH]; intros opts out ND H k; cbn [validate_opts] in H; [injection H as <-; reflexivity|].
    cbn in ND. apply NoDup_cons_iff in ND. destruct ND as [Nk ND].
    change (match dget opts k0 with Some v => check_value check p k0 v | None => check_missing check p k0 d0 end) with (opt_result p opts k0 d0) in H.
    destruct (opt_result p opts k0 d0) as [v|e] eqn:E; cbn [bind] in H; [|discriminate].
    specialize (IH _ _ ND H k). cbn [dget]. destruct (String.eqb_spec k k0) as [->|N].
    - rewrite (proj2 (dget_none specs k0) Nk) in IH. exists v. split; auto. rewrite IH, dget_dset, String.eqb_refl. reflexivity.
    - destruct (dget specs k) as [d|].
      + destruct IH as (w & E1 & E2). exists w. split; auto. rewrite <- E1. unfold opt_result. rewrite dget_dset. destruct (String.eqb_spec k k0); congruence.
      + rewrite IH, dget_dset. destruct (String.eqb_spec k k0); congruence.
  Qed.
  Lemma validate_opts_exists p specs opts : NoDup (dkeys specs) -> (forall k d, dget specs k = Some d -> exists v, opt_result p opts k d = Ok v) ->
    exists out, validate_opts check p specs opts = Ok out.
  Proof.
    revert opts. induction specs as [|[k0 d0] specs IH]; intros opts ND H; cbn [validate_opts]; [eauto|].
    cbn in ND. apply NoDup_cons_iff in ND. destruct ND as [Nk ND].
    change (match dget opts k0 with Some v => check_value check p k0 v | None => check_missing check p k0 d0 end) with (opt_result p opts k0 d0).
    destruct (H k0 d0) as [v Hv]; [cbn; now rewrite String.eqb_refl|]. rewrite Hv. cbn [bind]. apply IH; auto.
    intros k d Hk. destruct (String.eqb_spec k k0) as [->|N]; [rewrite (proj2 (dget_none specs k0) Nk) in Hk; discriminate|].
    destruct (H k d) as [w Hw]; [cbn; now destruct (String.eqb_spec k k0)|]. exists w. rewrite <- Hw. unfold opt_result. rewrite dget_dset. destruct (String.eqb_spec k k0); congruence.
  Qed.
  (** Subsections *)
  Definition go (p : list string) (c : cfg) := fix go (l : dict spec) (acc : dict cfg) : res (dict cfg) :=
    match l with
    | [] => Ok acc
    | (k, s') :: l' => let* c' := validate check (p ++ [k])%list s' (subsection c k) in go l' (dset acc k c')
    end.
  Lemma validate_eq p s c : validate check p s c = let* opts := validate_opts check p (sopts s) (copts c) in let* ss := go p c (ssubs s) (csubs c) in Ok (Cfg opts ss).
  Proof. now destruct s. Qed.
  Lemma go_get p c l : forall acc out, NoDup (dkeys l) -> go p c l acc = Ok out ->
    forall k, match dget l k with
              | Some s' => exists c', validate check (p ++ [k])%list s' (subsection c k) = Ok c' /\ dget out k = Some c'
              | None => dget out k = dget acc k
              end.
  Proof.
    induction l as [|[k0 s0] l IH]; intros acc out ND H k; cbn [go] in H; [injection H as <-; reflexivity|].
    cbn in ND. apply NoDup_cons_iff in ND. destruct ND as [Nk ND].
    destruct (validate check (p ++ [k0])%list s0 (subsection c k0)) as [v|e] eqn:E; cbn [bind] in H; [|discriminate].
    specialize (IH _ _ ND H k). cbn [dget]. destruct (String.eqb_spec k k0) as [->|N].
    - rewrite (proj2 (dget_none l k0) Nk) in IH. exists v. split; auto. rewrite IH, dget_dset, String.eqb_refl. reflexivity.
    - destruct (dget l k) as [d|]; [exact IH|]. rewrite IH, dget_dset. destruct (String.eqb_spec k k0); congruence.
  Qed.
  Lemma go_exists p c l : forall acc, NoDup (dkeys l) -> (forall k s, dget l k = Some s -> exists c', validate check (p ++ [k])%list s (subsection c k) = Ok c') ->
    exists out, go p c l acc = Ok out.
  Proof.
    induction l as [|[k0 s0] l IH]; intros acc ND H; cbn [go]; [eauto|].
    cbn in ND. apply NoDup_cons_iff in ND. destruct ND as [Nk ND].
    destruct (H k0 s0) as [v Hv]; [cbn; now rewrite String.eqb_refl|]. rewrite Hv. cbn [bind]. apply IH; auto.
    intros k s Hk. destruct (String.eqb_spec k k0) as [->|N]; [rewrite (proj2 (dget_none l k0) Nk) in Hk; discriminate|].
    apply H. cbn. now destruct (String.eqb_spec k k0).
  Qed.
  Lemma validate_get p s c c' : spec_ok s -> validate check p s c = Ok c' ->
    (forall k, match dget (sopts s) k with
              | Some d => exists v, opt_result p (copts c) k d = Ok v /\ dget (copts c') k = Some v
              | None => dget (copts c') k = dget (copts c) k
              end) /\
    (forall k, match dget (ssubs s) k with
              | Some s' => exists c1, validate check (p ++ [k])%list s' (subsection c k) = Ok c1 /\ dget (csubs c') k = Some c1
              | None => dget (csubs c') k = dget (csubs c) k
              end).
  Proof.
    intros W. destruct (spec_ok_inv s W) as (W1 & W2 & _). rewrite validate_eq.
    destruct (validate_opts check p (sopts s) (copts c)) as [o|] eqn:Eo; cbn [bind]; [|discriminate].
    destruct (go p c (ssubs s) (csubs c)) as [ss|] eqn:Es; cbn [bind]; [|discriminate]. intro H. injection H as <-. cbn [copts csubs]. split.
    - now apply validate_opts_get.
    - now apply go_get.
  Qed.
  Lemma validate_exists p s c : spec_ok s ->
    (forall k d, dget (sopts s) k = Some d -> exists v, opt_result p (copts c) k d = Ok v) ->
    (forall k s', dget (ssubs s) k = Some s' -> exists c', validate check (p ++ [k])%list s' (subsection c k) = Ok c') ->
    exists c', validate check p s c = Ok c'.
  Proof.
    intros W H1 H2. destruct (spec_ok_inv s W) as (W1 & W2 & _). rewrite validate_eq.
    destruct (validate_opts_exists p _ _ W1 H1) as [o ->]. destruct (go_exists p c _ (csubs c) W2 H2) as [ss ->]. cbn. eauto.
  Qed.

  (** A validated option is left as it is by a second validation. *)
  Lemma check_value_none p k : check_value check p k VNone = Ok VNone.
  Proof. reflexivity. Qed.
  Lemma opt_result_stable p opts k d v : idempotent check -> opt_result p opts k d = Ok v -> check_value check p k v = Ok v.
  Proof.
    intros I. unfold opt_result, check_missing.
    assert (A : forall x, check p k x = Ok v -> check_value check p k v = Ok v).
    { intros x H. destruct (I _ _ _ _ H) as [->|E]; [reflexivity|]. unfold check_value. destruct v; auto. }
    destruct (dget opts k) as [x|].
    - unfold check_value at 1. destruct x; try apply A. intro H. injection H as <-. reflexivity.
    - destruct d as [d|]; [|discriminate]. destruct (handle_none d); [apply A|]. intro H. injection H as <-. reflexivity.
  Qed.
End valid.

Lemma plain_handle s k d : plain_defaults s -> dget (sopts s) k = Some (Some d) -> handle_none d = Some d.
Proof.
  intros P H. destruct d as [t|l]; auto. destruct (P [] s k t eq_refl H) as (N1 & N2 & N3). unfold handle_none.
  destruct (String.eqb_spec t "None"); [congruence|]. destruct (String.eqb_spec t "'None'"); [congruence|]. now destruct (String.eqb_spec t """None""").
Qed.
Lemma plain_sub s k s' : plain_defaults s -> dget (ssubs s) k = Some s' -> plain_defaults s'.
Proof. intros P H p s2 k2 t H1 H2. apply (P (k :: p) s2 k2 t); auto. cbn. now rewrite H. Qed.
(** Saving only what differs from the defaults loses nothing: what was removed is found again
    when the configuration is validated. *)
Theorem C54_restored check s : forall p c0 c, idempotent check -> spec_ok s -> plain_defaults s -> cfg_ok c -> no_bare_none s c ->
  validate check p s c0 = Ok c ->
  exists c', validate check p s (remove_defaults (Some s) c) = Ok c' /\ forall q k, option_at c' q k = option_at c q k.
Proof.
  intros p c0 c I. revert p c0 c. induction s as [so ss IH] using spec_rect'. intros p c0 c W P Wc B V.
  set (s := Spec so ss) in *. destruct (spec_ok_inv s W) as (W1 & W2 & W3). destruct (cfg_ok_inv c Wc) as (C1 & C2 & C3).
  destruct (validate_get check p s c0 c W V) as [VO VS].
  set (r := remove_defaults (Some s) c).
  (* options *)
  assert (RO : forall k d, dget (sopts s) k = Some d -> exists v, opt_result check p (copts r) k d = Ok v /\ dget (copts c) k = Some v).
  { intros k d Hd. assert (X := VO k). rewrite Hd in X. destruct X as (v & Hv & Gv). exists v. split; auto.
    assert (St := opt_result_stable check p _ k d v I Hv).
    assert (R := C54_removed s c [] k v Wc). cbn [option_at] in R. fold r in R.
    destruct (dget (copts r) k) as [v'|] eqn:Er.
    - assert (v' = v). { assert (R' := C54_removed s c [] k v' Wc). cbn [option_at] in R'. fold r in R'. rewrite Er in R'. destruct (proj1 R' eq_refl). congruence. }
      subst v'. unfold opt_result. now rewrite Er.
    - assert (HD : unchanged (Some s) k v = true).
      { destruct (unchanged (Some s) k v) eqn:U; auto. exfalso. assert (None = Some v); [|discriminate]. apply R. split; auto. intro D. apply unchanged_iff in D. congruence. }
      apply unchanged_iff in HD. destruct HD as (s' & E & Sp & HD). injection E as <-. rewrite Hd in HD.
      destruct HD as [(d' & E & Ev)|[_ Ev]].
      + injection E as ->. unfold opt_result. rewrite Er. unfold check_missing. rewrite (plain_handle s k d') by auto. rewrite <- Ev.
        unfold check_value in St. destruct v; auto. destruct d'; discriminate Ev.
      + subst v. destruct (B [] k s eq_refl Sp Gv) as [d' E]. rewrite Hd in E. injection E as ->.
        exfalso. assert (None = Some VNone); [|discriminate]. apply R. split; auto. intros (s' & E & _ & [(d2 & E2 & E3)|[[E2|E2] _]]); injection E as <-; rewrite Hd in E2; try discriminate.
        injection E2 as <-. destruct d'; discriminate E3. }
  (* sections *)
  assert (RS : forall k s', dget (ssubs s) k = Some s' -> exists c1 c2, dget (csubs c) k = Some c1 /\ validate check (p ++ [k])%list s' (subsection r k) = Ok c2 /\ forall q k', option_at c2 q k' = option_at c1 q k').
  { intros k s' Hs. assert (X := VS k). rewrite Hs in X. destruct X as (c1 & Hv & Gc). exists c1.
    assert (Er : subsection r k = remove_defaults (Some s') c1).
    { unfold subsection, r. rewrite remove_eq. cbn [csubs]. rewrite (dget_mapv (fun k c => remove_defaults (sub_spec (Some s) k) c)), Gc. cbn [option_map sub_spec]. now rewrite Hs. }
    rewrite Er. assert (Iks : In (k, s') ss) by now apply dget_some_in in Hs.
    destruct (IH k s' Iks (p ++ [k])%list (subsection c0 k) c1) as (c2 & V2 & E2); eauto.
    - now apply (plain_sub s k).
    - intros q k' s2 Hq Sp Ho. apply (B (k :: q) k' s2); cbn [spec_at option_at]; [now rewrite Hs|auto|now rewrite Gc]. }
  destruct (validate_exists check p s r W) as [c' Vc'].
  - intros k d Hd. destruct (RO k d Hd) as (v & E & _). eauto.
  - intros k s' Hs. destruct (RS k s' Hs) as (_ & c2 & _ & E & _). eauto.
  - exists c'. split; auto. destruct (validate_get check p s r c' W Vc') as [VO' VS'].
    intros [|x q] k; cbn [option_at].
    + assert (X := VO' k). destruct (dget (sopts s) k) as [d|] eqn:Ed.
      * destruct X as (v & Hv & ->). destruct (RO k d Ed) as (v' & Hv' & ->). congruence.
      * rewrite X. unfold r. rewrite remove_eq. cbn [copts]. rewrite dget_filterv by auto. cbn [fst snd]. destruct (dget (copts c) k) as [v|] eqn:Ec; auto.
        destruct (unchanged (Some s) k v) eqn:U; auto. exfalso. apply unchanged_iff in U. destruct U as (s' & E & Sp & U). injection E as <-. rewrite Ed in U.
        destruct U as [(d & E & _)|[_ ->]]; [discriminate|]. destruct (B [] k s eq_refl Sp Ec) as [d E]. congruence.
    + assert (X := VS' x). destruct (dget (ssubs s) x) as [s'|] eqn:Es.
      * destruct X as (c1 & Hv & ->). destruct (RS x s' Es) as (c2 & c3 & -> & Hv' & E). assert (c3 = c1) by congruence. subst. apply E.
      * rewrite X. unfold r. rewrite remove_eq. cbn [csubs]. rewrite (dget_mapv (fun k c => remove_defaults (sub_spec (Some s) k) c)). destruct (dget (csubs c) x) as [c1|]; cbn [option_map sub_spec]; auto.
        rewrite Es. now rewrite remove_none.
Qed.

(** False without its hypotheses.  An option that is not declared and is None is lost; so is one
    that has no default, and the configuration is then refused; the text None becomes None. *)
Theorem C54_restored_refuted :
  let chk := fun (p : list string) (k : string) (v : val) => Ok v in
  let s := Spec [("a", Some (DText "x")); ("b", None)] [] in
  let c1 := Cfg [("a", VStr "y"); ("b", VStr "z"); ("c", VNone)] [] in
  let c2 := Cfg [("a", VStr "y"); ("b", VNone)] [] in
  let s3 := Spec [("a", Some (DText "None"))] [] in let c3 := Cfg [("a", VStr "None")] [] in
  (validate chk [] s c1 = Ok c1 /\ validate chk [] s (remove_defaults (Some s) c1) = Ok (Cfg [("a", VStr "y"); ("b", VStr "z")] [])) /\
  (validate chk [] s c2 = Ok c2 /\ validate chk [] s (remove_defaults (Some s) c2) = Raise ValidateError) /\
  (validate chk [] s3 c3 = Ok c3 /\ validate chk [] s3 (remove_defaults (Some s3) c3) = Ok (Cfg [("a", VNone)] [])).
Proof. repeat split; reflexivity. Qed.

(** An example: texts and lists go, an integer at its default value stays. *)
Definition chk (p : list string) (k : string) (v : val) : res val :=
  if String.eqb k "n" then match v with VStr "3" => Ok (VInt 3) | VInt z => Ok (VInt z) | _ => Raise VdtTypeError end else Ok v.
Definition spec_ex : spec := Spec [("name", Some (DText "x")); ("n", Some (DText "3"))] [("sub", Spec [("l", Some (DTexts ["a"; "b"])); ("m", Some (DText "q"))] [])].
Definition cfg_ex : cfg := Cfg [("name", VStr "x"); ("n", VInt 3); ("other", VStr "o")] [("sub", Cfg [("m", VStr "r"); ("l", VList [VStr "a"; VStr "b"])] []); ("extra", Cfg [("u", VNone)] [])].
Example ex_remove : remove_defaults (Some spec_ex) cfg_ex = Cfg [("n", VInt 3); ("other", VStr "o")] [("sub", Cfg [("m", VStr "r")] []); ("extra", Cfg [("u", VNone)] [])].
Proof. reflexivity. Qed.
Example ex_hyps : idempotent chk /\ spec_ok spec_ex /\ cfg_ok cfg_ex /\ validate chk [] spec_ex cfg_ex = Ok cfg_ex.
Proof.
  split; [|split; [|split; [|reflexivity]]].
  - intros p k v w. unfold chk. destruct (String.eqb k "n"); [|now right]. destruct v; try discriminate; [intro H; injection H as <-; now right|].
    destruct s as [|[[] [] [] [] [] [] [] []] [|]]; try discriminate. intro H. injection H as <-. now right.
  - repeat match goal with |- spec_ok _ => constructor | |- dict_wf _ => repeat constructor; cbn; intuition discriminate | |- forall k s, In _ _ -> _ => cbn; intros k s H; repeat (destruct H as [H|H]; [injection H as <- <-|]); try destruct H end.
  - repeat match goal with |- cfg_ok _ => constructor | |- dict_wf _ => repeat constructor; cbn; intuition discriminate | |- forall k s, In _ _ -> _ => cbn; intros k s H; repeat (destruct H as [H|H]; [injection H as <- <-|]); try destruct H end.
Qed.
