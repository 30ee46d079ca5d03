(** C49: precedence of defaults, configuration files and command line. *)
From Verif Require Export CfgArgsSpec.
From Verif Require Import CfgNamesProps.
From Coq Require Import Lia.
Open Scope string_scope.

Lemma path_refl p : path_eqb p p = true.
Proof. now apply path_eqb_iff. Qed.
Lemma path_neq p q : path_eqb p q = false <-> p <> q.
Proof. rewrite <- not_true_iff_false, path_eqb_iff. reflexivity. Qed.
Lemma path_in p l : existsb (path_eqb p) l = true <-> In p l.
Proof.
  rewrite existsb_exists. split; [intros (q & H & E); apply path_eqb_iff in E; now subst|].
  intro H. exists p. split; auto. apply path_refl.
Qed.
Lemma str_in p l : existsb (String.eqb p) l = true <-> In p l.
Proof.
  rewrite existsb_exists. split; [intros (q & H & E); apply String.eqb_eq in E; now subst|].
  intro H. exists p. split; auto. apply String.eqb_refl.
Qed.
Lemma distinct_iff l : distinct l = true <-> NoDup l.
Proof.
  induction l as [|x l IH]; cbn [distinct]; [split; auto; constructor|].
  rewrite andb_true_iff, negb_true_iff, IH, <- not_true_iff_false, str_in, NoDup_cons_iff. tauto.
Qed.
(** A clean name without underscore is not changed by strip("_") *)
Lemma strip_noop s : ~ has_char under s -> strip_under s = s.
Proof.
  intro H. unfold strip_under.
  assert (L : forall s, ~ has_char under s -> lstrip_c under s = s).
  { intros [|c t] Ht; cbn [lstrip_c]; auto. destruct (Ascii.eqb_spec c under) as [->|]; auto.
    exfalso. apply Ht. exists "", t. reflexivity. }
  assert (R : forall a b, str_rev (a ++ b) = str_rev b ++ str_rev a).
  { induction a as [|c a IH]; intro b; cbn [append str_rev].
    - induction (str_rev b); cbn; congruence.
    - rewrite IH. induction (str_rev b) as [|d t IHt]; cbn [append]; auto. now rewrite IHt. }
  assert (RR : forall s, str_rev (str_rev s) = s).
  { induction s0 as [|c t IH]; cbn [str_rev]; auto. rewrite R, IH. reflexivity. }
  assert (HR : ~ has_char under (str_rev s)).
  { intros (a & b & E). apply H. exists (str_rev b), (str_rev a).
    apply (f_equal str_rev) in E. rewrite RR, R in E. cbn [str_rev] in E. rewrite E.
    clear. induction (str_rev b); cbn; congruence. }
  rewrite (L s H), (L _ HR). apply RR.
Qed.

Section proofs.
  Context {V : Type} (of_bool : bool -> V) (cast : V -> V -> V) (check : path -> string -> option V).
  Notation entry := (entry V). Notation e_path := (e_path V). Notation e_kind := (e_kind V). Notation e_default := (e_default V).
  Notation patch_conf := (patch_conf V cast). Notation load := (load V check).
  Notation arg_parse := (arg_parse V of_bool cast check).
  Notation from_line := (from_line of_bool check). Notation from_file := (from_file check).

  (** ** Patches *)
  Lemma once_fst seen (c : conf V) : NoDup (map fst (once V seen c)) /\ forall p, In p (map fst (once V seen c)) -> ~ In p seen.
  Proof using.
    revert seen. induction c as [|[p v] c IH]; intro seen; cbn [once].
    - split; [constructor|intros p []].
    - destruct (existsb (path_eqb p) seen) eqn:E; [apply IH|].
      destruct (IH (p :: seen)) as [I1 I2]. cbn [map fst]. split.
      + constructor; auto. intro Hin. apply (I2 p Hin). now left.
      + intros q [<-|Hq].
        * intro Hin. apply path_in in Hin. congruence.
        * intro Hin. apply (I2 q Hq). now right.
  Qed.
  Lemma once_get seen (c : conf V) p : ~ In p seen -> cget (once V seen c) p = cget c p.
  Proof using.
    revert seen. induction c as [|[q v] c IH]; intros seen Hs; cbn [once cget]; auto.
    destruct (path_eqb p q) eqn:E.
    - apply path_eqb_iff in E. subst q. destruct (existsb (path_eqb p) seen) eqn:E2; [apply path_in in E2; contradiction|].
      cbn [cget]. now rewrite path_refl.
    - destruct (existsb (path_eqb q) seen); [now apply IH|]. cbn [cget]. rewrite E. apply IH.
      intros [->|H]; [|contradiction]. rewrite path_refl in E. discriminate.
  Qed.
  Lemma patch_get (c p : conf V) q : cget (patch_conf c p) q =
    match cget p q with
    | Some v => Some (match cget c q with Some old => cast old v | None => v end)
    | None => cget c q
    end.
  Proof using.
    clear check of_bool. unfold CfgArgs.patch_conf. rewrite <- (once_get [] p q) by (intros []). destruct (once_fst [] p) as [Hn _].
    revert c Hn. generalize (once V [] p). intro l. induction l as [|[k v] l IH]; intros c Hn; cbn [fold_left cget]; auto.
    cbn [map fst] in Hn. apply NoDup_cons_iff in Hn. destruct Hn as [Hk Hn]. rewrite IH by auto.
    unfold patch_one. cbn [fst snd cset cget]. destruct (path_eqb q k) eqn:E; auto. apply path_eqb_iff in E. subst k.
    assert (N : cget l q = None).
    { clear -Hk. induction l as [|[k v] l IH]; cbn [cget]; auto. cbn [map fst In] in Hk.
      destruct (path_eqb q k) eqn:E; [apply path_eqb_iff in E; subst; tauto|apply IH; tauto]. }
    now rewrite N.
  Qed.
  Lemma load_get schema file c : load schema file = Ok c -> NoDup (map e_path schema) ->
    (forall e, In e schema -> exists v, from_file file e = Some v /\ cget c (e_path e) = Some v) /\
    (forall p, ~ In p (map e_path schema) -> cget c p = None).
  Proof using.
    clear cast of_bool. revert c. induction schema as [|e schema IH]; intros c H Hn; cbn [CfgArgs.load] in H.
    - injection H as <-. split; [intros e []|auto].
    - destruct (load schema file) as [c0|x] eqn:E; cbn [bind] in H; [|discriminate].
      cbn [map] in Hn. apply NoDup_cons_iff in Hn. destruct Hn as [Hk Hn].
      destruct (IH c0 eq_refl Hn) as [I1 I2].
      assert (HC : exists v, from_file file e = Some v /\ c = cset c0 (e_path e) v).
      { unfold CfgArgsSpec.from_file. destruct (cget file (e_path e)) as [t|].
        - destruct (check (e_path e) t) as [v|]; [|discriminate]. injection H as <-. eauto.
        - injection H as <-. eauto. }
      destruct HC as (v & Hv & ->). split.
      + intros e' [<-|He'].
        * exists v. split; auto. cbn [cset cget]. now rewrite path_refl.
        * destruct (I1 e' He') as (w & Hw & Gw). exists w. split; auto. cbn [cset cget].
          destruct (path_eqb (e_path e') (e_path e)) eqn:Ep; auto. apply path_eqb_iff in Ep. exfalso. apply Hk. rewrite <- Ep. now apply in_map.
      + intros p Hp. cbn [cset cget]. cbn [map In] in Hp. destruct (path_eqb p (e_path e)) eqn:Ep; [apply path_eqb_iff in Ep; subst; tauto|].
        apply I2. tauto.
  Qed.
  Lemma defaults_get schema e : NoDup (map e_path schema) -> In e schema -> cget (defaults V schema) (e_path e) = Some (e_default e).
  Proof using.
    clear cast check of_bool. unfold defaults. induction schema as [|e0 schema IH]; intros Hn He; [destruct He|]; destruct He as [<-|He]; cbn [map cget]; [now rewrite path_refl|].
    cbn [map] in Hn. apply NoDup_cons_iff in Hn. destruct Hn as [Hk Hn]. destruct (path_eqb (e_path e) (e_path e0)) eqn:Ep; [|now apply IH].
    apply path_eqb_iff in Ep. exfalso. apply Hk. rewrite <- Ep. now apply in_map.
  Qed.

  (** ** The namespace *)
  Lemma flagged_good nested schema exc e : good_schema nested schema -> In e (List.filter (has_flag V exc) schema) ->
    good_path (e_path e) /\ no_under (e_path e) /\ In e schema.
  Proof using.
    intros (_ & _ & Hc & _) He. apply filter_In in He. destruct He as [He Hf]. destruct (Hc e He) as (H1 & H2 & H3).
    split; [|split; auto]. split; [exact H2|]. split; [exact H1|]. apply strip_noop. apply H3. unfold names. apply in_or_app. right. now left.
  Qed.
  Lemma any_good nested schema e : good_schema nested schema -> In e schema -> good_path (e_path e) /\ no_under (e_path e).
  Proof using.
    intros (_ & _ & Hc & _) He. destruct (Hc e He) as (H1 & H2 & H3).
    split; [|auto]. split; [exact H2|]. split; [exact H1|]. apply strip_noop. apply H3. unfold names. apply in_or_app. right. now left.
  Qed.
  Lemma has_flag_iff exc e : strip_under (key (e_path e)) = key (e_path e) ->
    has_flag V exc e = negb (existsb (String.eqb (key (e_path e))) exc).
  Proof using.
    intro E. unfold has_flag. rewrite E, String.eqb_refl. cbn [andb]. destruct (existsb _ exc); cbn [negb andb]; auto.
    destruct (parents (e_path e)); reflexivity.
  Qed.
  Lemma flag_excluded nested schema exc e : good_schema nested schema -> In e schema ->
    has_flag V exc e = negb (existsb (String.eqb (key (e_path e))) exc).
  Proof using. intros G He. destruct (any_good _ _ _ G He) as [(_ & _ & H) _]. now apply has_flag_iff. Qed.
  Lemma excluded_iff k exc : existsb (String.eqb k) exc = false <-> ~ In k exc.
  Proof using.
    rewrite <- not_true_iff_false, existsb_exists. split.
    - intros H Hi. apply H. exists k. split; auto. apply String.eqb_refl.
    - intros H (x & Hx & E). apply String.eqb_eq in E. now subst.
  Qed.
  Lemma dest_same nested schema e e' : good_schema nested schema -> In e schema -> In e' schema ->
    dest_of (flag nested (e_path e)) = dest_of (flag nested (e_path e')) -> e = e'.
  Proof using.
    intros G He He' E. destruct (any_good _ _ _ G He) as [G1 N1]. destruct (any_good _ _ _ G He') as [G2 N2].
    destruct G as (Gn & _ & _ & Gu). apply Gu; auto. apply (C34_unambiguous nested); auto. right. rewrite E. now apply C34_roundtrip.
  Qed.
  Lemma ns_in bf nested given l ns : namespace V of_bool check bf nested given l = Ok ns ->
    map fst ns = map (fun e => dest_of (flag nested (e_path e))) l /\
    forall e, In e l -> exists v, ns_value V of_bool check bf e (given (e_path e)) = Ok v /\ In (dest_of (flag nested (e_path e)), v) ns.
  Proof using.
    clear cast. revert ns. induction l as [|e l IH]; intros ns H; cbn [namespace] in H.
    - injection H as <-. split; auto. intros e [].
    - destruct (ns_value V of_bool check bf e (given (e_path e))) as [v|x] eqn:E; cbn [bind] in H; [|discriminate].
      destruct (namespace V of_bool check bf nested given l) as [r|x]; cbn [bind] in H; [|discriminate]. injection H as <-.
      destruct (IH r eq_refl) as [I1 I2]. split; [cbn [map fst]; now rewrite I1|].
      intros e' [<-|He']; [exists v; split; auto; now left|]. destruct (I2 e' He') as (w & Hw & Hin). exists w. split; auto. now right.
  Qed.
  Lemma ns_get_in {A} (ns : list (string * option A)) d v : NoDup (map fst ns) -> In (d, v) ns -> ns_get ns d = v.
  Proof using.
    clear. induction ns as [|[d0 v0] ns IH]; intros Hn HI; [destruct HI|]; destruct HI as [E|H]; cbn [ns_get].
    - injection E as -> ->. now rewrite String.eqb_refl.
    - cbn [map fst] in Hn. apply NoDup_cons_iff in Hn. destruct Hn as [Hk Hn]. destruct (String.eqb_spec d0 d) as [->|]; [|now apply IH].
      exfalso. apply Hk. change d with (fst (d, v)). now apply in_map.
  Qed.
  Lemma ns_get_notin {A} (ns : list (string * option A)) d : ~ In d (map fst ns) -> ns_get ns d = None.
  Proof using.
    clear. induction ns as [|[d0 v0] ns IH]; cbn [map fst In ns_get]; intro H; auto. destruct (String.eqb_spec d0 d); [tauto|apply IH; tauto].
  Qed.
  Lemma set_all_one nested (ns : list (string * option V)) c p : NoDup (map fst ns) ->
    reaches nested (dest_of (flag nested p)) p = true ->
    (forall d v, In (d, Some v) ns -> reaches nested d p = true -> d = dest_of (flag nested p)) ->
    forall todo, In p todo ->
    cget (set_all nested ns todo c) p = match ns_get ns (dest_of (flag nested p)) with Some v => Some v | None => cget c p end.
  Proof using.
    clear cast check of_bool. intros Hn Hr Hu todo. unfold set_all. revert c. induction todo as [|q todo IH]; intros c Hin; [destruct Hin|].
    cbn [fold_left]. destruct (in_dec (fun a b => match bool_dec (path_eqb a b) true with left E => left (proj1 (path_eqb_iff a b) E) | right N => right (fun E => N (proj2 (path_eqb_iff a b) E)) end) p todo) as [Hp|Hp].
    - rewrite IH by auto. destruct (ns_get ns (dest_of (flag nested p))) eqn:E; auto.
      destruct (path_eqb p q) eqn:Ep.
      + apply path_eqb_iff in Ep. subst q. rewrite setcfg_here by auto. now rewrite E.
      + apply path_neq in Ep. apply setcfg_other. congruence.
    - destruct Hin as [->|Hin]; [|contradiction].
      assert (Hskip : forall todo c, ~ In p todo -> cget (fold_left (setcfg nested ns) todo c) p = cget c p).
      { clear. induction todo as [|q todo IH]; intros c Hp; cbn [fold_left]; auto. rewrite IH by (intro; apply Hp; now right).
        apply setcfg_other. intro; subst. apply Hp. now left. }
      rewrite Hskip by auto. now apply setcfg_here.
  Qed.

  (** Where the value of each option comes from *)
  Definition layered (bf : bool) (exc : list string) (given : path -> option string) (pa : patch_arg V)
      (w : when) (file : option (conf string)) (e : entry) : option V :=
    let over (new old : option V) := match new, old with
                                     | Some n, Some o => Some (cast o n) | Some n, None => Some n | None, _ => old end in
    let line := from_line bf exc given e in
    let start := from_patch pa e in
    match w, file with
    | Before, Some f => match line with Some v => Some v | None => over (from_file f e) start end
    | After, Some f => over (from_file f e) (match line with Some v => Some v | None => start end)
    | _, _ => match line with Some v => Some v | None => start end
    end.
  Theorem C49_arg_parse bf schema exc nested pa w file cfo extras given c :
    good_schema nested schema ->
    (forall d v, In (d, v) extras -> foreign nested schema d) ->
    (forall d v, cfo = Some (d, v) -> foreign nested schema d /\ ~ In d (map fst extras)) ->
    arg_parse bf schema exc nested pa w file cfo extras given = Ok c ->
    forall e, In e schema -> cget c (e_path e) = layered bf exc given pa w file e.
  Proof using.
    intros G He Hf H e Hin. unfold CfgArgs.arg_parse in H.
    destruct (negb (distinct _)); [discriminate|].
    destruct (namespace V of_bool check bf nested given (List.filter (has_flag V exc) schema)) as [ns|x] eqn:EN; cbn [bind] in H; [|discriminate].
    destruct (ns_in _ _ _ _ _ EN) as [N1 N2].
    assert (Hlast : forall d v, In (d, v) (last_only extras) -> In (d, v) extras).
    { intros d v. unfold last_only. destruct (rev extras) as [|x l] eqn:E; [intros []|]. intros [<-|[]]. apply in_rev. rewrite E. now left. }
    set (ns2 := (last_only extras ++ match cfo with Some (d, v) => [(d, Some v)] | None => [] end ++ ns)%list) in *.
    assert (G' := G). destruct G' as (Gn & Gd & Gc & Gu).
    assert (Hfor : forall d e', foreign nested schema d -> In e' schema -> d <> dest_of (flag nested (e_path e'))).
    { intros d e' Hfo He' ->. specialize (Hfo e' He'). destruct (any_good _ _ _ G He') as [G1 _].
      rewrite C34_roundtrip in Hfo by auto. discriminate. }
    assert (ND : NoDup (map fst ns)).
    { rewrite N1. assert (HS : incl (List.filter (has_flag V exc) schema) schema) by (intros x Hx; apply filter_In in Hx; tauto).
      assert (HD : NoDup (List.filter (has_flag V exc) schema)) by (apply NoDup_filter; eapply NoDup_map_inv; exact Gd).
      clear -HS HD G. revert HS HD. generalize (List.filter (has_flag V exc) schema) as l. induction l as [|x l IH]; intros HS HD; cbn [map]; constructor.
      - intro Hi. apply in_map_iff in Hi. destruct Hi as (y & Ey & Hy).
        assert (y = x) by (apply (dest_same nested schema); auto; apply HS; [now right|now left]). subst y.
        apply NoDup_cons_iff in HD. tauto.
      - apply IH; [intros y Hy; apply HS; now right|]. apply NoDup_cons_iff in HD. tauto. }
    assert (ND2 : NoDup (map fst ns2)).
    { unfold ns2. rewrite !map_app.
      assert (NDf : NoDup (map fst (match cfo with Some (d, v) => [(d, Some v)] | None => @nil (string * option V) end) ++ map fst ns)%list).
      { destruct cfo as [[d v]|]; cbn [map app fst]; auto. constructor; auto. rewrite N1. intro Hi. apply in_map_iff in Hi.
        destruct Hi as (y & Ey & Hy). apply filter_In in Hy. apply (Hfor d y); [apply (Hf d v eq_refl)|tauto|congruence]. }
      unfold last_only. destruct (rev extras) as [|[d v] l] eqn:ER; cbn [map app fst]; auto. constructor; auto.
      assert (Hdv : In (d, v) extras) by (apply in_rev; rewrite ER; now left).
      intro Hi. apply in_app_or in Hi. destruct Hi as [Hi|Hi].
      - destruct cfo as [[d' v']|]; cbn in Hi; [|exact Hi]. destruct Hi as [->|[]]. apply (proj2 (Hf d v' eq_refl)).
        change d with (fst (d, v)). now apply in_map.
      - rewrite N1 in Hi. apply in_map_iff in Hi. destruct Hi as (y & Ey & Hy). apply filter_In in Hy.
        apply (Hfor d y); [exact (He d v Hdv)|tauto|congruence]. }
    assert (Hline : ns_get ns2 (dest_of (flag nested (e_path e))) = from_line bf exc given e).
    { unfold CfgArgsSpec.from_line. assert (EX := flag_excluded nested schema exc e G Hin).
      destruct (existsb (String.eqb (key (e_path e))) exc); cbn [negb] in EX; rename EX into EF; swap 1 2.
      - destruct (N2 e) as (v & Hv & Hi); [apply filter_In; auto|].
        rewrite (ns_get_in ns2 _ v); auto; [|unfold ns2; apply in_or_app; right; apply in_or_app; now right].
        unfold ns_value in Hv. destruct (if bf then e_kind e else KStore); destruct (given (e_path e)); try (injection Hv as <-; reflexivity).
        destruct (check (e_path e) s); [|discriminate]. injection Hv as <-. reflexivity.
      - apply ns_get_notin. unfold ns2. rewrite !map_app. intro Hi. apply in_app_or in Hi. destruct Hi as [Hi|Hi].
        + apply in_map_iff in Hi. destruct Hi as ([d v] & Ed & Hi). apply (Hfor d e); auto. apply (He d v). now apply Hlast.
        + apply in_app_or in Hi. destruct Hi as [Hi|Hi].
          * destruct cfo as [[d v]|]; cbn in Hi; [|exact Hi]. destruct Hi as [Ed|[]]. apply (Hfor d e); auto. apply (Hf d v eq_refl).
          * rewrite N1 in Hi. apply in_map_iff in Hi. destruct Hi as (y & Ey & Hy). apply filter_In in Hy. destruct Hy as [Hy Hfl].
            rewrite (dest_same nested schema y e G Hy Hin Ey) in Hfl. congruence. }
    assert (HS : forall c0, cget (set_all nested ns2 (map e_path schema) c0) (e_path e) =
              match from_line bf exc given e with Some v => Some v | None => cget c0 (e_path e) end).
    { intro c0. rewrite (set_all_one nested ns2 c0 (e_path e)); auto.
      - now rewrite Hline.
      - destruct (any_good _ _ _ G Hin) as [G1 _]. now apply C34_roundtrip.
      - intros d v Hdv Hr. unfold ns2 in Hdv. apply in_app_or in Hdv. destruct Hdv as [Hdv|Hdv].
        + rewrite (He d (Some v) (Hlast _ _ Hdv) e Hin) in Hr. discriminate.
        + apply in_app_or in Hdv. destruct Hdv as [Hdv|Hdv].
          * destruct cfo as [[d' v']|]; [|destruct Hdv]. destruct Hdv as [Ed|[]]. injection Ed as <- <-.
            rewrite (proj1 (Hf d' v' eq_refl) e Hin) in Hr. discriminate.
          * assert (Hd : In d (map fst ns)) by (change d with (fst (d, Some v)); now apply in_map).
            rewrite N1 in Hd. apply in_map_iff in Hd. destruct Hd as (y & <- & Hy). apply filter_In in Hy. destruct Hy as [Hy _].
            assert (y = e).
            { destruct (any_good _ _ _ G Hy) as [G1 M1]. destruct (any_good _ _ _ G Hin) as [G2 M2].
              apply Gu; auto. apply (C34_unambiguous nested); auto. }
            now subst y.
      - now apply in_map. }
    assert (HP : cget (start_conf V cast schema pa) (e_path e) = from_patch pa e).
    { destruct pa as [| |p]; cbn [from_patch start_conf]; auto; rewrite patch_get; cbn [cget].
      - now rewrite defaults_get.
      - destruct (cget p (e_path e)); reflexivity. }
    unfold layered. destruct w; destruct file as [f|]; cbn [bind] in H; try (injection H as <-; rewrite HS, HP; reflexivity).
    - destruct (load schema f) as [l|x] eqn:EL; cbn [bind] in H; [|discriminate]. injection H as <-.
      destruct (load_get _ _ _ EL Gd) as [L1 _]. destruct (L1 e Hin) as (v & Hv & Gv).
      rewrite HS, patch_get, Gv.  rewrite HP, Hv. destruct (from_line bf exc given e); auto. destruct (from_patch pa e); reflexivity.
    - destruct (load schema f) as [l|x] eqn:EL; cbn [bind] in H; [|discriminate]. injection H as <-.
      destruct (load_get _ _ _ EL Gd) as [L1 _]. destruct (L1 e Hin) as (v & Hv & Gv).
      rewrite patch_get, HS, HP, Gv, Hv. destruct (from_line bf exc given e); auto. destruct (from_patch pa e); reflexivity.
  Qed.

  (** It succeeds when every text, of the command line and of the file, is accepted. *)
  Theorem C49_total bf schema exc nested pa w file cfo extras given : good_schema nested schema ->
    (forall e t, In e schema -> given (e_path e) = Some t -> check (e_path e) t <> None) ->
    (forall e t f, In e schema -> file = Some f -> cget f (e_path e) = Some t -> check (e_path e) t <> None) ->
    exists c, arg_parse bf schema exc nested pa w file cfo extras given = Ok c.
  Proof using.
    intros G Hg Hf. unfold CfgArgs.arg_parse.
    set (fl := List.filter (has_flag V exc) schema).
    assert (HS : incl fl schema) by (intros x Hx; apply filter_In in Hx; tauto).
    assert (G' := G). destruct G' as (Gn & Gd & Gc & Gu).
    assert (ND : distinct (map (fun e => flag nested (e_path e)) fl) = true).
    { apply distinct_iff. assert (HD : NoDup fl) by (apply NoDup_filter; eapply NoDup_map_inv; exact Gd).
      revert HS HD. clear -G. generalize fl as l. induction l as [|x l IH]; intros HS HD; cbn [map]; constructor.
      - intro Hi. apply in_map_iff in Hi. destruct Hi as (y & Ey & Hy).
        assert (y = x) by (apply (dest_same nested schema); auto; [apply HS; now right|apply HS; now left|now rewrite Ey]). subst y.
        apply NoDup_cons_iff in HD. tauto.
      - apply IH; [intros y Hy; apply HS; now right|]. apply NoDup_cons_iff in HD. tauto. }
    rewrite ND. cbn [negb].
    assert (HN : exists ns, namespace V of_bool check bf nested given fl = Ok ns).
    { revert HS. generalize fl as l. induction l as [|x l IH]; intro HS; cbn [namespace]; [eauto|].
      assert (HV : exists v, ns_value V of_bool check bf x (given (e_path x)) = Ok v).
      { unfold ns_value. destruct (given (e_path x)) as [t|] eqn:E; destruct (if bf then e_kind x else KStore); eauto.
        destruct (check (e_path x) t) eqn:Ec; eauto. exfalso. apply (Hg x t); auto. apply HS. now left. }
      destruct HV as (v & ->). cbn [bind]. destruct IH as (ns & ->); [intros y Hy; apply HS; now right|]. cbn [bind]. eauto. }
    destruct HN as (ns & ->). cbn [bind].
    assert (HL : forall f, file = Some f -> exists l, load schema f = Ok l).
    { intros f Ef. assert (Hsub : incl schema schema) by apply incl_refl. revert Hsub. generalize schema at 1 3 as l.
      induction l as [|x l IH]; intro Hsub; cbn [CfgArgs.load]; [eauto|].
      destruct IH as (c & ->); [intros y Hy; apply Hsub; now right|]. cbn [bind].
      destruct (cget f (e_path x)) as [t|] eqn:E; eauto. destruct (check (e_path x) t) eqn:Ec; eauto.
      exfalso. apply (Hf x t f); auto. apply Hsub. now left. }
    destruct w, file as [f|]; cbn [bind]; eauto; destruct (HL f eq_refl) as (l & ->); cbn [bind]; eauto.
  Qed.
  (** Two options with the same flag: argparse refuses the second one, whatever the arguments. *)
  Theorem C49_collision bf schema exc nested pa w file cfo extras given e e' l1 l2 l3 :
    schema = (l1 ++ e :: l2 ++ e' :: l3)%list -> ~ In (key (e_path e)) exc -> ~ In (key (e_path e')) exc ->
    strip_under (key (e_path e)) = key (e_path e) -> strip_under (key (e_path e')) = key (e_path e') ->
    flag nested (e_path e) = flag nested (e_path e') ->
    arg_parse bf schema exc nested pa w file cfo extras given = Raise ValueError.
  Proof using.
    intros El He He' Hs Hs' Ef. unfold CfgArgs.arg_parse. subst schema. rewrite filter_app. cbn [List.filter].
    rewrite (has_flag_iff exc e Hs), (proj2 (excluded_iff _ _) He). cbn [negb]. rewrite filter_app. cbn [List.filter].
    rewrite (has_flag_iff exc e' Hs'), (proj2 (excluded_iff _ _) He'). cbn [negb].
    destruct (distinct _) eqn:E; [|reflexivity]. exfalso. apply distinct_iff in E.
    rewrite !map_app in E. cbn [map] in E. apply NoDup_remove_2 in E. apply E. apply in_or_app. right.
    rewrite map_app. apply in_or_app. right. cbn [map]. left. congruence.
  Qed.
  (** Only the last of the extra options is declared. *)
  Theorem C49_extraopts bf schema exc nested pa w file cfo extras x given :
    arg_parse bf schema exc nested pa w file cfo (extras ++ [x])%list given =
    arg_parse bf schema exc nested pa w file cfo [x] given.
  Proof using. unfold CfgArgs.arg_parse, last_only. rewrite rev_unit. reflexivity. Qed.

  Section corollaries.
    Variables (bf : bool) (schema : list entry) (exc : list string) (nested : option string) (pa : patch_arg V)
      (file : option (conf string)) (cfo : option (string * V)) (extras : list (string * option V)).
    Hypothesis G : good_schema nested schema.
    Hypothesis He : forall d v, In (d, v) extras -> foreign nested schema d.
    Hypothesis Hf : forall d v, cfo = Some (d, v) -> foreign nested schema d /\ ~ In d (map fst extras).
    (** By default, what is given on the command line wins over the file and the defaults. *)
    Theorem C49_line_wins w given e t v c : In e schema -> ~ In (key (e_path e)) exc ->
      (e_kind e = KStore \/ bf = false) -> given (e_path e) = Some t -> check (e_path e) t = Some v ->
      w <> After \/ file = None ->
      arg_parse bf schema exc nested pa w file cfo extras given = Ok c -> cget c (e_path e) = Some v.
    Proof using G He Hf.
      intros Hin Hh Hk Hg Hc Hw H. rewrite (C49_arg_parse _ _ _ _ _ _ _ _ _ _ _ G He Hf H e Hin). unfold layered.
      assert (EL : from_line bf exc given e = Some v).
      { unfold CfgArgsSpec.from_line. rewrite (proj2 (excluded_iff _ _) Hh), Hg. destruct Hk as [->| ->]; [destruct bf|]; exact Hc. }
      rewrite EL. destruct w; [destruct file; reflexivity| |reflexivity]. destruct Hw as [Hw|Hw]; [congruence|]. rewrite Hw. reflexivity.
    Qed.
    (** What is not given comes from the file, and the options that the file does not have get
        their default value. *)
    Theorem C49_file_or_default f given e c : In e schema -> from_line bf exc given e = None -> file = Some f -> pa = PatchNone V ->
      arg_parse bf schema exc nested pa Before file cfo extras given = Ok c ->
      cget c (e_path e) = match cget f (e_path e) with Some t => check (e_path e) t | None => Some (e_default e) end.
    Proof using G He Hf.
      intros Hin Hl Hfi Hp H. rewrite (C49_arg_parse _ _ _ _ _ _ _ _ _ _ _ G He Hf H e Hin). unfold layered. rewrite Hl, Hfi, Hp.
      cbn [from_patch]. unfold CfgArgsSpec.from_file.
      destruct (match cget f (e_path e) with Some t => check (e_path e) t | None => Some (e_default e) end); reflexivity.
    Qed.
    (** A boolean option is always set by the command line: to the opposite of its default with
        the flag, to its default without it, even if the file says otherwise. *)
    Theorem C49_boolean given e d c : In e schema -> ~ In (key (e_path e)) exc -> bf = true -> e_kind e = KBool d ->
      arg_parse bf schema exc nested pa Before file cfo extras given = Ok c ->
      cget c (e_path e) = Some (of_bool (match given (e_path e) with Some _ => negb d | None => d end)).
    Proof using G He Hf.
      intros Hin Hh Hb Hk H. rewrite (C49_arg_parse _ _ _ _ _ _ _ _ _ _ _ G He Hf H e Hin). unfold layered.
      assert (EL : from_line bf exc given e = Some (of_bool (match given (e_path e) with Some _ => negb d | None => d end))).
      { unfold CfgArgsSpec.from_line. rewrite (proj2 (excluded_iff _ _) Hh), Hb, Hk. destruct (given (e_path e)); reflexivity. }
      rewrite EL. destruct file; reflexivity.
    Qed.
    (** With cfgfilepatch="after", the command line is without effect: the configuration file is
        completed with all the defaults before it is applied. *)
    Theorem C49_after_lost f given given' e c c' : (forall o n, cast o n = n) -> In e schema -> file = Some f ->
      arg_parse bf schema exc nested pa After file cfo extras given = Ok c ->
      arg_parse bf schema exc nested pa After file cfo extras given' = Ok c' ->
      cget c (e_path e) = cget c' (e_path e).
    Proof using G He Hf.
      intros Hcast Hin Hfi H H'. rewrite (C49_arg_parse _ _ _ _ _ _ _ _ _ _ _ G He Hf H e Hin), (C49_arg_parse _ _ _ _ _ _ _ _ _ _ _ G He Hf H' e Hin).
      unfold layered. rewrite Hfi.
      assert (EV : exists v, from_file f e = Some v).
      { unfold CfgArgs.arg_parse in H. destruct (negb _); [discriminate|].
        match type of H with bind ?z _ = _ => destruct z as [ns|x]; cbn [bind] in H; [|discriminate] end.
        rewrite Hfi in H. cbn [bind] in H. destruct (load schema f) as [l|x] eqn:EL; cbn [bind] in H; [|discriminate].
        destruct (load_get _ _ _ EL (proj1 (proj2 G))) as [L1 _]. destruct (L1 e Hin) as (v & Hv & _). eauto. }
      destruct EV as (v & ->).
      assert (HO : forall o : option V, match o with Some o0 => Some (cast o0 v) | None => Some v end = Some v).
      { intros [o|]; auto. now rewrite Hcast. }
      cbn zeta. rewrite !HO. reflexivity.
    Qed.
  End corollaries.
  (** arg_patch: the command line wins over the file, which wins over the defaults. *)
  Theorem C49_arg_patch bf schema exc file cfo given c :
    good_schema None schema -> foreign None schema (fst cfo) -> (forall o n, cast o n = n) ->
    arg_patch V of_bool cast check bf schema exc file cfo given = Ok c ->
    forall e, In e schema ->
      cget c (e_path e) = match from_line bf exc given e with Some v => Some v | None => from_file file e end.
  Proof using.
    intros G Hf Hcast H e Hin. unfold arg_patch in H.
    destruct (arg_parse bf schema exc None (PatchNone V) Before (Some file) (Some cfo) [] given) as [p|x] eqn:EP; cbn [bind] in H; [|discriminate].
    destruct (load schema file) as [l|x] eqn:EL; cbn [bind] in H; [|discriminate]. injection H as <-.
    rewrite patch_get.
    assert (H1 : forall d (v : option V), In (d, v) [] -> foreign None schema d) by (intros ? ? []).
    assert (H2 : forall d (v : V), Some cfo = Some (d, v) -> foreign None schema d /\ ~ In d (map fst (@nil (string * option V)))).
    { intros d v E. injection E as E. rewrite E in Hf. cbn in Hf. split; [exact Hf|intros []]. }
    assert (HP := C49_arg_parse _ _ _ _ _ _ _ _ _ _ _ G H1 H2 EP e Hin).
    rewrite HP. unfold layered. cbn [from_patch].
    destruct (load_get _ _ _ EL (proj1 (proj2 G))) as [L1 _]. destruct (L1 e Hin) as (v & Hv & Gv). rewrite Hv, Gv.
    destruct (from_line bf exc given e); now rewrite Hcast.
  Qed.
End proofs.

(** ** Examples *)
Definition ex_check (p : path) (t : string) : option oval := Some (OText t).
Definition ex_cast (o n : oval) : oval := n.
Definition opt_a := mkentry oval (mkpath ["run"] "file") KStore (OText "def.nc").
Definition opt_b := mkentry oval (mkpath ["run"] "fast") (KBool false) (OBool false).
Definition opt_c := mkentry oval (mkpath [] "title") KStore (OText "none").
Definition ex_schema := [opt_c; opt_a; opt_b].
Definition ex_file : conf string := [(mkpath ["run"] "file", "f.nc"); (mkpath ["run"] "fast", "True")].
Lemma clean_of s : s <> "" -> forallb (fun c => negb (Ascii.eqb c dash) && negb (is_blank c)) (list_ascii_of_string s) = true -> clean s.
Proof.
  intros H1 H2. split; auto. intros c (a & b & ->). rewrite forallb_forall in H2.
  assert (Hc : In c (list_ascii_of_string (a ++ String c b))) by (clear; induction a; cbn; auto).
  specialize (H2 c Hc). apply andb_true_iff in H2. rewrite !negb_true_iff in H2. destruct H2 as [H2 H3]. split; [|intro Q; apply CfgNamesProps.blank_iff in Q; congruence].
  intros ->. now rewrite Ascii.eqb_refl in H2.
Qed.
Lemma no_under_of s : existsb (Ascii.eqb under) (list_ascii_of_string s) = false -> ~ has_char under s.
Proof.
  intros H (a & b & ->). rewrite <- not_true_iff_false in H. apply H. apply existsb_exists. exists under. split; [|apply Ascii.eqb_refl].
  clear. induction a; cbn; auto.
Qed.
Example ex_good : good_schema None ex_schema /\ foreign None ex_schema "cfgfile".
Proof.
  split.
  - split; [exact Logic.I|]. split; [|split].
    + cbn. repeat constructor; cbn; intuition discriminate.
    + intros e He. cbn in He. repeat (destruct He as [<-|He]); try destruct He; (split; [apply clean_of; [discriminate|reflexivity]|]);
        (split; [intros s Hs; cbn in Hs; repeat (destruct Hs as [<-|Hs]); try destruct Hs; (apply clean_of; [discriminate|reflexivity])|]);
        intros s Hs; cbn in Hs; repeat (destruct Hs as [<-|Hs]); try destruct Hs; apply no_under_of; reflexivity.
    + intros e e' He He' Hs. cbn in He, He'. unfold same_names in Hs.
      repeat (destruct He as [<-|He]); try destruct He; repeat (destruct He' as [<-|He']); try destruct He'; try reflexivity; cbn in Hs; discriminate.
  - intros e He. cbn in He. repeat (destruct He as [<-|He]); try destruct He; reflexivity.
Qed.
Definition ex_given (p : path) : option string := if path_eqb p (mkpath [] "title") then Some "mine" else None.
(** The title is the one given, the file comes from the configuration file, but the boolean of
    the file is lost. *)
Example ex_before : exists c, arg_parse oval OBool ex_cast ex_check true ex_schema [] None (PatchNone oval) Before (Some ex_file)
    (Some ("cfgfile", OText "x.cfg")) [] ex_given = Ok c /\
  cget c (e_path oval opt_c) = Some (OText "mine") /\ cget c (e_path oval opt_a) = Some (OText "f.nc") /\
  cget c (e_path oval opt_b) = Some (OBool false).
Proof. eexists. split; [vm_compute; reflexivity|]. repeat split; vm_compute; reflexivity. Qed.
(** False: "after: the config file would be used after command line options": so are the
    defaults, even when there is no such file. *)
Theorem C49_after_refuted : exists c, arg_parse oval OBool ex_cast ex_check true ex_schema [] None (PatchNone oval) After (Some [])
    (Some ("cfgfile", OText "missing.cfg")) [] ex_given = Ok c /\ cget c (e_path oval opt_c) = Some (OText "none").
Proof. eexists. split; [vm_compute; reflexivity|]. vm_compute. reflexivity. Qed.
(** False: an option without its flag comes from the configuration file: not a boolean. *)
Theorem C49_boolean_refuted : exists c, arg_parse oval OBool ex_cast ex_check true ex_schema [] None (PatchNone oval) Before (Some ex_file)
    None [] (fun _ => None) = Ok c /\ cget ex_file (e_path oval opt_b) = Some "True" /\ cget c (e_path oval opt_b) = Some (OBool false).
Proof. eexists. split; [vm_compute; reflexivity|]. split; vm_compute; reflexivity. Qed.
