(** C34: names of options. *)
From Verif Require Import CfgNamesSpec PyDictFacts PyReFacts.
From Coq Require Import Lia.
Open Scope string_scope.

Lemma smap_app f a b : smap f (a ++ b) = smap f a ++ smap f b.
Proof. induction a as [|c a IH]; cbn; congruence. Qed.
Lemma has_char_cons c d s : has_char c (String d s) <-> c = d \/ has_char c s.
Proof.
  split.
  - intros (a & b & E). destruct a as [|x a]; cbn in E; injection E as -> E; [auto|]. right. exists a, b. auto.
  - intros [->|(a & b & ->)]; [exists "", s; reflexivity|exists (String d a), b; reflexivity].
Qed.
Lemma has_char_nil c : ~ has_char c "".
Proof. intros (a & b & E). destruct a; discriminate. Qed.
Lemma has_char_app c a b : has_char c (a ++ b) <-> has_char c a \/ has_char c b.
Proof.
  induction a as [|d a IH]; cbn.
  - split; auto. intros [H|H]; auto. exfalso. eapply has_char_nil; eauto.
  - rewrite !has_char_cons, IH. tauto.
Qed.
Lemma blank_iff c : is_blank c = true <-> blank c.
Proof.
  unfold is_blank, blank. cbn [In]. rewrite Bool.orb_true_iff, Bool.andb_true_iff, Nat.eqb_eq, !Nat.leb_le. lia.
Qed.
Lemma char_round c : c <> dash -> ~ blank c ->
  (fun c => if Ascii.eqb c dash then under else c) (lower_ascii ((fun c => if Ascii.eqb c under || is_blank c then dash else c) c)) = lower_ascii c.
Proof.
  intros H1 H2. cbn beta. rewrite <- blank_iff, Bool.not_true_iff_false in H2. rewrite H2, Bool.orb_false_r. destruct (Ascii.eqb_spec c under) as [->|N]; [reflexivity|].
  destruct (Ascii.eqb_spec (lower_ascii c) dash) as [E|]; auto. exfalso. apply H1.
  destruct c as [[] [] [] [] [] [] [] []]; vm_compute in E; try discriminate; reflexivity.
Qed.
Lemma round s : (forall c, has_char c s -> c <> dash /\ ~ blank c) -> sub_under (lower (sub_dash s)) = lower s.
Proof.
  unfold sub_under, sub_dash. induction s as [|c s IH]; cbn [smap lower]; auto. intro H.
  destruct (H c) as [H1 H2]; [apply has_char_cons; auto|]. rewrite IH; [f_equal; exact (char_round c H1 H2)|].
  intros d Hd. apply H. apply has_char_cons. auto.
Qed.
Lemma sub_under_id s : ~ has_char dash s -> sub_under s = s.
Proof.
  unfold sub_under. induction s as [|c s IH]; cbn [smap]; auto. intro H. rewrite has_char_cons in H.
  destruct (Ascii.eqb_spec c dash) as [->|]; [exfalso; auto|]. rewrite IH; auto.
Qed.
Lemma sub_under_idem s : sub_under (sub_under s) = sub_under s.
Proof.
  unfold sub_under. induction s as [|c s IH]; cbn [smap]; auto. rewrite IH. f_equal.
  destruct (Ascii.eqb c dash) eqn:E; [reflexivity|now rewrite E].
Qed.
Lemma sapp_nil_r s : s ++ "" = s. Proof. induction s; cbn; congruence. Qed.
Lemma sapp_assoc a b c : (a ++ b) ++ c = a ++ b ++ c. Proof. induction a; cbn; congruence. Qed.
Lemma srev_app a b : str_rev (a ++ b) = str_rev b ++ str_rev a.
Proof. induction a as [|c a IH]; cbn; [now rewrite sapp_nil_r|]. now rewrite IH, sapp_assoc. Qed.
Lemma srev_srev a : str_rev (str_rev a) = a.
Proof. induction a as [|c a IH]; cbn; auto. now rewrite srev_app, IH. Qed.
Lemma lstrip_suffix c s : exists a, s = a ++ lstrip_c c s.
Proof.
  induction s as [|d s [a IH]]; cbn [lstrip_c]; [exists ""; reflexivity|].
  destruct (Ascii.eqb d c); [exists (String d a); cbn; congruence|exists ""; reflexivity].
Qed.
Lemma lstrip_head c s d t : lstrip_c c s = String d t -> d <> c.
Proof.
  induction s as [|e s IH]; cbn [lstrip_c]; [discriminate|]. destruct (Ascii.eqb_spec e c) as [->|N]; auto. intro H. now injection H as <- _.
Qed.
Lemma strip_under_head s d t : strip_under s = String d t -> d <> under.
Proof.
  unfold strip_under. intro H. destruct (lstrip_suffix under (str_rev (lstrip_c under s))) as [a E].
  set (w := lstrip_c under (str_rev (lstrip_c under s))) in *.
  assert (E' : lstrip_c under s = str_rev w ++ str_rev a) by (rewrite <- srev_app, <- E; now rewrite srev_srev).
  rewrite H in E'. cbn in E'. now apply lstrip_head in E'.
Qed.
Lemma lower_has_char c s : is_letter c = false -> has_char c (lower s) <-> has_char c s.
Proof.
  intro L. induction s as [|d s IH]; cbn [lower].
  - split; intro H; exfalso; eapply has_char_nil; eauto.
  - rewrite !has_char_cons, IH. split; intros [H|H]; auto.
    + left. symmetry in H. symmetry. now apply lower_not_letter.
    + left. subst. symmetry. now apply lower_ascii_not_letter.
Qed.
Lemma join_chars l : (forall s, In s l -> clean s) -> forall c, has_char c (join "_" l) -> c <> dash /\ ~ blank c.
Proof.
  induction l as [|s l IH]; intros H c; cbn [join]; [intro X; exfalso; eapply has_char_nil; eauto|].
  assert (Hs := proj2 (H s (or_introl eq_refl))). destruct l as [|s' l]; auto.
  rewrite !has_char_app. intros [X|[X|X]]; auto.
  - apply has_char_cons in X. destruct X as [->|X]; [split; [discriminate|cbn; intuition discriminate]|exfalso; eapply has_char_nil; eauto].
  - apply IH; auto. intros; apply H; now right.
Qed.
Lemma good_names p : good_path p -> forall s, In s (names p) -> clean s.
Proof.
  intros (H1 & H2 & _) s. unfold names. rewrite in_app_iff, in_map_iff. intros [(x & <- & Hx)|[<-|[]]]; auto.
Qed.
Lemma flag_names nested p : strip_under (key p) = key p -> flag nested p = cfg2optname (join "_" (names p)) nested.
Proof. unfold flag, names. intros ->. reflexivity. Qed.
Lemma names_head p : good_path p -> exists d t, join "_" (names p) = String d t /\ d <> under.
Proof.
  intro G. assert (Gn := good_names p G). destruct G as (H1 & H2 & H3). unfold names in *.
  assert (Hh : forall s rest, In s (map strip_under (parents p) ++ [key p])%list -> (s = key p \/ exists s', s = strip_under s') ->
     exists d t, s ++ rest = String d t /\ d <> under).
  { intros s rest Hs [->|[s' ->]].
    - destruct (key p) as [|d t] eqn:E; [now destruct (proj1 H2)|]. exists d, (t ++ rest). split; auto. now apply strip_under_head in H3.
    - destruct (strip_under s') as [|d t] eqn:E; [exfalso; now apply (proj1 (Gn _ Hs))|]. exists d, (t ++ rest). split; auto. now apply strip_under_head in E. }
  destruct (map strip_under (parents p)) as [|s l] eqn:E; cbn [app join].
  - destruct (Hh (key p) "") as (d & t & X & Y); [now left|auto|]. rewrite sapp_nil_r in X. eauto.
  - assert (exists s', s = strip_under s') as Hs'. { assert (In s (map strip_under (parents p))) by (rewrite E; now left). apply in_map_iff in H. destruct H as (x & <- & _). eauto. }
    destruct (l ++ [key p])%list as [|x r] eqn:E2; [destruct l; discriminate|].
    apply (Hh s ("_" ++ join "_" (x :: r))); auto. now left.
Qed.
(** The flag of an option leads back to this option. *)
Lemma dest_flag nested p : good_nested nested -> good_path p ->
  opt2cfgname (dest_of (flag nested p)) nested = lower (cfgkey p).
Proof.
  intros Hn G. assert (Gn := good_names p G). rewrite flag_names by apply G. change (cfgkey p) with (join "_" (names p)).
  assert (Hj := join_chars (names p) Gn). destruct (names_head p G) as (d & t & Ej & Hd).
  set (v := join "_" (names p)) in *.
  assert (Hd' : d <> dash /\ ~ blank d) by (apply Hj; rewrite Ej; apply has_char_cons; auto).
  assert (Hb : is_blank d = false) by (apply not_true_iff_false; intro Q; apply (proj2 Hd'); now apply blank_iff).
  assert (Hlow : forall c, lower_ascii c = dash -> c = dash).
  { intros c E. destruct c as [[] [] [] [] [] [] [] []]; vm_compute in E; try discriminate; reflexivity. }
  unfold cfg2optname, dest_of.
  assert (Hplain : sub_under (lstrip_c dash ("--" ++ lower (sub_dash v))) = lower v).
  { cbn [append lstrip_c]. change (Ascii.eqb "-" dash) with true. cbn match. rewrite Ej. unfold sub_dash. cbn [smap lower lstrip_c].
    destruct (Ascii.eqb_spec d under) as [->|_]; [congruence|]. rewrite Hb. cbn [orb].
    destruct (Ascii.eqb_spec (lower_ascii d) dash) as [E|_]; [apply Hlow in E; destruct Hd'; congruence|].
    assert (R := round v Hj). rewrite Ej in R. unfold sub_dash in R. cbn [smap] in R.
    destruct (Ascii.eqb_spec d under) as [->|_]; [congruence|]. rewrite Hb in R. cbn [orb lower] in R. exact R. }
  unfold opt2cfgname. destruct nested as [n|].
  - destruct (nonempty n) eqn:En; cbn [andb].
    + destruct Hn as [Hn1 Hn2].
      assert (Hnest : sub_under (lstrip_c dash ("--" ++ lower (n ++ "-" ++ sub_dash v))) = (n ++ "_") ++ lower v).
      { cbn [append lstrip_c]. change (Ascii.eqb "-" dash) with true. cbn match. rewrite lower_app, Hn1.
        assert (lstrip_c dash (n ++ lower (String "-" (sub_dash v))) = n ++ lower (String "-" (sub_dash v))) as ->.
        { destruct n as [|c n]; [discriminate|]. cbn [append lstrip_c]. destruct (Ascii.eqb_spec c dash) as [->|]; auto.
          exfalso. apply Hn2. apply has_char_cons. auto. }
        unfold sub_under. rewrite smap_app. fold sub_under. fold (sub_under n). rewrite (sub_under_id n Hn2).
        change (lower (String "-" (sub_dash v))) with (String "-" (lower (sub_dash v))).
        change (smap (fun c : ascii => if Ascii.eqb c dash then under else c) (String "-" (lower (sub_dash v)))) with (String under (sub_under (lower (sub_dash v)))).
        rewrite (round v Hj), sapp_assoc. reflexivity. }
      rewrite Hnest. cbn zeta.
      assert (sub_under ((n ++ "_") ++ lower v) = (n ++ "_") ++ lower v) as ->.
      { rewrite <- Hnest. apply sub_under_idem. }
      assert (startswith ((n ++ "_") ++ lower v) (n ++ "_") = true) as -> by (apply startswith_app; eauto).
      now rewrite sdrop_app.
    + rewrite Hplain. rewrite <- Hplain. apply sub_under_idem.
  - rewrite Hplain. rewrite <- Hplain. apply sub_under_idem.
Qed.
Theorem C34_roundtrip nested p : good_nested nested -> good_path p -> reaches nested (dest_of (flag nested p)) p = true.
Proof. intros Hn G. unfold reaches. rewrite dest_flag by auto. apply String.eqb_refl. Qed.

(** Flags have no underscore, no blank and no capital, whatever the names. *)
Theorem C34_flag_characters p c : has_char c (flag None p) -> c <> under /\ ~ blank c /\ lower_ascii c = c.
Proof.
  unfold flag, cfg2optname. generalize (CfgNames.join "_" (map strip_under (parents p) ++ [strip_under (key p)])%list). intro s.
  unfold sub_dash. induction s as [|d s IH]; cbn [smap lower]; [intro H; exfalso; now apply has_char_nil in H|].
  intro H. apply has_char_cons in H. destruct H as [->|H]; auto. clear IH.
  destruct (Ascii.eqb d under || is_blank d) eqn:E; [split; [discriminate|split; [cbn; intuition discriminate|reflexivity]]|].
  apply Bool.orb_false_iff in E. destruct E as [E1 E2]. apply Ascii.eqb_neq in E1. rewrite <- blank_iff.
  clear -E1 E2. destruct d as [[] [] [] [] [] [] [] []]; vm_compute in E1, E2 |- *; repeat split; try congruence; discriminate.
Qed.

(** Options with different names have different flags, when no name contains an underscore. *)
Lemma split_under x y a b : ~ has_char under x -> ~ has_char under y ->
  x ++ String under a = y ++ String under b -> x = y /\ a = b.
Proof.
  revert y. induction x as [|c x IH]; intros [|d y]; cbn [append]; intros Hx Hy E.
  - injection E as ->. auto.
  - injection E as E _. exfalso. apply Hy. apply has_char_cons. left. congruence.
  - injection E as E _. exfalso. apply Hx. apply has_char_cons. left. congruence.
  - injection E as -> E. destruct (IH y) as [-> ->]; auto; intro X; [apply Hx|apply Hy]; apply has_char_cons; auto.
Qed.
Lemma join_inj l m : l <> [] -> m <> [] -> (forall s, In s l -> ~ has_char under s) -> (forall s, In s m -> ~ has_char under s) ->
  join "_" l = join "_" m -> l = m.
Proof.
  revert m. induction l as [|x l IH]; intros m Nl Nm Hl Hm E; [congruence|]. destruct m as [|y m]; [congruence|].
  assert (Hx := Hl x (or_introl eq_refl)). assert (Hy := Hm y (or_introl eq_refl)).
  destruct l as [|x' l], m as [|y' m]; cbn [join] in E.
  - congruence.
  - exfalso. apply Hx. rewrite E. apply has_char_app. right. apply has_char_cons. auto.
  - exfalso. apply Hy. rewrite <- E. apply has_char_app. right. apply has_char_cons. auto.
  - apply split_under in E; auto. destruct E as [-> E]. f_equal. apply IH; auto; try discriminate; intros; [apply Hl|apply Hm]; now right.
Qed.
Lemma lower_join l : lower (join "_" l) = join "_" (map lower l).
Proof.
  induction l as [|x l IH]; auto. destruct l as [|y l]; auto.
  change (join "_" (x :: y :: l)) with (x ++ "_" ++ join "_" (y :: l)). rewrite !lower_app, IH. reflexivity.
Qed.
Lemma key_names p q : no_under p -> no_under q -> lower (cfgkey p) = lower (cfgkey q) -> same_names p q.
Proof.
  intros Np Nq E. unfold same_names. change (cfgkey p) with (join "_" (names p)) in E. change (cfgkey q) with (join "_" (names q)) in E.
  rewrite !lower_join in E. apply join_inj in E; auto.
  - unfold names. destruct (map strip_under (parents p)); discriminate.
  - unfold names. destruct (map strip_under (parents q)); discriminate.
  - intros s Hs. apply in_map_iff in Hs. destruct Hs as (x & <- & Hx). rewrite lower_has_char by reflexivity. auto.
  - intros s Hs. apply in_map_iff in Hs. destruct Hs as (x & <- & Hx). rewrite lower_has_char by reflexivity. auto.
Qed.
Theorem C34_unambiguous nested p q : good_nested nested -> good_path p -> good_path q -> no_under p -> no_under q ->
  (flag nested p = flag nested q \/ reaches nested (dest_of (flag nested p)) q = true) -> same_names p q.
Proof.
  intros Hn Gp Gq Np Nq H. apply key_names; auto.
  rewrite <- (dest_flag nested p), <- (dest_flag nested q) by auto. destruct H as [->|H]; auto.
  unfold reaches in H. apply String.eqb_eq in H. rewrite H. symmetry. now apply dest_flag.
Qed.

(** What the configuration contains after the command line *)
Lemma path_eqb_iff p q : path_eqb p q = true <-> p = q.
Proof.
  unfold path_eqb. destruct p as [a b], q as [c d]. cbn [parents key]. destruct (list_eq_dec string_dec a c) as [->|N]; cbn [andb].
  - rewrite String.eqb_eq. split; [now intros ->|intro H; now injection H].
  - split; [discriminate|]. intro H. injection H as -> _. now destruct N.
Qed.
Lemma setcfg_other {V} nested (options : list (string * option V)) c p q : p <> q -> cget (setcfg nested options c p) q = cget c q.
Proof.
  intro N. unfold setcfg. revert c. induction options as [|[d v] o IH]; intro c; cbn [fold_left]; auto. rewrite IH.
  unfold setcfg_one. cbn [fst snd]. destruct v; auto. destruct (reaches nested d p); auto. cbn [cset cget].
  destruct (path_eqb q p) eqn:E; auto. apply path_eqb_iff in E. congruence.
Qed.
Lemma setcfg_here {V} nested (options : list (string * option V)) c p : NoDup (map fst options) ->
  (forall d v, In (d, Some v) options -> reaches nested d p = true -> d = dest_of (flag nested p)) ->
  reaches nested (dest_of (flag nested p)) p = true ->
  cget (setcfg nested options c p) p = match ns_get options (dest_of (flag nested p)) with Some v => Some v | None => cget c p end.
Proof.
  set (D := dest_of (flag nested p)). intros Hnd Hu Hr. unfold setcfg. revert c Hnd Hu. induction options as [|[d v] o IH]; intros c Hnd Hu; cbn [fold_left ns_get]; auto.
  cbn [map fst] in Hnd. apply NoDup_cons_iff in Hnd. destruct Hnd as [Hn1 Hn2].
  rewrite IH; auto; [|intros; apply (Hu d0 v0); auto; now right].
  unfold setcfg_one. cbn [fst snd]. destruct (String.eqb_spec d D) as [->|N].
  - assert (ns_get o D = None) as ->.
    { clear -Hn1. clearbody D. induction o as [|[d w] o IH]; cbn [ns_get]; auto. destruct (String.eqb_spec d D) as [->|]; [exfalso; apply Hn1; now left|].
      apply IH. intro; apply Hn1. now right. }
    destruct v as [v|]; auto. rewrite Hr. cbn [cset cget]. now rewrite (proj2 (path_eqb_iff p p) eq_refl).
  - destruct (ns_get o D); auto. destruct v as [v|]; auto. destruct (reaches nested d p) eqn:E; auto.
    exfalso. apply N. eapply Hu; eauto. now left.
Qed.
(** [options]: what argparse gives for the flags of the options of [schema].  An option that is
    given has its value; the others, and everything else, are as before. *)
Theorem C34_command_line {V} nested (schema : list path) (options : list (string * option V)) c :
  good_nested nested -> (forall p, In p schema -> good_path p /\ no_under p) -> NoDup (map fst options) ->
  (forall d v, In (d, v) options -> exists p, In p schema /\ d = dest_of (flag nested p)) ->
  (forall p q, In p schema -> In q schema -> same_names p q -> p = q) ->
  forall p, cget (set_all nested options schema c) p =
    if existsb (path_eqb p) schema then
      match ns_get options (dest_of (flag nested p)) with Some v => Some v | None => cget c p end
    else cget c p.
Proof.
  intros Hn Hg Hnd Hd Hu.
  assert (H : forall todo c p, incl todo schema -> cget (set_all nested options todo c) p =
    if existsb (path_eqb p) todo then
      match ns_get options (dest_of (flag nested p)) with Some v => Some v | None => cget c p end
    else cget c p).
  { unfold set_all. induction todo as [|q todo IH]; intros c0 p Hi; cbn [fold_left existsb]; auto.
    rewrite IH by (intros x Hx; apply Hi; now right).
    destruct (path_eqb p q) eqn:E; cbn [orb].
    - apply path_eqb_iff in E. subst q. assert (Hp : In p schema) by (apply Hi; now left). destruct (Hg p Hp) as [Gp Np].
      assert (X : cget (setcfg nested options c0 p) p = match ns_get options (dest_of (flag nested p)) with Some v => Some v | None => cget c0 p end).
      { apply setcfg_here; auto using C34_roundtrip. intros d v Hin Hr. destruct (Hd d _ Hin) as (q & Hq & ->). destruct (Hg q Hq) as [Gq Nq].
        assert (same_names q p) by (apply (C34_unambiguous nested); auto). rewrite (Hu q p); auto. }
      rewrite X. destruct (existsb (path_eqb p) todo); auto. destruct (ns_get options (dest_of (flag nested p))); auto.
    - assert (q <> p) by (intros ->; rewrite (proj2 (path_eqb_iff p p) eq_refl) in E; discriminate).
      rewrite setcfg_other by auto. reflexivity. }
  intro p. apply H. apply incl_refl.
Qed.
(** The whole command line: an option that is given has the text given, or, for a boolean, the
    opposite of its default; a boolean that is not given has its default; the others are as before. *)
Theorem C34_given nested (schema : list (path * okind)) (given : path -> option string) c :
  good_nested nested -> (forall p, In p (map fst schema) -> good_path p /\ no_under p) -> NoDup (map fst schema) ->
  (forall p q, In p (map fst schema) -> In q (map fst schema) -> same_names p q -> p = q) ->
  forall p k, In (p, k) schema ->
    cget (set_all nested (map (fun e => (dest_of (flag nested (fst e)), parsed (snd e) (given (fst e)))) schema) (map fst schema) c) p =
    match given p, k with
    | Some _, KBool d => Some (OBool (negb d))
    | None, KBool d => Some (OBool d)
    | Some t, KStore => Some (OText t)
    | None, KStore => cget c p
    end.
Proof.
  intros Hn Hg Hnd Hu p k Hin.
  assert (Hinj : forall p q, In p (map fst schema) -> In q (map fst schema) -> dest_of (flag nested p) = dest_of (flag nested q) -> p = q).
  { intros a b Ha Hb E. apply Hu; auto. destruct (Hg a Ha) as [Ga Na]. destruct (Hg b Hb) as [Gb Nb].
    apply (C34_unambiguous nested); auto. right. rewrite E. now apply C34_roundtrip. }
  rewrite C34_command_line; auto.
  - assert (Hp : In p (map fst schema)) by (apply in_map_iff; now exists (p, k)).
    assert (existsb (path_eqb p) (map fst schema) = true) as -> by (apply existsb_exists; exists p; split; auto; now apply path_eqb_iff).
    assert (HG : ns_get (map (fun e => (dest_of (flag nested (fst e)), parsed (snd e) (given (fst e)))) schema) (dest_of (flag nested p)) = parsed k (given p)).
    { clear Hg Hu Hp. induction schema as [|[q kq] l IH]; [destruct Hin|]. cbn [map ns_get fst snd].
      destruct (String.eqb_spec (dest_of (flag nested q)) (dest_of (flag nested p))) as [E|E].
      - assert (q = p). { apply Hinj; auto; [now left|apply in_map_iff; now exists (p, k)]. } subst q.
        destruct Hin as [E'|Hin]; [now injection E' as ->|]. cbn [map fst] in Hnd. apply NoDup_cons_iff in Hnd.
        exfalso. apply (proj1 Hnd). apply in_map_iff. now exists (p, k).
      - destruct Hin as [E'|Hin]; [exfalso; apply E; now injection E' as -> _|]. apply IH; auto.
        + cbn [map] in Hnd. now apply NoDup_cons_iff in Hnd.
        + intros; apply Hinj; auto; now right. }
    rewrite HG. destruct (given p), k; reflexivity.
  - rewrite map_map. cbn [fst]. rewrite <- (map_map fst (fun q => dest_of (flag nested q))).
    clear -Hnd Hinj. induction (map fst schema) as [|a l IH]; [constructor|]. cbn [map]. apply NoDup_cons_iff in Hnd. destruct Hnd as [H1 H2].
    constructor.
    + rewrite in_map_iff. intros (b & E & Hb). apply H1. rewrite (Hinj a b); auto; [now left|now right].
    + apply IH; auto. intros; apply Hinj; auto; now right.
  - intros d v Hd. apply in_map_iff in Hd. destruct Hd as ([q kq] & E & Hq). injection E as <- _. exists q. split; auto.
    apply in_map_iff. now exists (q, kq).
Qed.

(** Paths of sections *)
Lemma sec_loop_eq n s acc : sec_loop n s acc = (acc ++ sec_loop n s [])%list.
Proof.
  revert s acc. induction n as [|n IH]; intros s acc; cbn [sec_loop]; [now rewrite app_nil_r|].
  rewrite IH, (IH (sparent s) ([] ++ [_])%list), app_assoc. reflexivity.
Qed.
Theorem C34_sec_names s : get_sec_names s = top_names s.
Proof.
  unfold get_sec_names. destruct s as [|n p]; cbn [depth]; auto.
  assert (H : forall p n, rev (sec_loop (depth p) (Sub n p) [n]) = (top_names p ++ [n])%list).
  { induction p0 as [|m q IH]; intro k; cbn [depth sec_loop]; auto. cbn [sparent sname].
    rewrite sec_loop_eq, rev_app_distr.
    assert (E : rev (sec_loop (depth q) (Sub m q) []) = top_names q).
    { specialize (IH m). rewrite sec_loop_eq, rev_app_distr in IH. now apply app_inj_tail in IH. }
    rewrite E. cbn [rev app top_names]. now rewrite <- app_assoc. }
  apply H.
Qed.
Lemma ancestors_eq s acc : rev (ancestors s acc) = (top_names s ++ rev acc)%list.
Proof.
  revert acc. induction s as [|n p IH]; intro acc; cbn [ancestors top_names]; auto.
  rewrite IH, rev_app_distr. cbn [rev app]. now rewrite <- app_assoc.
Qed.
Theorem C34_cfg_path s entry sep :
  get_cfg_path s entry sep = join sep (top_names s ++ match entry with Some e => [e] | None => [] end)%list.
Proof. unfold get_cfg_path. rewrite ancestors_eq. destruct entry; reflexivity. Qed.

(** *** Refutations and examples *)
(** Two options share a flag when names contain underscores. *)
Theorem C34_collision_refuted : exists p q, good_path p /\ good_path q /\ ~ same_names p q /\ flag None p = flag None q /\ flag None p = "a-b-c".
Proof.
  exists (mkpath ["a_b"] "c"), (mkpath ["a"] "b_c").
  assert (C : forall s, In s ["a"; "a_b"; "c"; "b_c"] -> clean s).
  { intros s Hs. split; [intros ->; simpl in Hs; intuition discriminate|]. intros c Hc.
    simpl in Hs. repeat (destruct Hs as [<-|Hs]; [repeat (apply has_char_cons in Hc; destruct Hc as [->|Hc]; [split; [discriminate|cbn; intuition discriminate]|]); exfalso; eapply has_char_nil; eauto|]). destruct Hs. }
  split; [|split; [|split; [|split]]]; try reflexivity.
  - split; [intros s [<-|[]]; apply C; simpl; auto|]. split; [apply C; simpl; auto|reflexivity].
  - split; [intros s [<-|[]]; apply C; simpl; auto|]. split; [apply C; simpl; auto 6|reflexivity].
  - unfold same_names, names. cbn. intro H. discriminate.
Qed.
(** An option whose name contains a space or a dash has a flag that is accepted and does nothing. *)
Theorem C34_lost_refuted : forall k, In k ["my opt"; "my-opt"] -> let p := mkpath ["sec"] k in
  flag None p = "sec-my-opt" /\
  cget (set_all None [(dest_of (flag None p), Some (OText "5"))] [p] []) p = None.
Proof. intros k [<-|[<-|[]]]; split; reflexivity. Qed.
(** So does any option in a nested configuration whose name has a capital. *)
Theorem C34_nested_refuted : let p := mkpath ["sec"] "opt" in good_path p /\
  cget (set_all (Some "Main") [(dest_of (flag (Some "Main") p), Some (OText "5"))] [p] []) p = None.
Proof.
  split; [|reflexivity]. assert (C : forall s, In s ["sec"; "opt"] -> clean s).
  { intros s Hs. split; [intros ->; simpl in Hs; intuition discriminate|]. intros c Hc.
    simpl in Hs. repeat (destruct Hs as [<-|Hs]; [repeat (apply has_char_cons in Hc; destruct Hc as [->|Hc]; [split; [discriminate|cbn; intuition discriminate]|]); exfalso; eapply has_char_nil; eauto|]). destruct Hs. }
  split; [intros s [<-|[]]; apply C; simpl; auto|]. split; [apply C; simpl; auto|reflexivity].
Qed.
(** A boolean that the user does not give on the command line overrides the configuration file. *)
Theorem C34_boolean_refuted : let p := mkpath ["sec"] "flag" in
  let from_file := cset [] p (OBool true) in
  cget (set_all None [(dest_of (flag None p), parsed (KBool false) None)] [p] from_file) p = Some (OBool false).
Proof. reflexivity. Qed.
Example ex_line : let p := mkpath ["Run"; "_out_"] "File" in let q := mkpath [] "verbose" in
  flag (Some "main") p = "main-run-out-file" /\
  let c := set_all (Some "main") [(dest_of (flag (Some "main") p), parsed KStore (Some "x.nc")); (dest_of (flag (Some "main") q), parsed KStore None)] [q; p] [(q, OText "1")] in
  cget c p = Some (OText "x.nc") /\ cget c q = Some (OText "1").
Proof. cbn zeta. repeat split; reflexivity. Qed.
Example ex_good : good_path (mkpath ["Run"; "_out_"] "File") /\ no_under (mkpath ["Run"; "_out_"] "File").
Proof.
  assert (C : forall s, In s ["Run"; "out"; "File"] -> clean s /\ ~ has_char under s).
  { intros s Hs. split; [split; [intros ->; simpl in Hs; intuition discriminate|]; intros c Hc|intro Hc]; simpl in Hs.
    - repeat (destruct Hs as [<-|Hs]; [repeat (apply has_char_cons in Hc; destruct Hc as [->|Hc]; [split; [discriminate|cbn; intuition discriminate]|]); exfalso; eapply has_char_nil; eauto|]). destruct Hs.
    - repeat (destruct Hs as [<-|Hs]; [repeat (apply has_char_cons in Hc; destruct Hc as [Hc|Hc]; [discriminate|]); eapply has_char_nil; eauto|]). destruct Hs. }
  split.
  - split; [intros s [<-|[<-|[]]]; apply C; vm_compute; auto|]. split; [apply C; simpl; auto|reflexivity].
  - intros s Hs. apply C. vm_compute in Hs. simpl. tauto.
Qed.
Example ex_path : get_cfg_path (Sub "b" (Sub "a" Root)) (Some "c") "::" = "a::b::c".
Proof. reflexivity. Qed.
