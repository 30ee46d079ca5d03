(** Regular expressions of Opt2Rst.v: what they match. *)
From Verif Require Import PyReFacts Opt2Rst Opt2RstSpec.
From Coq Require Import Lia.
Open Scope string_scope.

Inductive St (P : string -> Prop) : string -> Prop :=
| St0 : St P ""
| StS x y : x <> "" -> P x -> St P y -> St P (x ++ y).
Fixpoint L (r : rex) : string -> Prop :=
  match r with
  | Cls ok => fun s => exists c, ok c = true /\ s = String c ""
  | Eps => fun s => s = ""
  | Cat a b => fun s => exists x y, s = x ++ y /\ L a x /\ L b y
  | Alt a b => fun s => L a s \/ L b s
  | Rep a => St (L a)
  end.
Lemma glue_in x l a b : In (a, b) (glue x l) <-> exists y, a = x ++ y /\ In (y, b) l.
Proof.
  unfold glue. rewrite in_map_iff. split.
  - intros ((y & r) & E & H). cbn in E. injection E as <- <-. eauto.
  - intros (y & -> & H). exists (y, b). auto.
Qed.
Lemma St_inv P s : St P s -> s <> "" -> exists x y, s = x ++ y /\ x <> "" /\ P x /\ St P y.
Proof. destruct 1; [congruence|eauto 10]. Qed.
Lemma star_iff w P : (forall s x y, In (x, y) (w s) <-> s = x ++ y /\ P x) ->
  forall n s, (String.length s <= n)%nat -> forall a b, In (a, b) (star w n s) <-> s = a ++ b /\ St P a.
Proof.
  intro Hw. induction n as [|n IH]; intros s Hn a b.
  - destruct s; [|cbn in Hn; lia]. cbn. split.
    + intros [E|[]]. injection E as <- <-. split; [reflexivity|constructor].
    + intros [E _]. destruct a; [|discriminate]. cbn in E. subst. auto.
  - cbn [star]. rewrite in_app_iff, in_flat_map. split.
    + intros [((x & r) & Hx & H)|[E|[]]].
      * cbn [fst snd] in H. destruct (nonempty x) eqn:Nx; [|destruct H]. apply glue_in in H. destruct H as (y & -> & H). apply Hw in Hx. destruct Hx as [-> Px].
        apply IH in H; [|rewrite slen_app in Hn; apply nonempty_len in Nx; lia]. destruct H as [-> Hy]. split; [now rewrite sapp_assoc|]. constructor; auto. now apply nonempty_iff.
      * injection E as <- <-. split; [reflexivity|constructor].
    + intros [-> H]. destruct a as [|c a].
      * right. left. reflexivity.
      * left. destruct (St_inv _ _ H ltac:(discriminate)) as (x & y & Ea & Nx & Px & Hy). rewrite Ea in *. exists (x, y ++ b). cbn [fst snd]. split; [apply Hw; rewrite sapp_assoc; auto|].
        apply nonempty_iff in Nx. rewrite Nx. apply glue_in. exists y. split; auto. apply IH; auto. apply nonempty_len in Nx. rewrite !slen_app in *. lia.
Qed.
Lemma ways_iff r : forall s a b, In (a, b) (ways r s) <-> s = a ++ b /\ L r a.
Proof.
  induction r as [ok| |r1 IH1 r2 IH2|r1 IH1 r2 IH2|r IH]; intros s a b; cbn [ways L].
  - destruct s as [|c s].
    + cbn. split; [tauto|]. intros [E (c & _ & ->)]. discriminate.
    + destruct (ok c) eqn:O; cbn; split; try tauto.
      * intros [E|[]]. injection E as <- <-. split; eauto.
      * intros [E (d & _ & ->)]. cbn in E. injection E as -> ->. auto.
      * intros [E (d & D & ->)]. cbn in E. injection E as -> ->. congruence.
  - cbn. split.
    + intros [E|[]]. injection E as <- <-. auto.
    + intros [-> ->]. auto.
  - rewrite in_flat_map. split.
    + intros ((x & t) & Hx & H). cbn [fst snd] in H. apply glue_in in H. destruct H as (y & -> & H). apply IH1 in Hx. apply IH2 in H. destruct Hx as [-> Lx], H as [-> Ly].
      split; [now rewrite sapp_assoc|eauto].
    + intros [-> (x & y & -> & Lx & Ly)]. exists (x, y ++ b). split; [apply IH1; now rewrite sapp_assoc|]. cbn [fst snd]. apply glue_in. exists y. split; auto. now apply IH2.
  - rewrite in_app_iff, IH1, IH2. tauto.
  - apply star_iff; auto.
Qed.
(** ** Classes *)
Lemma has_cons ok c s : has ok (String c s) <-> ok c = true /\ all_chars ok s = true.
Proof. unfold has. cbn. rewrite andb_true_iff. split; [tauto|]. split; [discriminate|tauto]. Qed.
Lemma St_cls ok s : St (L (Cls ok)) s <-> all_chars ok s = true.
Proof.
  split.
  - induction 1 as [|x y Nx (c & Hc & ->) Hy IH]; [reflexivity|]. cbn. now rewrite Hc, IH.
  - induction s as [|c s IH]; intro H; [constructor|]. cbn in H. apply andb_true_iff in H. destruct H. change (String c s) with (String c "" ++ s).
    constructor; [discriminate| |auto]. exists c. auto.
Qed.
Lemma L_plus ok s : L (plus ok) s <-> has ok s.
Proof.
  unfold plus. cbn [L]. split.
  - intros (x & y & -> & (c & Hc & ->) & H). apply St_cls in H. cbn. now apply has_cons.
  - destruct s as [|c s]; [now intros []|]. intro H. apply has_cons in H. exists (String c ""), s. split; auto. split; [exists c; tauto|apply St_cls; tauto].
Qed.
Lemma L_chr c s : L (chr c) s <-> s = String c "".
Proof.
  cbn. split.
  - intros (d & H & ->). apply Ascii.eqb_eq in H. now subst.
  - intros ->. exists c. split; auto. apply Ascii.eqb_refl.
Qed.
Lemma L_param p : L s_param p <-> metavar p.
Proof.
  unfold s_param. cbn [L]. fold (L (chr "{")). split.
  - intros [(x & y & -> & Hx & z & t & -> & Hz & Ht)|H].
    + right. apply L_chr in Hx, Ht. apply L_plus in Hz. subst. exists z. split; auto.
    + left. now apply L_plus.
  - intros [H|(w & -> & H)]; [right; now apply L_plus|left].
    exists "{", (w ++ "}"). split; auto. split; [now apply L_chr|]. exists w, "}". split; auto. split; [now apply L_plus|now apply L_chr].
Qed.
Lemma L_sopt s : L s_sopt s <-> exists w t, s = "-" ++ w ++ t /\ has is_word w /\ (t = "" \/ exists p, t = " " ++ p /\ metavar p).
Proof.
  unfold s_sopt. cbn [L]. fold L. split.
  - intros (x & y & -> & Hx & w & t & -> & Hw & Ht). apply L_chr in Hx. apply L_plus in Hw. subst. exists w, t. split; auto. split; auto.
    destruct Ht as [(u & p & -> & Hu & Hp)|Ht]; [right|left; exact Ht]. apply L_chr in Hu. apply L_param in Hp. subst. eauto.
  - intros (w & t & -> & Hw & Ht). exists "-", (w ++ t). split; auto. split; [now apply L_chr|]. exists w, t. split; auto. split; [now apply L_plus|].
    destruct Ht as [->|(p & -> & Hp)]; [now right|left]. exists " ", p. split; auto. split; [now apply L_chr|now apply L_param].
Qed.
Lemma L_lopt s : L s_lopt s <-> exists w t, s = "--" ++ w ++ t /\ has word_dash w /\ (t = "" \/ exists e p, t = e ++ p /\ has eq_space e /\ metavar p).
Proof.
  unfold s_lopt. cbn [L]. fold L. split.
  - intros (x & y & -> & Hx & x' & y' & -> & Hx' & w & t & -> & Hw & Ht). apply L_chr in Hx, Hx'. apply L_plus in Hw. subst. exists w, t. split; auto. split; auto.
    destruct Ht as [(u & p & -> & Hu & Hp)|Ht]; [right|left; exact Ht]. apply L_plus in Hu. apply L_param in Hp. subst. eauto.
  - intros (w & t & -> & Hw & Ht). exists "-", ("-" ++ w ++ t). split; auto. split; [now apply L_chr|]. exists "-", (w ++ t). split; auto. split; [now apply L_chr|]. exists w, t. split; auto. split; [now apply L_plus|].
    destruct Ht as [->|(e & p & -> & He & Hp)]; [now right|left]. exists e, p. split; auto. split; [now apply L_plus|now apply L_param].
Qed.
Definition form (o : string) : Prop := L s_sopt o \/ L s_lopt o.
Definition sep_form (x : string) : Prop := exists sp o, x = "," ++ sp ++ o /\ has (Ascii.eqb " ") sp /\ form o.
Lemma St_ext (P Q : string -> Prop) s : (forall x, P x -> Q x) -> St P s -> St Q s.
Proof. intros H. induction 1; constructor; auto. Qed.
Lemma L_opts g : L s_opts g <-> exists o r, g = o ++ r /\ form o /\ St sep_form r.
Proof.
  assert (A : forall x, L (Cat s_optsep (Alt s_sopt s_lopt)) x <-> sep_form x).
  { intro x. unfold sep_form, form. cbn [L]. fold L. split.
    - intros (y & o & -> & (u & sp & -> & Hu & Hs) & Ho). apply L_chr in Hu. apply L_plus in Hs. subst. exists sp, o. rewrite <- sapp_assoc. auto.
    - intros (sp & o & -> & Hs & Ho). exists ("," ++ sp), o. rewrite sapp_assoc. split; auto. split; auto. exists ",", sp. split; auto. split; [now apply L_chr|now apply L_plus]. }
  unfold s_opts. cbn [L]. fold L. split; intros (o & r & -> & Ho & Hr); exists o, r; (split; [reflexivity|]; split; [exact Ho|]); (eapply St_ext; [|exact Hr]); intros x Hx; now apply A.
Qed.
(** ** First and last characters, double spaces *)
Definition firstc (s : string) : option ascii := match s with String c _ => Some c | "" => None end.
Fixpoint lastc (s : string) : option ascii := match s with "" => None | String c "" => Some c | String _ r => lastc r end.
Definition sp (o : option ascii) : bool := match o with Some c => Ascii.eqb c " " | None => false end.
Fixpoint dbl (s : string) : bool := match s with "" => false | String c r => (Ascii.eqb c " " && sp (firstc r)) || dbl r end.
Lemma lastc_cons c s : s <> "" -> lastc (String c s) = lastc s.
Proof. destruct s; [congruence|reflexivity]. Qed.
Lemma lastc_app a b : b <> "" -> lastc (a ++ b) = lastc b.
Proof.
  intro N. induction a as [|c a IH]; [reflexivity|]. cbn [append]. rewrite lastc_cons, IH; auto. destruct a; auto. discriminate.
Qed.
Lemma lastc_in ok s c : all_chars ok s = true -> lastc s = Some c -> ok c = true.
Proof.
  induction s as [|d s IH]; [discriminate|]. cbn [all_chars]. intros H E. apply andb_true_iff in H. destruct H as [H1 H2]. destruct s as [|e s]; [cbn in E; congruence|]. apply IH; auto.
Qed.
Lemma lastc_some s : s <> "" -> exists c, lastc s = Some c.
Proof. intro N. induction s as [|c s IH]; [congruence|]. destruct s as [|d s]; [cbn; eauto|]. apply IH. discriminate. Qed.
Lemma firstc_app a b : a <> "" -> firstc (a ++ b) = firstc a.
Proof. destruct a; [congruence|reflexivity]. Qed.
Lemma dbl_app a b : dbl (a ++ b) = dbl a || dbl b || (sp (lastc a) && sp (firstc b)).
Proof.
  induction a as [|c a IH]; [cbn; now rewrite orb_false_r|]. cbn [append dbl]. rewrite IH. destruct a as [|d a].
  - cbn. destruct (Ascii.eqb c " "), (sp (firstc b)), (dbl b); reflexivity.
  - rewrite (lastc_cons c (String d a)) by discriminate. cbn [append firstc]. destruct (Ascii.eqb c " " && sp (Some d)), (dbl (String d a)), (dbl b), (sp (lastc (String d a)) && sp (firstc b)); reflexivity.
Qed.
Lemma dbl_gap u v : dbl (u ++ "  " ++ v) = true.
Proof. rewrite dbl_app. cbn. destruct (dbl u), (dbl v); cbn; auto. Qed.
Lemma dbl_none ok s : ok " "%char = false -> all_chars ok s = true -> dbl s = false.
Proof.
  intros N. induction s as [|c s IH]; auto. cbn [all_chars dbl]. intro H. apply andb_true_iff in H. destruct H as [H1 H2]. rewrite IH by auto.
  destruct (Ascii.eqb_spec c " ") as [->|]; [congruence|reflexivity].
Qed.
Lemma sp_last ok s : ok " "%char = false -> all_chars ok s = true -> sp (lastc s) = false.
Proof.
  intros N H. destruct s as [|d s]; [reflexivity|]. destruct (lastc_some (String d s) ltac:(discriminate)) as [c E]. rewrite E. cbn.
  destruct (Ascii.eqb_spec c " ") as [->|]; auto. apply (lastc_in ok) in E; congruence.
Qed.
Lemma all_app ok a b : all_chars ok (a ++ b) = true <-> all_chars ok a = true /\ all_chars ok b = true.
Proof. rewrite all_chars_app. apply andb_true_iff. Qed.
(** A metavariable: no space, nonempty, its last character *)
Definition good_last (s : string) : Prop := exists c, lastc s = Some c /\ c <> ","%char /\ c <> " "%char /\ c <> "="%char.
Definition param_char (c : ascii) : bool := is_word c || Ascii.eqb c "," || Ascii.eqb c "{" || Ascii.eqb c "}".
Lemma metavar_chars p : metavar p -> p <> "" /\ all_chars param_char p = true /\ good_last p.
Proof.
  assert (W : forall c, is_word c = true -> param_char c = true /\ c <> ","%char /\ c <> " "%char /\ c <> "="%char).
  { intros c H. unfold param_char. rewrite H. repeat split; intros ->; discriminate. }
  intros [[N H]|(w & -> & N & H)].
  - split; auto. split; [eapply all_chars_mono; [|exact H]; intros c Hc; now apply W|]. destruct (lastc_some p N) as [c E]. exists c. split; auto. apply W. eapply lastc_in; eauto.
  - split; [discriminate|]. split.
    + cbn. apply all_app. split; [|reflexivity]. eapply all_chars_mono; [|exact H]. intros c Hc. unfold param_char. cbv beta in Hc. now rewrite Hc.
    + exists "}"%char. split; [|repeat split; discriminate]. change (String "{" (w ++ "}")) with ("{" ++ (w ++ "}")). rewrite lastc_app by (destruct w; discriminate). now rewrite lastc_app.
Qed.
Lemma form_shape o : form o -> o <> "" /\ firstc o = Some "-"%char /\ good_last o.
Proof.
  assert (GW : forall (ok : ascii -> bool) s, ok ","%char = false -> ok " "%char = false -> ok "="%char = false -> has ok s -> good_last s).
  { intros ok s H1 H2 H3 [N H]. destruct (lastc_some s N) as [c E]. exists c. split; auto. assert (O := lastc_in ok s c H E). repeat split; intros ->; congruence. }
  intros [H|H].
  - apply L_sopt in H. destruct H as (w & t & -> & Hw & Ht). split; [discriminate|]. split; [reflexivity|].
    destruct Ht as [->|(p & -> & Hp)].
    + rewrite sapp_nil_r. destruct (GW is_word w eq_refl eq_refl eq_refl Hw) as (c & E & X). exists c. split; auto. rewrite lastc_app; auto. apply Hw.
    + destruct (metavar_chars p Hp) as (N & _ & c & E & X). exists c. split; auto. rewrite lastc_app, lastc_app, lastc_app; auto; destruct p; try congruence; try discriminate; destruct w; discriminate.
  - apply L_lopt in H. destruct H as (w & t & -> & Hw & Ht). split; [discriminate|]. split; [reflexivity|].
    destruct Ht as [->|(e & p & -> & He & Hp)].
    + rewrite sapp_nil_r. destruct (GW word_dash w eq_refl eq_refl eq_refl Hw) as (c & E & X). exists c. split; auto. rewrite lastc_app; auto. apply Hw.
    + destruct (metavar_chars p Hp) as (N & _ & c & E & X). exists c. split; auto. rewrite lastc_app, lastc_app, lastc_app; auto; destruct p; try congruence; destruct e; try discriminate; destruct w; discriminate.
Qed.
(** ** After a double space inside the options: a metavariable *)
Lemma sapp_cases (a b c d : string) : a ++ b = c ++ d -> (exists m, c = a ++ m /\ b = m ++ d) \/ (exists m, m <> "" /\ a = c ++ m /\ d = m ++ b).
Proof.
  intro E. destruct (Nat.le_gt_cases (String.length a) (String.length c)) as [H|H]; [left; now apply sapp_split|].
  right. symmetry in E. destruct (sapp_split _ _ _ _ E ltac:(lia)) as (m & -> & ->). exists m. split; auto. intros ->. rewrite sapp_nil_r in H. lia.
Qed.
Lemma gap_in_form o u m : form o -> o = u ++ "  " ++ m -> good_last u -> exists e p, m = e ++ p /\ all_chars eq_space e = true /\ metavar p.
Proof.
  intros Ho E Gu. assert (D : dbl o = true) by (rewrite E; apply dbl_gap).
  assert (WD : forall s, all_chars is_word s = true -> dbl s = false /\ sp (lastc s) = false) by (intros s H; split; [eapply dbl_none|eapply sp_last]; eauto; reflexivity).
  assert (WL : forall s, all_chars word_dash s = true -> dbl s = false /\ sp (lastc s) = false) by (intros s H; split; [eapply dbl_none|eapply sp_last]; eauto; reflexivity).
  assert (PM : forall p, metavar p -> dbl p = false /\ sp (firstc p) = false).
  { intros p Hp. destruct (metavar_chars p Hp) as (N & H & _). split; [eapply dbl_none; eauto; reflexivity|]. destruct p as [|c p]; [reflexivity|]. cbn in *. apply andb_true_iff in H. destruct H as [H _].
    destruct (Ascii.eqb_spec c " ") as [->|]; [discriminate|reflexivity]. }
  destruct Ho as [H|H].
  - exfalso. apply L_sopt in H. destruct H as (w & t & Eo & [Nw Hw] & Ht). rewrite Eo in D. destruct (WD w Hw) as [D1 S1].
    destruct Ht as [->|(p & -> & Hp)].
    + rewrite sapp_nil_r in D. rewrite dbl_app, D1 in D. cbn in D. discriminate.
    + destruct (PM p Hp) as [D2 S2]. rewrite dbl_app, dbl_app, (dbl_app " " p), D1, D2, S1 in D. cbn in D. rewrite S2 in D. discriminate.
  - apply L_lopt in H. destruct H as (w & t & Eo & [Nw Hw] & Ht). destruct (WL w Hw) as [D1 S1]. destruct Ht as [->|(e & p & -> & He & Hp)].
    { exfalso. rewrite Eo, sapp_nil_r, dbl_app, D1 in D. cbn in D. discriminate. }
    destruct (PM p Hp) as [D2 S2]. rewrite Eo in E. rewrite <- sapp_assoc in E.
    destruct (sapp_cases _ _ _ _ E) as [(m2 & Eu & E2)|(m2 & Nm & Eu & E2)].
    + (* u is not shorter than --w *)
      destruct m2 as [|c2 m2].
      * cbn [append] in E2. destruct e as [|c1 [|c2 e]].
        -- exfalso. now destruct He.
        -- exfalso. injection E2 as -> E2. subst p. discriminate.
        -- injection E2 as -> -> E2. exists e, p. split; auto. split; auto. destruct He as [_ He]. cbn in He. exact He.
      * exfalso. destruct Gu as (c & Ec & G). destruct (sapp_cases _ _ _ _ E2) as [(m3 & E3 & E4)|(m3 & N3 & E3 & E4)].
        -- (* the class of = and spaces ends before the gap *)
           rewrite E4 in D2. rewrite dbl_gap in D2. discriminate.
        -- rewrite Eu, lastc_app in Ec by discriminate. assert (eq_space c = true). { eapply lastc_in; [|exact Ec]. destruct He as [_ He]. rewrite E3 in He. now apply all_app in He. }
           unfold eq_space in H. apply orb_true_iff in H. destruct H as [H|H]; apply Ascii.eqb_eq in H; subst; tauto.
    + exfalso. destruct m2 as [|c2 m2]; [congruence|]. cbn [append] in E2. injection E2 as <- E2.
      assert (X : all_chars word_dash ("--" ++ w) = true) by (cbn; exact Hw). rewrite Eu in X. apply all_app in X. destruct X as [_ X]. discriminate.
Qed.
Lemma after_gap r : St sep_form r -> forall o u t, form o -> o ++ r = u ++ "  " ++ t -> good_last u ->
  exists e p v, t = e ++ p ++ v /\ all_chars eq_space e = true /\ metavar p /\
    (v = "" \/ exists s x, v = "," ++ s ++ String "-" x /\ has (Ascii.eqb " ") s).
Proof.
  intro Hr. assert (Hv : r = "" \/ exists s x, r = "," ++ s ++ String "-" x /\ has (Ascii.eqb " ") s).
  { destruct Hr as [|x y Nx (s & o2 & -> & Hs & Ho2) Hy]; [now left|right]. destruct (form_shape o2 Ho2) as (N & F & _). destruct o2 as [|c o2]; [congruence|]. cbn in F. injection F as ->.
    exists s, (o2 ++ y). split; auto. now rewrite !sapp_assoc. }
  revert Hv. induction Hr as [|x y Nx (s & o2 & -> & Hs & Ho2) Hy IH]; intros Hv o u t Ho E Gu.
  - rewrite sapp_nil_r in E. destruct (gap_in_form o u t Ho E Gu) as (e & p & -> & He & Hp). exists e, p, "". rewrite sapp_nil_r. auto.
  - destruct (form_shape o Ho) as (_ & _ & c & Ec & G). destruct (sapp_cases _ _ _ _ E) as [(m & Eu & E2)|(m & Nm & Eo & E2)].
    + destruct Gu as (d & Ed & Gd). destruct m as [|b m]; [discriminate|]. cbn [append] in E2. injection E2 as <- E2. rewrite !sapp_assoc in E2.
      rewrite Eu, lastc_app in Ed by discriminate. destruct Hs as [Ns Hs].
      destruct (sapp_cases _ _ _ _ E2) as [(m3 & E3 & E4)|(m3 & N3 & E3 & E4)].
      * destruct m3 as [|b3 m3].
        -- exfalso. rewrite sapp_nil_r in E3. subst m. destruct (lastc_some s Ns) as [a Ea]. rewrite lastc_cons in Ed by auto. rewrite Ea in Ed. injection Ed as <-.
           assert (X := lastc_in _ _ _ Hs Ea). apply Ascii.eqb_eq in X. subst. tauto.
        -- destruct (IH) with (o := o2) (u := String b3 m3) (t := t) as (e & p & v & R); auto.
           ++ destruct Hy as [|x' y' Nx' (s' & o2' & -> & Hs' & Ho2') Hy']; [now left|right]. destruct (form_shape o2' Ho2') as (N & F & _). destruct o2' as [|c' o2']; [congruence|]. cbn in F. injection F as ->.
              exists s', (o2' ++ y'). split; auto. now rewrite !sapp_assoc.
           ++ exists d. split; auto. rewrite E3 in Ed. rewrite lastc_cons in Ed by (destruct s; discriminate). now rewrite lastc_app in Ed by discriminate.
           ++ exists e, p, v. exact R.
      * exfalso. destruct m as [|bm m].
        -- cbn in Ed. injection Ed as <-. tauto.
        -- rewrite lastc_cons in Ed by discriminate. assert (X : Ascii.eqb " " d = true). { eapply lastc_in; [|exact Ed]. rewrite E3 in Hs. now apply all_app in Hs. } apply Ascii.eqb_eq in X. subst. tauto.
    + destruct m as [|b1 [|b2 m]]; [congruence| |].
      * exfalso. cbn in E2. injection E2 as <- _. rewrite Eo, lastc_app in Ec by discriminate. cbn in Ec. injection Ec as <-. tauto.
      * cbn [append] in E2. injection E2 as <- <- E2. destruct (gap_in_form o u m Ho Eo Gu) as (e & p & -> & He & Hp). exists e, p, (("," ++ s ++ o2) ++ y). rewrite E2, sapp_assoc. auto.
Qed.
