(** C81: the conversion of a help text to rst (xoa.cfgm.opt2rst). *)
From Verif Require Import PyReFacts MiscFacts Opt2Rst Opt2RstSpec Opt2RstProofs ValScalar.
From Coq Require Import Lia.
Open Scope string_scope.

(** ** Lines *)
Lemma split_line cur l : one_line l -> forall t, splitlines_from cur (l ++ nl ++ t) = (cur ++ l) :: splitlines t.
Proof.
  revert cur. induction l as [|c l IH]; intros cur H t.
  - cbn. now rewrite sapp_nil_r.
  - unfold one_line in H. cbn [all_chars] in H. apply andb_true_iff in H. destruct H as [Hc H]. cbn [append splitlines_from].
    destruct (Ascii.eqb_spec c (ascii_of_nat 10)) as [->|N]; [discriminate|].
    change (String (ascii_of_nat 10) ("" ++ t)) with (nl ++ t). rewrite IH by exact H. f_equal. rewrite sapp_assoc. reflexivity.
Qed.
Lemma split_text lines : Forall one_line lines -> splitlines (text_of lines) = lines.
Proof.
  induction 1 as [|l ls H _ IH]; [reflexivity|]. change (text_of (l :: ls)) with (l ++ nl ++ text_of ls). unfold splitlines. rewrite split_line by auto. cbn [append]. now rewrite IH.
Qed.
Lemma join_joined l : join_with newline l = joined l.
Proof. induction l as [|x [|y l] IH]; auto. cbn [join_with joined]. cbn [join_with] in IH. rewrite IH. reflexivity. Qed.
(** ** Section titles *)
Lemma at_colon_iff s a r : at_colon s = Some (a, r) <-> s = a ++ ":" ++ r /\ all_chars (fun c => negb (Ascii.eqb c ":")) a = true.
Proof.
  revert a r. induction s as [|c s IH]; intros a r; cbn [at_colon].
  - split; [discriminate|]. intros [E _]. destruct a; discriminate.
  - destruct (Ascii.eqb_spec c ":") as [->|N].
    + split.
      * intro E. injection E as <- <-. auto.
      * intros [E H]. destruct a as [|d a]; cbn in E; [now injection E as <-|]. injection E as <- E. discriminate.
    + split.
      * destruct (at_colon s) as [[a' r']|] eqn:E; [|discriminate]. intro X. injection X as <- <-. destruct (proj1 (IH a' r') eq_refl) as [-> H]. split; auto.
        cbn. apply Ascii.eqb_neq in N. now rewrite N.
      * intros [E H]. destruct a as [|d a]; cbn in E; [now injection E as E1 _|]. injection E as <- E. cbn in H. apply andb_true_iff in H. now rewrite (proj2 (IH a r) (conj E (proj2 H))).
Qed.
Lemma word_space_no_colon a : all_chars word_space a = true -> all_chars (fun c => negb (Ascii.eqb c ":")) a = true.
Proof. apply all_chars_mono. intros c H. destruct (Ascii.eqb_spec c ":") as [->|]; [discriminate|reflexivity]. Qed.
Lemma endswith_iff s x : endswith s x = true <-> exists t, s = t ++ x.
Proof.
  assert (D : forall n t u, n = String.length t -> sdrop n (t ++ u) = u) by (intros n t; revert n; induction t as [|c t IH]; intros n u ->; auto; cbn; auto).
  assert (T : forall n s, (n <= String.length s)%nat -> exists t, s = t ++ sdrop n s /\ String.length t = n).
  { clear. induction n as [|n IH]; intros s H; [exists ""; auto|]. destruct s as [|c s]; [cbn in H; lia|]. cbn in H. destruct (IH s ltac:(lia)) as (t & E & L). exists (String c t). cbn. split; congruence. }
  unfold endswith. rewrite andb_true_iff, Nat.leb_le, String.eqb_eq. split.
  - intros [H E]. destruct (T (String.length s - String.length x)%nat s ltac:(lia)) as (t & E2 & _). exists t. congruence.
  - intros [t ->]. rewrite slen_app. split; [lia|]. apply D. lia.
Qed.
Lemma title_iff line : section_title line <-> exists a g, re_sec line = Some (a, g) /\ endswith (lower line) "ex:" = false.
Proof.
  assert (X : (forall t, lower line <> t ++ "ex:") <-> endswith (lower line) "ex:" = false).
  { split.
    - intro H. destruct (endswith (lower line) "ex:") eqn:E; auto. apply endswith_iff in E. destruct E as [t E]. now apply H in E.
    - intros H t E. assert (endswith (lower line) "ex:" = true) by (apply endswith_iff; eauto). congruence. }
  unfold section_title, re_sec. split.
  - intros (a & r & El & [Na Ha] & Hr & He). apply (proj1 X) in He. assert (C : at_colon line = Some (a, r)) by (apply at_colon_iff; split; auto; now apply word_space_no_colon).
    rewrite C. apply nonempty_iff in Na. rewrite Na. change (all_chars word_space a = true) in Ha. rewrite Ha. cbn [andb].
    destruct Hr as [->|(d & Nd & ->)]; [eauto|]. cbn [append]. apply nonempty_iff in Nd. rewrite Nd. cbn. eauto.
  - intros (a & g & E & He). assert (He2 := proj2 X He). clear He. rename He2 into He. destruct (at_colon line) as [[a' r]|] eqn:C; [|discriminate]. apply at_colon_iff in C. destruct C as [El _].
    destruct (nonempty a' && all_chars word_space a') eqn:Ea; [|discriminate]. apply andb_true_iff in Ea. destruct Ea as [Na Ha]. apply nonempty_iff in Na.
    exists a', r. split; auto. split; [split; auto|]. split; auto. destruct r as [|c d]; [auto|right]. destruct (Ascii.eqb_spec c " ") as [->|]; [|discriminate]. cbn in E.
    destruct (nonempty d) eqn:Nd; [|discriminate]. apply nonempty_iff in Nd. exists d. auto.
Qed.
Lemma step_other locals_ f dn s line : ~ section_title line -> step locals_ f dn s line = other_line locals_ f dn s line.
Proof.
  intro N. unfold step. destruct (re_sec line) as [[a g]|] eqn:E; auto. destruct (endswith (lower line) "ex:") eqn:X; auto. destruct N. apply title_iff. eauto.
Qed.
Lemma step_title locals_ f dn s line : section_title line -> exists a g, step locals_ f dn s line = section_line locals_ f s a g.
Proof. intro T. apply title_iff in T. destruct T as (a & g & E & X). exists a, g. unfold step. now rewrite E, X. Qed.
(** ** Options *)
Lemma span_unique ok a b a' b' : all_chars ok a = true -> all_chars ok a' = true ->
  (forall c, firstc b = Some c -> ok c = false) -> (forall c, firstc b' = Some c -> ok c = false) -> a ++ b = a' ++ b' -> a = a' /\ b = b'.
Proof.
  revert a'. induction a as [|c a IH]; intros a' Ha Ha' Hb Hb' E; destruct a' as [|c' a'].
  - auto.
  - cbn in *. apply andb_true_iff in Ha'. rewrite E in Hb. specialize (Hb c' eq_refl). destruct Ha'. congruence.
  - cbn in *. apply andb_true_iff in Ha. rewrite <- E in Hb'. specialize (Hb' c eq_refl). destruct Ha. congruence.
  - cbn in *. apply andb_true_iff in Ha, Ha'. injection E as <- E. destruct (IH a') as [-> ->]; tauto.
Qed.
Lemma option_form o : option_text o -> form o /\ dbl o = false.
Proof.
  assert (P : forall p, metavar p -> dbl p = false /\ sp (firstc p) = false).
  { intros p Hp. destruct (metavar_chars p Hp) as (N & H & _). split; [eapply dbl_none; eauto; reflexivity|]. destruct p as [|c p]; [reflexivity|]. cbn in *. apply andb_true_iff in H. destruct H as [H _].
    destruct (Ascii.eqb_spec c " ") as [->|]; [discriminate|reflexivity]. }
  intros [w [Nw Hw]|w p [Nw Hw] Hp|w [Nw Hw]|w c p [Nw Hw] Hp Hc].
  - split; [left; apply L_sopt; exists w, ""; rewrite sapp_nil_r; split; auto; split; [split|]; auto|]. rewrite dbl_app, (dbl_none is_word w eq_refl Hw). reflexivity.
  - split; [left; apply L_sopt; exists w, (" " ++ p); split; auto; split; [split|]; eauto|]. destruct (P p Hp) as [D S].
    rewrite dbl_app, dbl_app, (dbl_app " " p), (dbl_none is_word w eq_refl Hw), (sp_last is_word w eq_refl Hw), D. cbn. now rewrite S.
  - split; [right; apply L_lopt; exists w, ""; rewrite sapp_nil_r; split; auto; split; [split|]; auto|]. rewrite dbl_app, (dbl_none word_dash w eq_refl Hw). reflexivity.
  - split.
    + right. apply L_lopt. exists w, (String c p). split; auto. split; [split; auto|]. right. exists (String c ""), p. split; auto. split; auto. split; [discriminate|]. destruct Hc as [->| ->]; reflexivity.
    + destruct (P p Hp) as [D S]. change (String c p) with (String c "" ++ p). rewrite dbl_app, dbl_app, (dbl_app (String c "") p), (dbl_none word_dash w eq_refl Hw), (sp_last word_dash w eq_refl Hw), D. cbn. rewrite S.
      now rewrite !andb_false_r.
Qed.
Definition matched (g : string) : Prop := exists o r, g = o ++ r /\ form o /\ St sep_form r.
Lemma options_form g : options_text g -> matched g /\ dbl g = false /\ firstc g = Some "-"%char.
Proof.
  induction 1 as [o Ho|o r Ho Hr (M & D & F)].
  - destruct (option_form o Ho) as [Fo D]. split; [|split; auto; now apply form_shape]. exists o, "". rewrite sapp_nil_r. split; auto. split; auto. constructor.
  - destruct (option_form o Ho) as [Fo Do]. destruct (form_shape o Fo) as (No & Fi & c & El & G). split; [|split].
    + destruct M as (o' & r' & -> & Fo' & Hr'). exists o, (", " ++ o' ++ r'). split; auto. split; auto. change (", " ++ o' ++ r') with ("," ++ " " ++ o' ++ r').
      replace ("," ++ " " ++ o' ++ r') with (("," ++ " " ++ o') ++ r') by reflexivity. constructor; [discriminate| |auto]. exists " ", o'. split; auto. split; auto. split; [discriminate|reflexivity].
    + rewrite dbl_app, Do, (dbl_app ", " r), D, F. cbn. now rewrite andb_false_r.
    + rewrite firstc_app; auto.
Qed.
Lemma matched_last g : matched g -> g <> "" /\ firstc g = Some "-"%char /\ good_last g.
Proof.
  intros (o & r & -> & Fo & Hr). destruct (form_shape o Fo) as (No & Fi & G). split; [destruct o; [congruence|discriminate]|]. split; [now rewrite firstc_app|].
  clear Fo No Fi. revert o G. induction Hr as [|x y Nx (s & o2 & -> & _ & F2) _ IH]; intros o G; [now rewrite sapp_nil_r|].
  rewrite <- sapp_assoc. apply IH. destruct (form_shape o2 F2) as (N2 & _ & c & E & Gc). exists c. split; auto. rewrite lastc_app by discriminate. rewrite lastc_app by (destruct s; [|discriminate]; exact N2). now rewrite lastc_app.
Qed.
Lemma L_prefix p : L s_prefix p <-> indent p.
Proof.
  unfold s_prefix, indent. cbn [L]. fold L. split.
  - intros (x & y & -> & Hx & z & t & -> & Hz & Ht). apply L_chr in Hx, Hz. subst. destruct Ht as [(u & v & -> & Hu & Hv)| ->]; [apply L_chr in Hu, Hv; subst|]; auto.
  - intros [->| ->].
    + exists " ", " ". split; auto. split; [now apply L_chr|]. exists " ", "". split; auto. split; [now apply L_chr|now right].
    + exists " ", "   ". split; auto. split; [now apply L_chr|]. exists " ", "  ". split; auto. split; [now apply L_chr|]. left. exists " ", " ". split; auto. split; now apply L_chr.
Qed.
Lemma tail_iff r d : In d (s_tail r) <-> (d = None /\ r = "") \/ exists x, d = Some x /\ r = "  " ++ x /\ x <> "".
Proof.
  destruct r as [|a [|b t]]; cbn [s_tail].
  - cbn. split; [intros [<-|[]]; auto|]. intros [[-> _]|(x & _ & E & _)]; [auto|discriminate].
  - cbn. split; [tauto|]. intros [[_ E]|(x & _ & E & _)]; discriminate.
  - destruct (Ascii.eqb_spec a " ") as [->|Na], (Ascii.eqb_spec b " ") as [->|Nb]; cbn [In].
    + destruct (nonempty t) eqn:N; cbn.
      * apply nonempty_iff in N. split; [intros [<-|[]]; eauto|]. intros [[_ E]|(x & -> & E & _)]; [discriminate|]. injection E as <-. auto.
      * split; [tauto|]. intros [[_ E]|(x & -> & E & Nx)]; [discriminate|]. injection E as <-. apply nonempty_iff in Nx. congruence.
    + split; [tauto|]. intros [[_ E]|(x & -> & E & Nx)]; [discriminate|]. injection E as E _. congruence.
    + split; [tauto|]. intros [[_ E]|(x & -> & E & Nx)]; [discriminate|]. injection E as E _. congruence.
    + split; [tauto|]. intros [[_ E]|(x & -> & E & Nx)]; [discriminate|]. injection E as E _. congruence.
Qed.
Definition opt_match (line g : string) (d : option string) : Prop := exists p r, line = p ++ g ++ r /\ indent p /\ matched g /\ ((d = None /\ r = "") \/ exists x, d = Some x /\ r = "  " ++ x /\ x <> "").
Definition all_matches (line : string) : list (string * option string) :=
  flat_map (fun p => flat_map (fun xr => map (fun d => (fst xr, d)) (s_tail (snd xr))) (ways s_opts (snd p))) (ways s_prefix line).
Lemma matches_iff line g d : In (g, d) (all_matches line) <-> opt_match line g d.
Proof.
  unfold all_matches, opt_match. rewrite in_flat_map. split.
  - intros ((p & t) & Hp & H). cbn [snd] in H. apply in_flat_map in H. destruct H as ((g' & r) & Hg & H). cbn [fst snd] in H. apply in_map_iff in H. destruct H as (d' & E & Hd). injection E as -> ->.
    apply ways_iff in Hp. apply ways_iff in Hg. destruct Hp as [-> Hp], Hg as [-> Hg]. apply L_prefix in Hp. apply L_opts in Hg. apply tail_iff in Hd. exists p, r. auto.
  - intros (p & r & -> & Hp & Hg & Hd). exists (p, g ++ r). split; [apply ways_iff; split; auto; now apply L_prefix|]. cbn [snd]. apply in_flat_map. exists (g, r). split; [apply ways_iff; split; auto; now apply L_opts|].
    cbn [fst snd]. apply in_map_iff. exists d. split; auto. now apply tail_iff.
Qed.
Lemma unique_match line g d : opt_match line g d -> (forall g' d', opt_match line g' d' -> g' = g /\ d' = d) -> re_opt line = Some (g, d).
Proof.
  intros H U. change (hd_error (all_matches line) = Some (g, d)). apply matches_iff in H. destruct (all_matches line) as [|[g' d'] l] eqn:E; [destruct H|]. cbn.
  destruct (U g' d') as [-> ->]; auto. apply matches_iff. rewrite E. now left.
Qed.
Lemma no_match line : (forall g d, ~ opt_match line g d) -> re_opt line = None.
Proof.
  intro U. change (hd_error (all_matches line) = None). destruct (all_matches line) as [|[g d] l] eqn:E; auto. destruct (U g d). apply matches_iff. rewrite E. now left.
Qed.
Lemma same_prefix p p' s s' : indent p -> indent p' -> firstc s = Some "-"%char -> firstc s' = Some "-"%char -> p ++ s = p' ++ s' -> p = p' /\ s = s'.
Proof.
  intros [->| ->] [->| ->] F F' E; cbn in E; injection E as E; auto; subst; discriminate.
Qed.
Theorem C81_option_line pre g pad d : indent pre -> options_text g -> spaces pad -> sentence d ->
  re_opt (pre ++ g ++ "  " ++ pad ++ d) = Some (g, Some (pad ++ d)) /\ re_opt (pre ++ g) = Some (g, None).
Proof.
  intros Hp Hg Hpad (w & c & r0 & Ed & Nw & Eqw & Hw & Nc & Nd). destruct (options_form g Hg) as (Mg & Dg & Fg). destruct (matched_last g Mg) as (Ng & _ & cg & Ecg & Ggc).
  assert (Nd0 : pad ++ d <> "") by (destruct pad; [|discriminate]; subst d; destruct w; discriminate).
  split; apply unique_match.
  - exists pre, ("  " ++ pad ++ d). split; auto. split; auto. split; auto. right. eauto.
  - intros g' d' (p' & r' & E & Hp' & Mg' & Hr'). destruct (matched_last g' Mg') as (Ng' & Fg' & Gg').
    destruct (same_prefix pre p' (g ++ "  " ++ pad ++ d) (g' ++ r')) as [<- E2]; auto; [now rewrite firstc_app|now rewrite firstc_app|].
    destruct (sapp_cases _ _ _ _ E2) as [(m & Eg & Er)|(m & Nm & Eg & Er)].
    + (* longer *)
      destruct m as [|m1 [|m2 t]].
      * rewrite sapp_nil_r in Eg. cbn [append] in Er. split; auto. destruct Hr' as [[-> ->]|(x & -> & -> & _)]; [discriminate|]. now injection Er as <-.
      * exfalso. cbn in Er. injection Er as <- _. destruct Gg' as (cl & El & G). rewrite Eg, lastc_app in El by discriminate. cbn in El. injection El as <-. tauto.
      * cbn [append] in Er. injection Er as <- <- Er. destruct Mg' as (o & rr & Eo & Fo & Hrr).
        destruct (after_gap rr Hrr o g t Fo) as (e & p & v & Et & He & Hmp & Hv); [rewrite <- Eo; exact Eg|exists cg; auto|]. exfalso.
        destruct (metavar_chars p Hmp) as (Np & Hpc & _).
        assert (HH : pad ++ d = e ++ (p ++ v ++ r')) by (rewrite Er, Et, !sapp_assoc; reflexivity).
        apply (span_unique eq_space) in HH; auto.
        -- destruct HH as [<- HH]. rewrite Ed in HH.
           assert (NS : forall a b x y, all_chars (fun c => negb (Ascii.eqb c " ")) a = true -> all_chars (fun c => negb (Ascii.eqb c " ")) b = true -> a ++ String " " x = b ++ String " " y -> x = y).
           { intros a b x y Ha Hb E3. apply (span_unique (fun c => negb (Ascii.eqb c " "))) in E3; auto; [|cbn; intros ? X; injection X as <-; reflexivity|cbn; intros ? X; injection X as <-; reflexivity]. destruct E3 as [_ E3]. now injection E3. }
           assert (NSp : all_chars (fun c => negb (Ascii.eqb c " ")) p = true).
           { eapply all_chars_mono; [|exact Hpc]. intros a Ha. destruct (Ascii.eqb_spec a " ") as [->|]; [discriminate|reflexivity]. }
           destruct Hv as [->|(s & x & -> & Ns & Hs)].
           ++ cbn [append] in HH. destruct Hr' as [[_ ->]|(x & _ & -> & _)].
              ** rewrite sapp_nil_r in HH. rewrite <- HH in NSp. apply all_app in NSp. destruct NSp as [_ NSp]. discriminate.
              ** cbn [append] in HH. apply NS in HH; auto. injection HH as -> _. congruence.
           ++ destruct s as [|s1 s]; [congruence|]. cbn [all_chars] in Hs. apply andb_true_iff in Hs. destruct Hs as [Hs1 Hs]. apply Ascii.eqb_eq in Hs1. subst s1.
              assert (EV : p ++ ("," ++ String " " s ++ String "-" x) ++ r' = (p ++ ",") ++ String " " (s ++ String "-" (x ++ r'))).
              { rewrite (sapp_assoc p). cbn [append]. now rewrite (sapp_assoc s). }
              rewrite EV in HH.
              apply NS in HH; auto; [|apply all_app; auto]. destruct s as [|s1 s]; cbn [append] in HH; injection HH as -> _; [congruence|].
              cbn [all_chars] in Hs. apply andb_true_iff in Hs. destruct Hs as [Hs1 _]. apply Ascii.eqb_eq in Hs1. congruence.
        -- eapply all_chars_mono; [|exact Hpad]. intros a Ha. apply Ascii.eqb_eq in Ha. now subst.
        -- intros a Fa. rewrite Ed in Fa. rewrite firstc_app in Fa by auto. destruct w as [|a' w]; [congruence|]. cbn in Fa. injection Fa as ->. cbn in Hw. apply andb_true_iff in Hw. destruct Hw as [Hw _].
           unfold eq_space. destruct (Ascii.eqb_spec a "=") as [->|]; [now destruct (Eqw "="%char w eq_refl)|]. destruct (Ascii.eqb a " "); [discriminate|reflexivity].
        -- intros a Fa. rewrite firstc_app in Fa by auto. destruct p as [|a' p]; [congruence|]. cbn in Fa. injection Fa as ->. cbn in Hpc. apply andb_true_iff in Hpc. destruct Hpc as [Hpc _].
           unfold eq_space. destruct (Ascii.eqb_spec a "=") as [->|]; [discriminate|]. destruct (Ascii.eqb_spec a " ") as [->|]; [discriminate|reflexivity].
    + (* shorter *)
      exfalso. destruct Hr' as [[_ ->]|(x & _ & -> & _)]; [destruct m; [congruence|discriminate]|]. destruct m as [|m1 [|m2 t]]; [congruence| |].
      * cbn in Er. injection Er as <- _. rewrite Eg, lastc_app in Ecg by discriminate. cbn in Ecg. injection Ecg as <-. tauto.
      * cbn [append] in Er. injection Er as <- <- _. change (String " " (String " " t)) with ("  " ++ t) in Eg. rewrite Eg, dbl_gap in Dg. discriminate.
  - exists pre, "". rewrite sapp_nil_r. auto 10.
  - intros g' d' (p' & r' & E & Hp' & Mg' & Hr'). destruct (matched_last g' Mg') as (Ng' & Fg' & Gg').
    destruct (same_prefix pre p' g (g' ++ r')) as [<- E2]; auto; [now rewrite firstc_app|]. destruct Hr' as [[-> ->]|(x & _ & -> & _)].
    + rewrite sapp_nil_r in E2. auto.
    + rewrite E2, dbl_gap in Dg. discriminate.
Qed.
(** ** Lines without titles *)
Lemma dash_no_title s t : spaces s -> ~ section_title (s ++ String "-" t).
Proof.
  intros Hs (a & r & E & [Na Ha] & _). destruct (sapp_cases _ _ _ _ E) as [(m & Ea & E2)|(m & Nm & Es & E2)].
  - destruct m as [|c m]; [discriminate|]. cbn in E2. injection E2 as <- _. rewrite Ea in Ha. apply all_app in Ha. destruct Ha as [_ Ha]. discriminate.
  - destruct m as [|c m]; [congruence|]. cbn in E2. injection E2 as <- _. unfold spaces in Hs. rewrite Es in Hs. apply all_app in Hs. destruct Hs as [_ Hs]. discriminate.
Qed.
Lemma indent_spaces p : indent p -> spaces p.
Proof. intros [->| ->]; reflexivity. Qed.
Lemma option_no_title pre g r : indent pre -> options_text g -> ~ section_title (pre ++ g ++ r).
Proof.
  intros Hp Hg. destruct (options_form g Hg) as (_ & _ & F). destruct g as [|c g]; [discriminate|]. cbn in F. injection F as ->. cbn [append]. apply dash_no_title. now apply indent_spaces.
Qed.
Lemma plain_no_option l : plain l -> re_opt l = None.
Proof.
  intros [_ (s & t & El & Hs & N1 & N2)]. apply no_match. intros g d (p & r & E & Hp & Mg & _). destruct (matched_last g Mg) as (Ng & F & _). rewrite El in E.
  apply (span_unique (Ascii.eqb " ")) in E; auto; [|now apply indent_spaces| |].
  - destruct E as [_ E]. apply N2. destruct g as [|c g]; [congruence|]. cbn in F. injection F as ->. exists (g ++ r). exact E.
  - intros c Fc. destruct t as [|c' t]; [discriminate|]. cbn in Fc. injection Fc as ->. destruct (Ascii.eqb_spec " " c) as [<-|]; auto. destruct N1. now exists t.
  - intros c Fc. rewrite firstc_app, F in Fc by auto. injection Fc as <-. reflexivity.
Qed.
Lemma begins_iff p s : startswith s p = true <-> begins p s.
Proof.
  unfold startswith, begins. revert s. induction p as [|c p IH]; intro s; [split; [exists s; reflexivity|destruct s; reflexivity]|]. destruct s as [|d s]; cbn; [split; [discriminate|intros [t E]; discriminate]|].
  destruct (ascii_dec c d) as [->|N].
  - rewrite IH. split; intros [t E]; exists t; [now rewrite E|now injection E].
  - split; [discriminate|]. intros [t E]. injection E as E _. congruence.
Qed.
Lemma blank_iff s : nonempty (strip s) = false <-> blank s.
Proof.
  unfold blank, strip. induction s as [|c s IH]; [tauto|]. cbn [lstrip all_chars]. destruct (is_space c) eqn:E; [exact IH|]. destruct (rstrip_head c s E) as [r ->]. cbn. split; discriminate.
Qed.
Lemma nonblank_iff s : nonempty (strip s) = true <-> ~ blank s.
Proof. rewrite <- blank_iff. destruct (nonempty (strip s)); split; intro H; try congruence. Qed.
Lemma strip_pad pad d : spaces pad -> strip (pad ++ d) = strip d.
Proof.
  intro H. unfold strip. f_equal. revert H. unfold spaces. induction pad as [|c pad IH]; auto. cbn [all_chars append lstrip]. intro H. apply andb_true_iff in H. destruct H as [Hc H].
  apply Ascii.eqb_eq in Hc. subst c. now apply IH.
Qed.
Definition quiet (dn : string) (sc : option string) : Prop :=
  forall n, sc = Some n -> String.eqb n "Usage" = false /\ String.eqb (lower n) "positional arguments" = false /\ String.eqb n dn = false.
Lemma steps_body locals_ f dn p sc m lines outs : quiet dn sc -> body m lines outs -> forall o, exists m', steps locals_ f dn (mkst o m sc p) lines = Ok (mkst (o ++ outs)%list m' sc p).
Proof.
  intro Q. assert (Q1 : match sc with Some n => nonempty n && String.eqb (lower n) "positional arguments" | None => false end = false).
  { destruct sc as [n|]; auto. destruct (Q n eq_refl) as (_ & -> & _). apply andb_false_r. }
  assert (Q2 : forall o m, is_sec (mkst o m sc p) "Usage" = false) by (intros; unfold is_sec; cbn [sec]; destruct sc as [n|]; auto; now destruct (Q n eq_refl)).
  assert (Q3 : forall o m, is_sec (mkst o m sc p) dn = false) by (intros; unfold is_sec; cbn [sec]; destruct sc as [n|]; auto; now destruct (Q n eq_refl)).
  induction 1 as [m|m pre g pad d ls os Hp Hg Hpad Hd Hb IH|m pre g ls os Hp Hg Hb IH|l ls os Hl Hb3 Hnb Hb IH|m l ls os Hl Hm Hb IH]; intro o; cbn [steps].
  - exists m. now rewrite app_nil_r.
  - rewrite step_other by (apply option_no_title; auto). unfold other_line. rewrite (proj1 (C81_option_line pre g pad d Hp Hg Hpad Hd)), strip_pad by auto. cbn [bind sec prog out].
    destruct (IH (o ++ [""; tab ++ ".. cmdoption:: " ++ g; ""]%string ++ [tab ++ tab ++ strip d]%string)%list) as (m' & ->). exists m'. f_equal. f_equal. rewrite <- !app_assoc. reflexivity.
  - assert (N := option_no_title pre g "" Hp Hg). rewrite sapp_nil_r in N. rewrite step_other by auto. unfold other_line.
    assert (S : sentence "a b") by (exists "a", "b"%char, ""; repeat split; try discriminate; intros a t E; injection E as <- _; discriminate).
    rewrite (proj2 (C81_option_line pre g "" "a b" Hp Hg eq_refl S)). cbn [bind sec prog out].
    destruct (IH (o ++ [""; tab ++ ".. cmdoption:: " ++ g; ""]%string ++ [])%list) as (m' & ->). exists m'. f_equal. f_equal. rewrite <- !app_assoc. reflexivity.
  - rewrite step_other by apply Hl. unfold other_line. rewrite (plain_no_option l Hl). cbn [sec multi]. rewrite Q1. cbn [andb]. rewrite (proj2 (nonblank_iff l) Hnb), (proj2 (begins_iff _ _) Hb3). cbn [andb]. rewrite Q2. cbn [bind out prog sec append].
    match goal with |- context [steps _ _ _ (mkst ?x _ _ _)] => destruct (IH x) as (m' & ->) end. exists m'. f_equal. f_equal. rewrite <- !app_assoc. reflexivity.
  - rewrite step_other by apply Hl. unfold other_line. rewrite (plain_no_option l Hl). cbn [sec multi]. rewrite Q1. cbn [andb].
    assert (E : m && nonempty (strip l) && startswith l "   " = false).
    { destruct Hm as [->|[H|H]]; [reflexivity| |].
      - destruct (startswith l "   ") eqn:B; [apply begins_iff in B; contradiction|apply andb_false_r].
      - apply blank_iff in H. rewrite H. now rewrite andb_false_r. }
    rewrite E, Q3, Q2. cbn [andb bind out prog sec append]. destruct (IH (o ++ [l])%list) as (m' & ->). exists m'. f_equal. f_equal. rewrite <- !app_assoc. reflexivity.
Qed.
(** The options become cmdoption directives with their description, the other lines stay, in order. *)
Theorem C81_body locals_ f dn p lines outs : Forall one_line lines -> body false lines outs ->
  opt2rst locals_ f dn (text_of lines) p = Ok (joined outs).
Proof.
  intros H1 Hb. unfold opt2rst. rewrite split_text by auto. destruct (steps_body locals_ f dn p None false lines outs ltac:(intros n E; discriminate) Hb []) as (m' & ->). cbn [bind out]. now rewrite join_joined.
Qed.
(** ** Sections *)
Lemma constant_format_ok locals_ f : constant_format f -> format locals_ f = Ok f.
Proof.
  intro Hf. unfold format, constant_format in *. induction f as [|c f IH]; [reflexivity|]. cbn [all_chars] in Hf. apply andb_true_iff in Hf. destruct Hf as [Hc Hf]. apply andb_true_iff in Hc. destruct Hc as [H1 H2].
  cbn [format_from]. destruct (Ascii.eqb c "{"); [discriminate|]. destruct (Ascii.eqb c "}"); [discriminate|]. now rewrite IH.
Qed.
Lemma ascii_all (P : ascii -> bool) : forallb P (map ascii_of_nat (seq 0 256)) = true -> forall c, P c = true.
Proof.
  intros H c. rewrite forallb_forall in H. apply H. apply in_map_iff. exists (nat_of_ascii c). split; [apply ascii_nat_embedding|]. apply in_seq. split; [lia|]. apply nat_ascii_bounded.
Qed.
Lemma case_ascii c : Ascii.eqb (lower_ascii (upper_ascii c)) (lower_ascii c) && Ascii.eqb (lower_ascii (lower_ascii c)) (lower_ascii c) && Bool.eqb (is_space (lower_ascii c)) (is_space c) = true.
Proof. revert c. apply ascii_all. vm_compute. reflexivity. Qed.
Lemma lower_title b s : lower (title_from b s) = lower s.
Proof.
  revert b. induction s as [|c s IH]; intro b; [reflexivity|]. cbn. rewrite IH. f_equal. assert (H := case_ascii c). apply andb_true_iff in H. destruct H as [H _]. apply andb_true_iff in H. destruct H as [H1 H2].
  apply Ascii.eqb_eq in H1, H2. destruct b; auto.
Qed.
Lemma space_lower c : is_space (lower_ascii c) = is_space c.
Proof. assert (H := case_ascii c). apply andb_true_iff in H. destruct H as [_ H]. now apply Bool.eqb_prop in H. Qed.
Lemma lower_strip s : lower (strip s) = strip (lower s).
Proof.
  assert (R : forall s, lower (rstrip s) = rstrip (lower s)).
  { clear. induction s as [|c s IH]; [reflexivity|]. cbn [rstrip lower]. rewrite <- IH. destruct (rstrip s) as [|d r]; [|reflexivity]. cbn [lower]. rewrite space_lower. destruct (is_space c); reflexivity. }
  unfold strip. rewrite R. f_equal. induction s as [|c s IH]; [reflexivity|]. cbn [lstrip lower]. rewrite space_lower. destruct (is_space c); auto.
Qed.
Lemma steps_app locals_ f dn s l1 l2 : steps locals_ f dn s (l1 ++ l2)%list = let* t := steps locals_ f dn s l1 in steps locals_ f dn t l2.
Proof. revert s. induction l1 as [|x l1 IH]; intro s; [reflexivity|]. cbn [List.app steps]. destruct (step locals_ f dn s x) as [t|e]; [apply IH|reflexivity]. Qed.
Lemma app_last a b (c : ascii) : a ++ String c "" = b ++ String c "" -> a = b.
Proof.
  intro E. destruct (sapp_inv_len a (String c "") b (String c "")) as [-> _]; auto. apply (f_equal String.length) in E. rewrite !slen_app in E. cbn in E. lia.
Qed.
Lemma ordinary_step locals_ f dn o m sc p a : format locals_ f = Ok f -> ordinary dn a -> exists n, step locals_ f dn (mkst o m sc p) (a ++ ":") = Ok (mkst (o ++ [f; ""])%list m (Some n) p) /\ quiet dn (Some n).
Proof.
  intros Hf ([Na Ha] & NE & N1 & N2 & N3). exists (strip (title a)).
  assert (Hn : lower (strip (title a)) = strip (lower a)) by (rewrite lower_strip; f_equal; apply lower_title).
  assert (Q : quiet dn (Some (strip (title a)))).
  { intros n E. injection E as <-. repeat split; apply String.eqb_neq.
    - intro E. apply N1. rewrite <- Hn, E. reflexivity.
    - intro E. apply N2. now rewrite <- Hn.
    - intro E. apply N3. now rewrite <- Hn, E. }
  split; auto. unfold step.
  assert (C : at_colon (a ++ ":") = Some (a, "")) by (apply at_colon_iff; split; [reflexivity|now apply word_space_no_colon]).
  unfold re_sec. rewrite C. apply nonempty_iff in Na. rewrite Na. change (all_chars word_space a = true) in Ha. rewrite Ha. cbn [andb].
  assert (X : endswith (lower (a ++ ":")) "ex:" = false).
  { destruct (endswith (lower (a ++ ":")) "ex:") eqn:E; auto. apply endswith_iff in E. destruct E as [t E]. rewrite lower_app in E. change "ex:" with ("ex" ++ ":") in E. rewrite <- sapp_assoc in E. apply app_last in E. now apply NE in E. }
  rewrite X. unfold section_line. destruct (Q _ eq_refl) as (-> & _). rewrite Hf. reflexivity.
Qed.
Lemma described_step locals_ f dn o m sc p a d : format locals_ f = Ok f -> ordinary dn a -> d <> "" -> (forall t, lower (a ++ ": " ++ d) <> t ++ "ex:") ->
  exists n, step locals_ f dn (mkst o m sc p) (a ++ ": " ++ d) = Ok (mkst (o ++ [f; ""; ""; tabbed 1 d])%list true (Some n) p) /\ quiet dn (Some n).
Proof.
  intros Hf ([Na Ha] & _ & N1 & N2 & N3) Nd NE. exists (strip (title a)).
  assert (Hn : lower (strip (title a)) = strip (lower a)) by (rewrite lower_strip; f_equal; apply lower_title).
  assert (Q : quiet dn (Some (strip (title a)))).
  { intros n E. injection E as <-. repeat split; apply String.eqb_neq.
    - intro E. apply N1. rewrite <- Hn, E. reflexivity.
    - intro E. apply N2. now rewrite <- Hn.
    - intro E. apply N3. now rewrite <- Hn, E. }
  split; auto. unfold step.
  assert (C : at_colon (a ++ ": " ++ d) = Some (a, " " ++ d)) by (apply at_colon_iff; split; [reflexivity|now apply word_space_no_colon]).
  assert (X : endswith (lower (a ++ ": " ++ d)) "ex:" = false).
  { destruct (endswith (lower (a ++ ": " ++ d)) "ex:") eqn:E; auto. apply endswith_iff in E. destruct E as [t E]. now apply NE in E. }
  unfold re_sec. rewrite C. apply nonempty_iff in Na. rewrite Na. change (all_chars word_space a = true) in Ha. rewrite Ha. cbn [andb].
  apply nonempty_iff in Nd. change (" " ++ d) with (String " " d). cbv iota. rewrite Ascii.eqb_refl, Nd. cbn [andb].
  rewrite X. unfold section_line. destruct (Q _ eq_refl) as (Eu & _). rewrite Eu, Hf. reflexivity.
Qed.
(** Each section: its title by the format, then its lines. *)
Theorem C81_sections locals_ f dn p lines outs : Forall one_line lines -> constant_format f -> document f dn lines outs ->
  opt2rst locals_ f dn (text_of lines) p = Ok (joined outs).
Proof.
  intros H1 Hf Hd. apply (constant_format_ok locals_) in Hf. unfold opt2rst. rewrite split_text by auto. clear H1.
  assert (G : forall o m sc, exists m' sc', steps locals_ f dn (mkst o m sc p) lines = Ok (mkst (o ++ outs)%list m' sc' p)).
  { induction Hd as [|a ls os rest os' Ha Hb Hd IH|a d ls os rest os' Ha Nd NE Hb Hd IH]; intros o m sc; cbn [steps]; [exists m, sc; now rewrite app_nil_r| |].
    - destruct (ordinary_step locals_ f dn o m sc p a Hf Ha) as (n & -> & Q). cbn [bind]. rewrite steps_app. destruct (steps_body locals_ f dn p (Some n) m ls os Q (Hb m) (o ++ [f; ""])%list) as (m1 & ->). cbn [bind].
    destruct (IH ((o ++ [f; ""]) ++ os)%list m1 (Some n)) as (m2 & sc2 & ->). exists m2, sc2. f_equal. f_equal. rewrite <- !app_assoc. reflexivity.
    - destruct (described_step locals_ f dn o m sc p a d Hf Ha Nd NE) as (n & -> & Q). cbn [bind]. rewrite steps_app. destruct (steps_body locals_ f dn p (Some n) true ls os Q Hb (o ++ [f; ""; ""; tabbed 1 d])%list) as (m1 & ->). cbn [bind].
      destruct (IH ((o ++ [f; ""; ""; tabbed 1 d]) ++ os)%list m1 (Some n)) as (m2 & sc2 & ->). exists m2, sc2. f_equal. f_equal. rewrite <- !app_assoc. reflexivity. }
  destruct (G [] false None) as (m' & sc' & ->). cbn [bind out List.app]. now rewrite join_joined.
Qed.
(** The usage: the program, the title by the format, a block of code. *)
Lemma basename_from_nil cur s : all_chars (fun c => negb (Ascii.eqb c "/")) s = true -> basename_from cur s = cur ++ s.
Proof.
  revert cur. induction s as [|c s IH]; intros cur H; cbn; [now rewrite sapp_nil_r|]. cbn [all_chars] in H. apply andb_true_iff in H. destruct H as [Hc H].
  destruct (Ascii.eqb c "/") eqn:E; [discriminate|]. change (Ascii.eqb c "/") with (Ascii.eqb c "/") in E. rewrite IH by auto. now rewrite sapp_assoc.
Qed.
Lemma basename_slash d p cur : basename_from cur (d ++ "/" ++ p) = basename_from "" p.
Proof. revert cur. induction d as [|c d IH]; intro cur; [reflexivity|]. cbn [append basename_from]. destruct (Ascii.eqb c "/"); apply IH. Qed.
Lemma words_first w rest : forall cur, all_chars (fun c => negb (is_space c)) w = true -> (rest = "" \/ begins " " rest) -> cur ++ w <> "" -> exists l, words_from cur (w ++ rest) = (cur ++ w) :: l.
Proof.
  induction w as [|c w IH]; intros cur Hw Hr N.
  - rewrite sapp_nil_r in *. cbn [append]. apply nonempty_iff in N. destruct Hr as [->|[t ->]]; cbn; rewrite N; [now exists []|eexists; reflexivity].
  - cbn [all_chars] in Hw. apply andb_true_iff in Hw. destruct Hw as [Hc Hw]. cbn [append words_from]. destruct (is_space c); [discriminate|].
    destruct (IH (cur ++ String c "") Hw Hr) as [l ->]; [destruct cur; discriminate|]. exists l. now rewrite sapp_assoc.
Qed.
Theorem C81_usage locals_ f dn p q u : Forall one_line ["usage: " ++ u] -> constant_format f -> u <> "" -> strip u = u -> (forall t, lower u <> t ++ "ex:") ->
  (p = Some q \/ (p = None /\ program_of u q)) ->
  opt2rst locals_ f dn (text_of ["usage: " ++ u]) p = Ok (joined [".. program:: " ++ q ++ nl; f; nl ++ tabbed 1 ".. code-block:: bash" ++ nl ++ nl ++ tabbed 2 u]).
Proof.
  intros H1 Hf Nu Su NE Hp. apply (constant_format_ok locals_) in Hf. unfold opt2rst. rewrite split_text by auto. cbn [steps]. unfold step.
  assert (E : re_sec ("usage: " ++ u) = Some ("usage", Some u)) by (unfold re_sec; cbn; apply nonempty_iff in Nu; now rewrite Nu). rewrite E.
  assert (X : endswith (lower ("usage: " ++ u)) "ex:" = false).
  { destruct (endswith (lower ("usage: " ++ u)) "ex:") eqn:X; auto. apply endswith_iff in X. destruct X as [t X]. rewrite lower_app in X. exfalso.
    destruct (sapp_cases _ _ _ _ X) as [(k & Ek & Er)|(k & Nk & Ek & Er)]; [now apply NE in Er|].
    change (lower "usage: ") with "usage: " in Ek. assert (K : exists k0, k ++ lower u = "ex:" /\ k0 = k) by eauto. destruct K as (_ & K & _).
    destruct k as [|k1 [|k2 [|k3 [|k4 k]]]]; try congruence; cbn in K; try discriminate.
    - injection K as -> K. assert (L := f_equal lastc Ek). rewrite lastc_app in L by discriminate. cbn in L. discriminate.
    - injection K as -> -> K. assert (L := f_equal lastc Ek). rewrite lastc_app in L by discriminate. cbn in L. discriminate.
    - injection K as -> -> -> K. assert (L := f_equal lastc Ek). rewrite lastc_app in L by discriminate. cbn in L. discriminate. }
  rewrite X. unfold section_line. change (strip (title "usage")) with "Usage". cbn [String.eqb Ascii.eqb Bool.eqb prog]. rewrite Hf, Su.
  assert (Q : match p with Some p0 => Ok p0 | None => match words u with w :: _ => Ok (basename w) | [] => Raise IndexError end end = Ok q).
  { destruct Hp as [->|[-> (dir & w & rest & Eu & Hr & Nw & Hw & Ew & Hq & Hd)]]; [reflexivity|]. unfold words. rewrite Eu. destruct (words_first w rest "" Hw Hr Nw) as [l ->]. f_equal. cbn [append]. unfold basename. rewrite Ew.
    destruct Hd as [->|[d ->]]; [now rewrite basename_from_nil|]. rewrite sapp_assoc, basename_slash. now rewrite basename_from_nil. }
  rewrite Q. cbn [bind out List.app]. now rewrite join_joined.
Qed.
(** False: the text of a help can be converted.  The format of the sections uses the name of the section, which is not
    given to it: any title is an error. *)
Theorem C81_default_refuted locals_ dn p lines : Forall one_line lines ->
  let r := opt2rst locals_ ":{secname}:" dn (text_of lines) p in
  (Exists section_title lines -> r = Raise KeyError \/ (p = None /\ r = Raise IndexError)) /\
  (Forall (fun l => ~ section_title l) lines -> exists t, r = Ok t).
Proof.
  intros H1 r. subst r. unfold opt2rst. rewrite split_text by auto. clear H1.
  assert (O : forall s l, sec s = None -> exists s', other_line locals_ ":{secname}:" dn s l = Ok s' /\ sec s' = None /\ prog s' = prog s).
  { intros s l E. unfold other_line, is_sec. rewrite E. destruct (re_opt l) as [[g d]|]; [eexists; split; [reflexivity|auto]|]. cbn [andb]. destruct (multi s && _ && _); eexists; split; reflexivity || auto. }
  assert (T : forall s a g, section_line locals_ ":{secname}:" s a g = Raise KeyError \/ (prog s = None /\ section_line locals_ ":{secname}:" s a g = Raise IndexError)).
  { intros s a g. unfold section_line. assert (F : format locals_ ":{secname}:" = Raise KeyError) by reflexivity. rewrite F. destruct (if String.eqb _ _ then g else None) as [u|]; [|left; reflexivity].
    destruct (prog s) as [q|]; [left; reflexivity|]. destruct (words (strip u)); [right; auto|left; reflexivity]. }
  assert (G : forall s, sec s = None -> prog s = p -> let r := steps locals_ ":{secname}:" dn s lines in
    (Exists section_title lines -> r = Raise KeyError \/ (p = None /\ r = Raise IndexError)) /\ (Forall (fun l => ~ section_title l) lines -> exists t, r = Ok t)).
  { induction lines as [|l ls IH]; intros s Es Ep; cbn [steps]; [split; [intro X; inversion X|eauto]|].
    assert (D : section_title l \/ ~ section_title l).
    { destruct (re_sec l) as [[a g]|] eqn:E; [|right; intro X; apply title_iff in X; destruct X as (a & g & X & _); congruence]. destruct (endswith (lower l) "ex:") eqn:Y; [right|left; apply title_iff; eauto].
      intro X. apply title_iff in X. destruct X as (a' & g' & _ & X). congruence. }
    destruct D as [D|D].
    - destruct (step_title locals_ ":{secname}:" dn s l D) as (a & g & ->). split; [|intro X; inversion X; contradiction]. intros _. destruct (T s a g) as [->|[E ->]]; [now left|right]. split; [congruence|reflexivity].
    - rewrite step_other by auto. destruct (O s l Es) as (s' & -> & Es' & Ep'). cbn [bind]. destruct (IH s' Es' ltac:(congruence)) as [I1 I2]. split.
      + intro X. inversion X; subst; [contradiction|auto].
      + intro X. inversion X; subst. auto. }
  destruct (G (mkst [] false None p) eq_refl eq_refl) as [G1 G2]. split.
  - intro X. destruct (G1 X) as [->|[E ->]]; auto.
  - intro X. destruct (G2 X) as [t ->]. cbn. eauto.
Qed.
Lemma words_nil s : forall cur, words_from cur s = [] -> cur = "" /\ blank s.
Proof.
  unfold blank. induction s as [|c s IH]; intro cur; cbn [words_from all_chars].
  - destruct cur; [auto|discriminate].
  - destruct (is_space c) eqn:E.
    + destruct cur; cbn [nonempty]; [|discriminate]. intro H. apply IH in H. auto.
    + intro H. apply IH in H. destruct H as [H _]. destruct cur; discriminate.
Qed.
(** A format without fields never fails, when the program is named and no line is made of spaces. *)
Theorem C81_total locals_ f dn p lines : Forall one_line lines -> constant_format f -> Forall (fun l => begins "  " l -> ~ blank l) lines ->
  exists t, opt2rst locals_ f dn (text_of lines) (Some p) = Ok t.
Proof.
  intros H1 Hf Hl. unfold opt2rst. rewrite split_text by auto. clear H1.
  assert (F := constant_format_ok locals_ f Hf).
  assert (G : forall s q, prog s = Some q -> exists t, steps locals_ f dn s lines = Ok t).
  { clear p. induction Hl as [|l ls Hl _ IH]; intros s q Ep; cbn [steps]; [eauto|].
    assert (S : exists s', step locals_ f dn s l = Ok s' /\ prog s' = Some q).
    { assert (O : exists s', other_line locals_ f dn s l = Ok s' /\ prog s' = Some q).
      { unfold other_line. rewrite F. destruct (re_opt l) as [[g d]|]; [eexists; split; [reflexivity|exact Ep]|].
        destruct (_ && startswith l "  ") eqn:B.
        - apply andb_true_iff in B. destruct B as [_ B]. apply begins_iff in B. specialize (Hl B). destruct (words l) as [|w ws] eqn:W; [|eexists; split; [reflexivity|exact Ep]].
          exfalso. apply Hl. now apply words_nil in W.
        - destruct (multi s && _ && _); [eexists; split; [reflexivity|exact Ep]|]. destruct (is_sec s "Usage"); eexists; split; reflexivity || exact Ep. }
      unfold step. destruct (re_sec l) as [[a g]|]; auto. destruct (endswith (lower l) "ex:"); auto.
      unfold section_line. rewrite F. destruct (if String.eqb _ _ then g else None) as [u|].
      - rewrite Ep. eexists; split; reflexivity.
      - cbn [bind]. destruct g; eexists; split; reflexivity || exact Ep. }
    destruct S as (s' & -> & Ep'). cbn [bind]. eauto. }
  destruct (G (mkst [] false None (Some p)) p eq_refl) as [t ->]. cbn. eauto.
Qed.
(** False: the description of an option is not a part of the option.  A description of one word is taken as its value. *)
Definition Hd (r : rex) (s x y : string) : Prop := hd_error (ways r s) = Some (x, y).
Lemma hd_flat {A B} (f : A -> list B) l x y : hd_error l = Some x -> hd_error (f x) = Some y -> hd_error (flat_map f l) = Some y.
Proof. destruct l as [|a l]; [discriminate|]. cbn. intro E. injection E as ->. destruct (f x); [discriminate|]. cbn. auto. Qed.
Lemma hd_app {A} (l m : list A) x : hd_error l = Some x -> hd_error (l ++ m) = Some x.
Proof. destruct l; [discriminate|]. auto. Qed.
Lemma hd_glue x l y r : hd_error l = Some (y, r) -> hd_error (glue x l) = Some (x ++ y, r).
Proof. destruct l as [|[a b] l]; [discriminate|]. cbn. intro E. injection E as -> ->. reflexivity. Qed.
Lemma Hd_cat a b s x t y u : Hd a s x t -> Hd b t y u -> Hd (Cat a b) s (x ++ y) u.
Proof. unfold Hd. cbn [ways]. intros H1 H2. eapply hd_flat; [exact H1|]. cbn [fst snd]. now apply hd_glue. Qed.
Lemma Hd_alt a b s x t : Hd a s x t -> Hd (Alt a b) s x t.
Proof. unfold Hd. cbn [ways]. apply hd_app. Qed.
Lemma Hd_alt2 a b s x t : ways a s = [] -> Hd b s x t -> Hd (Alt a b) s x t.
Proof. unfold Hd. cbn [ways]. now intros ->. Qed.
Lemma Hd_cls ok c s : ok c = true -> Hd (Cls ok) (String c s) (String c "") s.
Proof. unfold Hd. cbn. now intros ->. Qed.
Lemma Hd_chr c s : Hd (chr c) (String c s) (String c "") s.
Proof. apply Hd_cls. apply Ascii.eqb_refl. Qed.
Lemma Hd_rep ok w r : all_chars ok w = true -> (forall c, firstc r = Some c -> ok c = false) -> Hd (Rep (Cls ok)) (w ++ r) w r.
Proof.
  unfold Hd. intros Hw Hr. cbn [ways]. assert (G : forall n, (String.length w <= n)%nat -> hd_error (star (ways (Cls ok)) n (w ++ r)) = Some (w, r)).
  { induction w as [|c w IH]; intros n Hn.
    - destruct n; [reflexivity|]. cbn [append star ways]. destruct r as [|c r]; [reflexivity|]. rewrite (Hr c eq_refl). reflexivity.
    - destruct n; [cbn in Hn; lia|]. cbn [String.length] in Hn. cbn [all_chars] in Hw. apply andb_true_iff in Hw. destruct Hw as [Hc Hw]. cbn [append star ways]. rewrite Hc. apply hd_app. eapply hd_flat; [reflexivity|]. cbn [fst snd nonempty].
      apply hd_glue with (x := String c ""). apply IH; auto. lia. }
  apply G. rewrite slen_app. lia.
Qed.
Lemma Hd_plus ok w r : has ok w -> (forall c, firstc r = Some c -> ok c = false) -> Hd (plus ok) (w ++ r) w r.
Proof.
  intros [N H] Hr. destruct w as [|c w]; [congruence|]. cbn [all_chars] in H. apply andb_true_iff in H. destruct H as [Hc H]. apply (Hd_cat _ _ _ (String c "") (w ++ r) w r); [now apply Hd_cls|now apply Hd_rep].
Qed.
Theorem C81_one_word_refuted locals_ f dn p w pad x : has word_dash w -> spaces pad -> has is_word x ->
  Forall one_line ["  --" ++ w ++ "  " ++ pad ++ x] ->
  opt2rst locals_ f dn (text_of ["  --" ++ w ++ "  " ++ pad ++ x]) p = Ok (joined [""; tabbed 1 (".. cmdoption:: --" ++ w ++ "  " ++ pad ++ x); ""]).
Proof.
  intros Hw Hp Hx H1. unfold opt2rst. rewrite split_text by auto. cbn [steps].
  assert (E : re_opt ("  --" ++ w ++ "  " ++ pad ++ x) = Some ("--" ++ w ++ "  " ++ pad ++ x, None)).
  { unfold re_opt. destruct Hx as [Nx Hx]. apply (hd_flat _ _ ("  ", "--" ++ w ++ "  " ++ pad ++ x)).
    - reflexivity.
    - cbn [snd]. apply (hd_flat _ _ ("--" ++ w ++ "  " ++ pad ++ x, "")).
      + change (Hd s_opts ("--" ++ w ++ "  " ++ pad ++ x) ("--" ++ w ++ "  " ++ pad ++ x) "").
        assert (Q : Hd s_lopt ("--" ++ w ++ "  " ++ pad ++ x) ("-" ++ "-" ++ w ++ ("  " ++ pad) ++ x) "").
        { unfold s_lopt. eapply Hd_cat; [apply Hd_chr|]. eapply Hd_cat; [apply Hd_chr|]. eapply Hd_cat; [apply Hd_plus; [exact Hw|intros c Fc; injection Fc as <-; reflexivity]|].
          apply Hd_alt. eapply Hd_cat.
          - change ("  " ++ pad ++ x) with (("  " ++ pad) ++ x). apply Hd_plus.
            + split; [discriminate|]. cbn. eapply all_chars_mono; [|exact Hp]. intros a Ha. apply Ascii.eqb_eq in Ha. now subst.
            + intros c Fc. destruct x as [|c' x]; [congruence|]. cbn in Fc. injection Fc as ->. cbn in Hx. apply andb_true_iff in Hx. destruct Hx as [Hx _]. unfold eq_space.
              destruct (Ascii.eqb_spec c "=") as [->|]; [discriminate|]. destruct (Ascii.eqb_spec c " ") as [->|]; [discriminate|reflexivity].
          - unfold s_param. apply Hd_alt2.
            + destruct x as [|c' x]; [congruence|]. cbn [ways]. unfold chr. cbn [ways]. cbn in Hx. apply andb_true_iff in Hx. destruct Hx as [Hx _]. destruct (Ascii.eqb_spec "{" c') as [<-|]; [discriminate|reflexivity].
            + rewrite <- (sapp_nil_r x) at 1. apply Hd_plus; [split; auto|discriminate]. }
        unfold s_opts. rewrite <- (sapp_nil_r ("--" ++ w ++ "  " ++ pad ++ x)) at 2. apply (Hd_cat _ _ _ _ ""); [apply Hd_alt2; [reflexivity|exact Q]|reflexivity].
      + reflexivity. }
  assert (N : ~ section_title ("  --" ++ w ++ "  " ++ pad ++ x)) by (apply (dash_no_title "  "); reflexivity).
  rewrite step_other by auto. unfold other_line. rewrite E. reflexivity.
Qed.
(** The end of line of the last line makes no difference *)
Theorem C81_last_line locals_ f dn p lines l : Forall one_line lines -> one_line l -> l <> "" ->
  opt2rst locals_ f dn (text_of lines ++ l) p = opt2rst locals_ f dn (text_of (lines ++ [l])%list) p.
Proof.
  intros Hs Hl Nl. unfold opt2rst. rewrite (split_text (lines ++ [l])%list) by (apply Forall_app; auto).
  assert (E : splitlines (text_of lines ++ l) = (lines ++ [l])%list); [|now rewrite E].
  induction Hs as [|a ls Ha _ IH].
  - cbn [List.app]. change (text_of [] ++ l) with l. unfold splitlines.
    assert (G : forall cur, splitlines_from cur l = if nonempty (cur ++ l) then [cur ++ l] else []).
    { clear Nl. induction l as [|c l IH]; intro cur; cbn [splitlines_from]; [now rewrite sapp_nil_r|].
      unfold one_line in Hl. cbn [all_chars] in Hl. apply andb_true_iff in Hl. destruct Hl as [Hc Hl].
      destruct (Ascii.eqb_spec c (ascii_of_nat 10)) as [->|N]; [discriminate|]. rewrite IH by exact Hl.
      rewrite sapp_assoc. reflexivity. }
    rewrite G. cbn [append]. apply nonempty_iff in Nl. now rewrite Nl.
  - change (text_of (a :: ls)) with (a ++ nl ++ text_of ls). rewrite !sapp_assoc. unfold splitlines.
    rewrite split_line by auto. cbn [append List.app]. now rewrite IH.
Qed.
(** False: arg_long_help gives the text in rst.  It never does; without rst it is the help of the parser. *)
Theorem C81_long_help_refuted shelp : arg_long_help true shelp = Raise TypeError /\ arg_long_help false shelp = Ok shelp.
Proof. split; reflexivity. Qed.
Definition sample : list string := ["  -f FILE, --file=FILE      the input file"; "                        to read"; ""; "  --all"; "The end"].
Definition sample_rst : list string :=
  [""; tabbed 1 ".. cmdoption:: -f FILE, --file=FILE"; ""; tabbed 2 "the input file"; tabbed 2 "to read"; ""; ""; tabbed 1 ".. cmdoption:: --all"; ""; "The end"].
Example ex_body : Forall one_line sample /\ forall m, body m sample sample_rst.
Proof.
  split; [repeat constructor|]. intro m.
  assert (NT : forall l, re_sec l = None -> ~ section_title l) by (intros l E T; apply title_iff in T; destruct T as (a & g & T & _); congruence).
  eapply (body_described m "  " "-f FILE, --file=FILE" "    " "the input file"); [now left| |reflexivity| |].
  - apply (More_forms "-f FILE" "--file=FILE").
    + apply (Short_param "f" "FILE"); [split; [discriminate|reflexivity]|left; split; [discriminate|reflexivity]].
    + apply One_form. apply (Long_param "file" "=" "FILE"); [split; [discriminate|reflexivity]|left; split; [discriminate|reflexivity]|now left].
  - exists "the", "i"%char, "nput file". repeat split; try discriminate. intros a t E. injection E as <- _. discriminate.
  - eapply (body_more "                        to read"); [| |discriminate|].
    + split; [apply NT; reflexivity|]. exists "                        ", "to read". repeat split; intros [t E]; discriminate.
    + now exists "                     to read".
    + eapply (body_plain true ""); [|right; right; reflexivity|].
      * split; [apply NT; reflexivity|]. exists "", "". repeat split; intros [t E]; discriminate.
      * eapply (body_option false "  " "--all"); [now left|apply One_form; apply (Long "all"); split; [discriminate|reflexivity]|].
        eapply (body_plain true "The end"); [|right; left; intros [t E]; discriminate|constructor].
        split; [apply NT; reflexivity|]. exists "", "The end". repeat split; intros [t E]; discriminate.
Qed.
Example ex_usage : section_title "usage: prog [-h]" /\ section_title "options:" /\ ~ section_title "  -h, --help  show: this" /\
  constant_format "Section" /\ has word_dash "no-color" /\ has is_word "plain".
Proof.
  split; [apply title_iff; do 2 eexists; split; reflexivity|]. split; [apply title_iff; do 2 eexists; split; reflexivity|]. split; [apply (dash_no_title "  "); reflexivity|].
  repeat split; discriminate.
Qed.
Example ex_described : document "Section" "Description" ("Optional arguments: of the program" :: sample ++ []) ("Section" :: "" :: "" :: tabbed 1 "of the program" :: sample_rst ++ []).
Proof.
  apply (doc_described "Section" "Description" "Optional arguments" "of the program" sample sample_rst [] []); [|discriminate| |apply ex_body|constructor].
  - split; [split; [discriminate|reflexivity]|]. split; [|repeat split; discriminate]. intros t E. assert (X : endswith "optional arguments" "ex" = true) by (apply endswith_iff; exists t; exact E). discriminate.
  - intros t E. assert (X : endswith "optional arguments: of the program" "ex:" = true) by (apply endswith_iff; exists t; exact E). discriminate.
Qed.
Example ex_sections : Forall one_line ("Optional arguments:" :: sample ++ []) /\
  document "Section" "Description" ("Optional arguments:" :: sample ++ []) ("Section" :: "" :: sample_rst ++ []) /\ constant_format "Section" /\
  program_of "/usr/bin/prog [-h] FILE" "prog" /\ strip "/usr/bin/prog [-h] FILE" = "/usr/bin/prog [-h] FILE".
Proof.
  split; [repeat constructor|]. split; [|split; [reflexivity|split; [|reflexivity]]].
  - apply (doc_section "Section" "Description" "Optional arguments" sample sample_rst [] []); [|apply ex_body|constructor].
    split; [split; [discriminate|reflexivity]|]. split; [|repeat split; discriminate]. intros t E. assert (X : endswith "optional arguments" "ex" = true) by (apply endswith_iff; exists t; exact E). discriminate.
  - exists "/usr/bin/", "/usr/bin/prog", " [-h] FILE". repeat split; try discriminate; [right; now exists "[-h] FILE"|right; now exists "/usr/bin"].
Qed.
