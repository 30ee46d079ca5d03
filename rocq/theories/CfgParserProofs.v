(** Facts on the model CfgParser *)
From Verif Require Export CfgParser.
Open Scope string_scope.

Definition flags_in (l : list action) : list string := flat_map a_flags l.
Lemma has_string_in l f : has_string l f = true <-> In f l.
Proof.
  unfold has_string. rewrite existsb_exists. split; [intros (x & Hx & E); apply String.eqb_eq in E; now subst|]. intro H. exists f. split; auto. apply String.eqb_refl.
Qed.
Lemma has_string_not l f : has_string l f = false <-> ~ In f l.
Proof. rewrite <- has_string_in. now destruct (has_string l f). Qed.
Lemma taken_in P f : taken P f = true <-> In f (flags_in (p_actions P)).
Proof.
  unfold taken, flags_in. rewrite existsb_exists, in_flat_map. split; intros (a & H & K); exists a; (split; [exact H|]); now apply has_string_in.
Qed.

(** ** Stealing *)
Definition frees (F : list string) (l : list string) : list string := List.filter (fun f => negb (has_string F f)) l.
Lemma frees_in F l f : In f (frees F l) <-> In f l /\ ~ In f F.
Proof. unfold frees. rewrite filter_In, negb_true_iff, has_string_not. reflexivity. Qed.
Lemma flags_app l m : flags_in (l ++ m) = (flags_in l ++ flags_in m)%list.
Proof. unfold flags_in. apply flat_map_app. Qed.
Lemma steal_app F l m : steal F (l ++ m) = (steal F l ++ steal F m)%list.
Proof. unfold steal. apply flat_map_app. Qed.
Lemma steal_cons F a l : steal F (a :: l) = (steal F [a] ++ steal F l)%list.
Proof. unfold steal. cbn [flat_map]. now rewrite app_nil_r. Qed.
Lemma frees_idem F G l : frees F (frees G l) = frees (G ++ F) l.
Proof.
  unfold frees. induction l as [|x l IH]; [reflexivity|]. cbn [List.filter].
  assert (E : has_string (G ++ F) x = (has_string G x || has_string F x)%bool) by (unfold has_string; apply existsb_app). rewrite E.
  destruct (has_string G x); cbn [negb orb]; [exact IH|]. cbn [List.filter]. destruct (has_string F x); cbn [negb]; rewrite IH; reflexivity.
Qed.
Lemma frees_id F l : (forall f, In f l -> ~ In f F) -> frees F l = l.
Proof.
  intro H. unfold frees. induction l as [|x l IH]; [reflexivity|]. cbn [List.filter]. rewrite (proj2 (has_string_not F x)) by (apply H; now left). cbn [negb]. f_equal. apply IH. intros f Hf. apply H. now right.
Qed.
Lemma steal1 F a : steal F [a] = match a_flags a with [] => [a] | _ => match frees F (a_flags a) with [] => [] | r => [mkaction r (a_what a) (a_group a)] end end.
Proof. unfold steal. cbn [flat_map]. rewrite app_nil_r. reflexivity. Qed.
Lemma steal_flags F l : flags_in (steal F l) = frees F (flags_in l).
Proof.
  induction l as [|a l IH]; [reflexivity|]. rewrite steal_cons, flags_app, IH. unfold flags_in at 3. cbn [flat_map]. fold (flags_in l).
  unfold frees at 2. rewrite filter_app. fold (frees F (a_flags a)) (frees F (flags_in l)). f_equal. rewrite steal1.
  destruct (a_flags a) as [|f fl] eqn:E; [unfold flags_in; cbn; now rewrite E|]. destruct (frees F (f :: fl)); [reflexivity|]. unfold flags_in. cbn. now rewrite app_nil_r.
Qed.
Lemma steal_id F l : (forall f, In f (flags_in l) -> ~ In f F) -> steal F l = l.
Proof.
  induction l as [|a l IH]; intro H; [reflexivity|]. rewrite steal_cons, IH by (intros f Hf; apply H; unfold flags_in in *; cbn [flat_map]; apply in_or_app; now right).
  change (a :: l) with ([a] ++ l)%list. f_equal. rewrite steal1. destruct (a_flags a) as [|f fl] eqn:E; [reflexivity|].
  rewrite frees_id by (intros x Hx; apply H; unfold flags_in; cbn [flat_map]; rewrite E; apply in_or_app; now left). destruct a as [q w g]; cbn in *; now subst.
Qed.
Lemma steal_steal F G l : steal F (steal G l) = steal (G ++ F) l.
Proof.
  induction l as [|a l IH]; [reflexivity|]. rewrite (steal_cons G), steal_app, IH, (steal_cons (G ++ F)). f_equal. rewrite !steal1.
  destruct (a_flags a) as [|f fl] eqn:E; [rewrite steal1, E; reflexivity|]. rewrite <- frees_idem. destruct (frees G (f :: fl)) as [|x r] eqn:Er; [reflexivity|].
  rewrite steal1. cbn [a_flags a_what a_group]. reflexivity.
Qed.
Lemma steal_in F l a' : In a' (steal F l) <-> exists a, In a l /\ a_what a' = a_what a /\ a_group a' = a_group a /\ a_flags a' = frees F (a_flags a) /\ (a_flags a = [] \/ a_flags a' <> []).
Proof.
  induction l as [|a l IH].
  - split; [intros []|]. intros (a & [] & _).
  - rewrite steal_cons, in_app_iff, IH, steal1. split.
    + intros [H|(b & Hb & K)]; [|exists b; split; [now right|exact K]]. exists a. split; [now left|]. destruct (a_flags a) as [|f fl] eqn:E.
      * destruct H as [<-|[]]. rewrite E. auto.
      * destruct (frees F (f :: fl)) as [|x r] eqn:Er; [destruct H|]. destruct H as [<-|[]]. cbn [a_flags a_what a_group]. repeat split; auto. right; discriminate.
    + intros (b & [<-|Hb] & K); [|right; eauto]. left. destruct K as (K1 & K2 & K3 & K4). destruct (a_flags a) as [|f fl] eqn:E.
      * left. destruct a as [q w g], a' as [q' w' g']. cbn in *. now subst.
      * destruct K4 as [K4|K4]; [discriminate|]. rewrite <- K3. destruct a' as [q' w' g']. cbn in *. destruct q' as [|x r]; [contradiction|]. left. now rewrite K1, K2.
Qed.

(** ** Adding under the handler "error" *)
Definition adds (l : list action) (P : parser) : res parser :=
  fold_left (fun r a => let* P := r in add_with HError (a_group a) (a_flags a) (a_what a) P) l (Ok P).
Lemma adds_raise l e : fold_left (fun r a => let* P := r in add_with HError (a_group a) (a_flags a) (a_what a) P) l (@Raise parser e) = Raise e.
Proof. induction l as [|a l IH]; [reflexivity|exact IH]. Qed.
Lemma adds_cons a l P : adds (a :: l) P = let* P := add_with HError (a_group a) (a_flags a) (a_what a) P in adds l P.
Proof. unfold adds. cbn [fold_left]. cbn [bind]. destruct (add_with HError (a_group a) (a_flags a) (a_what a) P) as [P'|e]; [reflexivity|apply adds_raise]. Qed.
Lemma adds_app l m P : adds (l ++ m) P = let* P := adds l P in adds m P.
Proof.
  revert P. induction l as [|a l IH]; intro P; [reflexivity|]. cbn [app]. rewrite !adds_cons. destruct (add_with _ _ _ _ P) as [P'|e]; [apply IH|reflexivity].
Qed.
Lemma set_actions_twice P l m : set_actions (set_actions P l) m = set_actions P m.
Proof. reflexivity. Qed.
Lemma nodup_app_split {A} (l m : list A) : NoDup (l ++ m) -> NoDup l /\ NoDup m /\ forall x, In x l -> ~ In x m.
Proof.
  induction l as [|a l IH]; cbn [app]; intro H; [repeat split; auto; try constructor; intros x []|]. apply NoDup_cons_iff in H. destruct H as [H1 H2]. destruct (IH H2) as (A1 & A2 & A3).
  split; [constructor; auto; intro; apply H1, in_or_app; auto|]. split; [exact A2|]. intros x [<-|Hx] K; [apply H1, in_or_app; auto|exact (A3 x Hx K)].
Qed.
Lemma nodup_app_intro {A} (l m : list A) : NoDup l -> NoDup m -> (forall x, In x l -> ~ In x m) -> NoDup (l ++ m).
Proof.
  intros H1 H2 H3. induction H1 as [|a l N _ IH]; [exact H2|]. cbn [app]. constructor.
  - rewrite in_app_iff. intros [K|K]; [contradiction|]. exact (H3 a (or_introl eq_refl) K).
  - apply IH. intros x Hx. apply H3. now right.
Qed.
Definition each_once (l : list action) : Prop := Forall (fun a => NoDup (a_flags a)) l.
Lemma adds_ok l P : NoDup (flags_in (p_actions P) ++ flags_in l) -> adds l P = Ok (set_actions P (p_actions P ++ l)).
Proof.
  revert P. induction l as [|a l IH]; intros P H; [rewrite app_nil_r; destruct P; reflexivity|]. rewrite adds_cons. unfold add_with.
  assert (E : existsb (taken P) (a_flags a) = false).
  { destruct (existsb (taken P) (a_flags a)) eqn:X; [|reflexivity]. apply existsb_exists in X. destruct X as (f & Hf & T). apply taken_in in T.
    destruct (nodup_app_split _ _ H) as (_ & _ & K). exfalso. apply (K f T). unfold flags_in. cbn [flat_map]. apply in_or_app. now left. }
  rewrite E. cbn [bind]. rewrite IH.
  - rewrite set_actions_twice. cbn [p_actions set_actions]. destruct a as [q w g]. cbn [a_flags a_what a_group]. now rewrite <- app_assoc.
  - cbn [p_actions set_actions]. rewrite flags_app, <- app_assoc. unfold flags_in at 2. cbn [flat_map a_flags]. rewrite app_nil_r. exact H.
Qed.
Lemma adds_inv l P P' : each_once l -> NoDup (flags_in (p_actions P)) -> adds l P = Ok P' -> NoDup (flags_in (p_actions P) ++ flags_in l).
Proof.
  revert P. induction l as [|a l IH]; intros P W H E; [cbn; rewrite app_nil_r; exact H|]. rewrite adds_cons in E. unfold add_with in E. inversion W as [|? ? Wa Wl]; subst.
  destruct (existsb (taken P) (a_flags a)) eqn:X; [discriminate|]. cbn [bind] in E. apply IH in E; [|exact Wl|].
  - cbn [p_actions set_actions] in E. rewrite flags_app, <- app_assoc in E. unfold flags_in at 2 in E. cbn [flat_map a_flags] in E. rewrite app_nil_r in E. exact E.
  - cbn [p_actions set_actions]. rewrite flags_app. unfold flags_in at 2. cbn [flat_map a_flags]. rewrite app_nil_r. apply nodup_app_intro; auto.
    intros f Hf K. assert (T : existsb (taken P) (a_flags a) = true) by (apply existsb_exists; exists f; split; [exact K|now apply taken_in]). congruence.
Qed.
Lemma adds_error l P e : adds l P = Raise e -> e = ValueError.
Proof.
  revert P. induction l as [|a l IH]; intros P E; [discriminate|]. rewrite adds_cons in E. unfold add_with in E. destruct (existsb _ _); [injection E as <-; reflexivity|]. cbn [bind] in E. eauto.
Qed.

(** ** The steps of declare *)
Definition FOUR : list string := ["-h"; "--help"; "--long-help"; "--short-help"].
Definition HELPS : list action := [mkaction ["-h"; "--help"] ShortHelp 1; mkaction ["--long-help"] LongHelp 1; mkaction ["--short-help"] VeryShortHelp 1].
Lemma add_helps_eq P : add_helps P = Ok (set_actions P (steal FOUR (p_actions P) ++ HELPS)).
Proof.
  unfold add_helps, add_with. cbn [bind]. rewrite !set_actions_twice. cbn [p_actions set_actions]. f_equal. f_equal.
  rewrite !steal_app, !steal_steal, <- !app_assoc. cbn [app]. reflexivity.
Qed.
Definition extra_actions (extras : list (list string)) : list action :=
  match rev extras with [] => [] | flags :: before => [mkaction flags (Extra (List.length before)) (match flags with [] => 0 | _ => 1 end)] end.
Definition cfg_actions (o : cfgopt) : list action := match cfg_flags o with [] => [] | flags => [mkaction flags CfgFile 1] end.
Definition all_error (P : parser) : Prop := p_handler P = HError /\ forall g, In g (p_groups P) -> g_handler g = HError.
Lemma handler_error P g : all_error P -> handler_of P g = HError.
Proof. intros [H1 H2]. unfold handler_of. destruct (nth_error (p_groups P) g) eqn:E; [apply H2; eapply nth_error_In; eauto|exact H1]. Qed.
Lemma all_error_actions P l : all_error P -> all_error (set_actions P l).
Proof. intro H. exact H. Qed.
Lemma all_error_group P t d : all_error P -> all_error (add_group t d P).
Proof. intros [H1 H2]. split; [exact H1|]. cbn [p_groups add_group set_groups]. intros g Hg. apply in_app_or in Hg. destruct Hg as [Hg|[<-|[]]]; auto. Qed.
Lemma add_extras_eq extras P : all_error P -> add_extras extras P = adds (extra_actions extras) P.
Proof.
  intro H. unfold add_extras, extra_actions. destruct (rev extras) as [|fl before]; [reflexivity|]. unfold add_argument, add_to. rewrite handler_error by exact H. rewrite adds_cons. cbn [a_flags a_what a_group].
  destruct (add_with _ _ _ _ _); reflexivity.
Qed.
Lemma add_cfgfile_eq o P : all_error P -> add_cfgfile o P = adds (cfg_actions o) P.
Proof.
  intro H. unfold add_cfgfile, cfg_actions. destruct (cfg_flags o) as [|f fl]; [reflexivity|]. unfold add_argument, add_to. rewrite handler_error by exact H. rewrite adds_cons. cbn [a_flags a_what a_group].
  destruct (add_with _ _ _ _ _); reflexivity.
Qed.
Definition conf_action (g : nat) (nested : option string) (p : path) : action := mkaction ["--" ++ flag nested p] (Conf p) g.
Lemma adds_keeps l P P' : adds l P = Ok P' -> p_groups P' = p_groups P /\ p_handler P' = p_handler P.
Proof.
  revert P. induction l as [|a l IH]; intros P E; [injection E as <-; auto|]. rewrite adds_cons in E. unfold add_with in E. destruct (existsb _ _); [discriminate|]. cbn [bind] in E. apply IH in E. exact E.
Qed.
Lemma add_options_eq g nested l P : all_error P -> add_options g nested l P = adds (map (conf_action g nested) l) P.
Proof.
  revert P. induction l as [|p l IH]; intros P H; [reflexivity|]. cbn [add_options map]. rewrite adds_cons. unfold add_to. rewrite handler_error by exact H. cbn [conf_action a_flags a_what a_group].
  unfold add_with. destruct (existsb _ _); [reflexivity|]. cbn [bind]. apply IH. exact H.
Qed.
Definition section_paths (exc : list string) (paths : list path) (name : string) : list path := List.filter (fun p => in_section name p && declared exc p) paths.
Definition global_paths (exc : list string) (paths : list path) : list path := List.filter (fun p => is_global p && declared exc p) paths.
Fixpoint section_actions (exc : list string) (nested : option string) (paths : list path) (g : nat) (l : list (string * option string)) : list action :=
  match l with
  | [] => []
  | (name, _) :: l' => (map (conf_action g nested) (section_paths exc paths name) ++ section_actions exc nested paths (S g) l')%list
  end.
Definition section_group (h : handler) (s : string * option string) : group :=
  mkgroup (Some (fst (section_desc (fst s) (snd s)))) (snd (section_desc (fst s) (snd s))) h.
Lemma add_group_actions t d P : p_actions (add_group t d P) = p_actions P. Proof. reflexivity. Qed.
Lemma add_sections_ok exc nested paths l P : all_error P -> NoDup (flags_in (p_actions P) ++ flags_in (section_actions exc nested paths (List.length (p_groups P)) l)) ->
  add_sections exc nested paths l P =
  Ok (set_groups (set_actions P (p_actions P ++ section_actions exc nested paths (List.length (p_groups P)) l)) (p_groups P ++ map (section_group (p_handler P)) l)).
Proof.
  revert P. induction l as [|[name c] l IH]; intros P H N.
  - cbn. rewrite !app_nil_r. now destruct P.
  - cbn [add_sections section_actions map] in *. destruct (section_desc name c) as [t d] eqn:Ed. rewrite flags_app, app_assoc in N. rewrite add_options_eq by now apply all_error_group.
    fold (section_paths exc paths name). rewrite adds_ok by (rewrite add_group_actions; eapply proj1; eapply nodup_app_split; exact N). cbn [bind].
    rewrite IH.
    + rewrite add_group_actions. cbn [p_groups p_actions set_actions add_group set_groups p_handler]. f_equal. unfold section_group at 2. cbn [fst snd]. rewrite Ed. cbn [fst snd].
      rewrite app_length. cbn [List.length]. rewrite Nat.add_1_r, <- !app_assoc. reflexivity.
    + apply all_error_actions, all_error_group, H.
    + cbn [p_groups p_actions set_actions add_group set_groups]. rewrite app_length. cbn [List.length]. rewrite Nat.add_1_r, flags_app. exact N.
Qed.
Lemma conf_once g nested l : each_once (map (conf_action g nested) l).
Proof. apply Forall_forall. intros a Ha. apply in_map_iff in Ha. destruct Ha as (p & <- & _). cbn. constructor; [intros []|constructor]. Qed.
Lemma add_sections_inv exc nested paths l P P' : all_error P -> NoDup (flags_in (p_actions P)) -> add_sections exc nested paths l P = Ok P' ->
  NoDup (flags_in (p_actions P) ++ flags_in (section_actions exc nested paths (List.length (p_groups P)) l)).
Proof.
  revert P. induction l as [|[name c] l IH]; intros P H N E; [cbn; rewrite app_nil_r; exact N|]. cbn [add_sections section_actions] in *. destruct (section_desc name c) as [t d] eqn:Ed.
  rewrite add_options_eq in E by now apply all_error_group. fold (section_paths exc paths name) in E.
  destruct (adds _ _) as [P1|e] eqn:E1; [|discriminate]. cbn [bind] in E.
  assert (N1 := adds_inv _ _ _ (conf_once _ _ _) ltac:(rewrite add_group_actions; exact N) E1). rewrite add_group_actions in N1.
  rewrite adds_ok in E1 by (rewrite add_group_actions; exact N1). injection E1 as <-. apply IH in E.
  - cbn [p_groups p_actions set_actions add_group set_groups] in E. rewrite app_length in E. cbn [List.length] in E. rewrite Nat.add_1_r, flags_app in E. rewrite flags_app, app_assoc. exact E.
  - apply all_error_actions, all_error_group, H.
  - cbn [p_actions set_actions add_group set_groups]. rewrite flags_app. exact N1.
Qed.
Lemma add_sections_error exc nested paths l P e : all_error P -> add_sections exc nested paths l P = Raise e -> e = ValueError.
Proof.
  revert P. induction l as [|[name c] l IH]; intros P H E; [discriminate|]. cbn [add_sections] in E. destruct (section_desc name c) as [t d].
  rewrite add_options_eq in E by now apply all_error_group. destruct (adds _ _) as [P1|e1] eqn:E1; cbn [bind] in E.
  - apply IH in E; auto. apply adds_keeps in E1. destruct E1 as [G1 G2]. destruct (all_error_group P (Some t) d H) as [A1 A2]. split; [congruence|]. rewrite G1. exact A2.
  - injection E as <-. eapply adds_error; eauto.
Qed.

(** ** declare *)
Section declare.
  Variables (exc : list string) (nested : option string) (extras : list (list string)) (o : cfgopt) (c : config).
  Definition before_groups (P : parser) : list action := (steal FOUR (p_actions P) ++ HELPS ++ extra_actions extras ++ cfg_actions o)%list.
  Definition conf_actions (g : nat) : list action :=
    (map (conf_action g nested) (global_paths exc (c_paths c)) ++ section_actions exc nested (c_paths c) (S g) (c_sections c))%list.
  Definition final (P : parser) (d : string * option string) : parser :=
    set_groups (set_actions P (before_groups P ++ conf_actions (List.length (p_groups P))))
               (p_groups P ++ [mkgroup (Some (fst d)) (snd d) (p_handler P)] ++ map (section_group (p_handler P)) (c_sections c)).
  Definition all_strings (P : parser) : list string := flags_in (before_groups P ++ conf_actions (List.length (p_groups P))).
  Lemma declare_eq P : all_error P -> declare exc nested extras o c P =
    let* P1 := adds (extra_actions extras ++ cfg_actions o) (set_actions P (steal FOUR (p_actions P) ++ HELPS)) in
    let* d := global_desc (c_initial c) in
    let* P2 := adds (map (conf_action (List.length (p_groups P)) nested) (global_paths exc (c_paths c))) (add_group (Some (fst d)) (snd d) P1) in
    add_sections exc nested (c_paths c) (c_sections c) P2.
  Proof.
    intro H. unfold declare. rewrite add_helps_eq. cbn [bind]. rewrite add_extras_eq by exact H. rewrite adds_app. destruct (adds (extra_actions extras) _) as [P1|e] eqn:E1; [|reflexivity]. cbn [bind].
    destruct (adds_keeps _ _ _ E1) as [G1 G2]. assert (H1 : all_error P1) by (destruct H as [A1 A2]; split; [rewrite G2; exact A1|rewrite G1; exact A2]).
    rewrite add_cfgfile_eq by exact H1. destruct (adds (cfg_actions o) P1) as [P2|e] eqn:E2; [|reflexivity]. cbn [bind].
    destruct (adds_keeps _ _ _ E2) as [G3 G4]. assert (H2 : all_error P2) by (destruct H1 as [A1 A2]; split; [rewrite G4; exact A1|rewrite G3; exact A2]).
    destruct (global_desc (c_initial c)) as [d|e]; [|reflexivity]. cbn [bind]. rewrite add_options_eq by now apply all_error_group.
    rewrite G3, G1. cbn [p_groups set_actions]. reflexivity.
  Qed.
  Lemma declare_ok P d : all_error P -> global_desc (c_initial c) = Ok d -> NoDup (all_strings P) -> declare exc nested extras o c P = Ok (final P d).
  Proof.
    intros H Hd N. rewrite declare_eq by exact H. unfold all_strings, before_groups in N. rewrite <- !app_assoc in N. rewrite (app_assoc (steal _ _)) in N. set (S1 := (steal FOUR (p_actions P) ++ HELPS)%list) in *.
    rewrite (app_assoc (extra_actions extras)) in N. unfold conf_actions in N. rewrite !flags_app in N. rewrite app_assoc in N. rewrite (app_assoc (flags_in S1 ++ _)) in N.
    rewrite adds_ok by (cbn [p_actions set_actions]; rewrite flags_app; destruct (nodup_app_split _ _ N) as (N1 & _ & _); destruct (nodup_app_split _ _ N1) as (N2 & _ & _); exact N2). cbn [bind].
    rewrite Hd. cbn [bind]. rewrite adds_ok by (rewrite add_group_actions; cbn [p_actions set_actions]; rewrite !flags_app; destruct (nodup_app_split _ _ N) as (N1 & _ & _); exact N1). cbn [bind].
    rewrite add_sections_ok.
    - cbn [p_groups p_actions set_actions add_group set_groups p_handler]. f_equal. unfold final, before_groups, conf_actions. rewrite app_length. cbn [List.length]. rewrite Nat.add_1_r.
      rewrite <- !app_assoc. unfold S1. rewrite <- !app_assoc. reflexivity.
    - apply all_error_actions, all_error_group. exact H.
    - cbn [p_groups p_actions set_actions add_group set_groups p_handler]. rewrite app_length. cbn [List.length]. rewrite Nat.add_1_r. rewrite !flags_app. exact N.
  Qed.
  Hypothesis extras_once : Forall (@NoDup string) extras.
  Hypothesis opt_once : NoDup (cfg_flags o).
  Lemma first_once : each_once (extra_actions extras ++ cfg_actions o).
  Proof.
    apply Forall_app. split.
    - unfold extra_actions. assert (R : forall x, In x (rev extras) -> NoDup x) by (intros x Hx; apply in_rev in Hx; rewrite Forall_forall in extras_once; auto).
      destruct (rev extras) as [|x l]; [constructor|]. constructor; [apply R; now left|constructor].
    - unfold cfg_actions. destruct (cfg_flags o) as [|f fl]; [constructor|]. constructor; [exact opt_once|constructor].
  Qed.
  Lemma frees_nodup F (l : list string) : NoDup l -> NoDup (frees F l).
  Proof. apply NoDup_filter. Qed.
  Lemma start_nodup P : NoDup (flags_in (p_actions P)) -> NoDup (flags_in (steal FOUR (p_actions P) ++ HELPS)).
  Proof.
    intro N. rewrite flags_app, steal_flags. apply nodup_app_intro; [now apply frees_nodup| |].
    - cbn. repeat constructor; cbn; intuition discriminate.
    - intros x Hx K. apply frees_in in Hx. apply (proj2 Hx). exact K.
  Qed.
  Lemma declare_inv P P' : all_error P -> NoDup (flags_in (p_actions P)) -> declare exc nested extras o c P = Ok P' ->
    exists d, global_desc (c_initial c) = Ok d /\ NoDup (all_strings P) /\ P' = final P d.
  Proof.
    intros H N E. rewrite declare_eq in E by exact H. destruct (adds _ _) as [P1|e] eqn:E1; [|discriminate]. cbn [bind] in E.
    assert (N1 := adds_inv _ (set_actions P _) _ first_once (start_nodup P N) E1). cbn [p_actions set_actions] in N1. rewrite adds_ok in E1 by exact N1. injection E1 as <-.
    destruct (global_desc (c_initial c)) as [d|e] eqn:Ed; [|discriminate]. cbn [bind] in E. destruct (adds (map _ _) _) as [P2|e] eqn:E2; [|discriminate]. cbn [bind] in E.
    match type of E2 with adds ?l ?Q = _ => assert (N2 : NoDup (flags_in (p_actions Q) ++ flags_in l)) end.
    { eapply adds_inv; [apply conf_once| |exact E2]. cbn [p_actions set_actions add_group set_groups]. rewrite flags_app. exact N1. }
    assert (N2' := N2). rewrite adds_ok in E2 by exact N2. injection E2 as <-. cbn [p_actions set_actions add_group set_groups] in N2'.
    assert (N3 : NoDup (all_strings P)).
    { apply add_sections_inv in E; [|apply all_error_actions, all_error_group; exact H|cbn [p_actions set_actions add_group set_groups]; rewrite flags_app; exact N2'].
       cbn [p_groups p_actions set_actions add_group set_groups] in E. rewrite app_length in E. cbn [List.length] in E. rewrite Nat.add_1_r in E.
      unfold all_strings, before_groups, conf_actions. rewrite !flags_app in *. rewrite <- !app_assoc in *. exact E. }
    exists d. split; [reflexivity|]. split; [exact N3|]. assert (K := declare_ok P d H Ed N3). rewrite declare_eq in K by exact H. rewrite Ed in K.
    rewrite adds_ok in K by exact N1. cbn [bind] in K. rewrite adds_ok in K by exact N2. cbn [bind] in K.
    assert (X : Ok P' = Ok (final P d)) by (rewrite <- K, <- E; reflexivity). now injection X.
  Qed.
  Lemma declare_raise P e : all_error P -> NoDup (flags_in (p_actions P)) -> declare exc nested extras o c P = Raise e ->
    (e = ValueError /\ ~ NoDup (all_strings P)) \/ (e = UnboundLocalError /\ global_desc (c_initial c) = Raise e).
  Proof.
    intros H N E. assert (K : e = UnboundLocalError \/ e = ValueError).
    { rewrite declare_eq in E by exact H. destruct (adds _ _) as [P1|e1] eqn:E1; [|injection E as <-; right; eapply adds_error; eauto]. cbn [bind] in E.
      destruct (adds_keeps _ _ _ E1) as [G1 G2]. unfold global_desc in E. destruct (c_initial c) as [|x [|y l]]; cbn [bind] in E.
      - destruct (adds (map _ _) _) as [P2|e2] eqn:E2; cbn [bind] in E; [|injection E as <-; right; eapply adds_error; eauto]. right. eapply add_sections_error; [|exact E].
        destruct (adds_keeps _ _ _ E2) as [G3 G4]. assert (A := all_error_group P1 (Some GLOBAL) None ltac:(destruct H as [A1 A2]; split; [rewrite G2; exact A1|rewrite G1; exact A2])). destruct A as [A1 A2]. split; [rewrite G4; exact A1|rewrite G3; exact A2].
      - destruct (is_coding x); [injection E as <-; auto|]. cbn [bind] in E. destruct (adds (map _ _) _) as [P2|e2] eqn:E2; cbn [bind] in E; [|injection E as <-; right; eapply adds_error; eauto]. right. eapply add_sections_error; [|exact E].
        destruct (adds_keeps _ _ _ E2) as [G3 G4]. assert (A := all_error_group P1 (Some GLOBAL) None ltac:(destruct H as [A1 A2]; split; [rewrite G2; exact A1|rewrite G1; exact A2])). destruct A as [A1 A2]. split; [rewrite G4; exact A1|rewrite G3; exact A2].
      - set (d := if is_coding x then _ else _) in E. assert (Ed : exists dd, d = Ok dd) by (unfold d; destruct (is_coding x); eauto). destruct Ed as [dd ->]. cbn [bind] in E.
        destruct (adds (map _ _) _) as [P2|e2] eqn:E2; cbn [bind] in E; [|injection E as <-; right; eapply adds_error; eauto]. right. eapply add_sections_error; [|exact E].
        destruct (adds_keeps _ _ _ E2) as [G3 G4]. assert (A := all_error_group P1 (Some (fst dd)) (snd dd) ltac:(destruct H as [A1 A2]; split; [rewrite G2; exact A1|rewrite G1; exact A2])). destruct A as [A1 A2]. split; [rewrite G4; exact A1|rewrite G3; exact A2]. }
    destruct (global_desc (c_initial c)) as [d|e1] eqn:Ed.
    - left. destruct K as [->| ->].
      + exfalso. clear -E H N Ed. rewrite declare_eq in E by exact H. rewrite Ed in E. destruct (adds _ _) as [P1|e1] eqn:E1; [|injection E as ->; apply adds_error in E1; discriminate]. cbn [bind] in E.
        destruct (adds_keeps _ _ _ E1) as [G1 G2]. destruct (adds (map _ _) _) as [P2|e2] eqn:E2; cbn [bind] in E; [|injection E as ->; apply adds_error in E2; discriminate].
        apply add_sections_error in E; [discriminate|]. destruct (adds_keeps _ _ _ E2) as [G3 G4]. assert (A := all_error_group P1 (Some (fst d)) (snd d) ltac:(destruct H as [A1 A2]; split; [rewrite G2; exact A1|rewrite G1; exact A2])). destruct A as [A1 A2]. split; [rewrite G4; exact A1|rewrite G3; exact A2].
      + split; [reflexivity|]. intro X. rewrite (declare_ok P d H Ed X) in E. discriminate.
    - assert (X : e1 = UnboundLocalError). { unfold global_desc in Ed. destruct (c_initial c) as [|x [|y l]]; try discriminate; destruct (is_coding x); try discriminate. now injection Ed as <-. } subst e1.
      destruct K as [->| ->]; [right; auto|]. left. split; [reflexivity|]. intro NN. rewrite declare_eq in E by exact H. rewrite Ed in E. rewrite adds_ok in E; [discriminate|].
      unfold all_strings in NN. rewrite flags_app in NN. apply nodup_app_split in NN. destruct NN as [NN _]. unfold before_groups in NN. rewrite app_assoc, flags_app in NN. exact NN.
  Qed.
End declare.
