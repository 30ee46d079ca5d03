(** C75, continued: failures, histories, comments. *)
From Verif Require Import PyDictFacts.
From Verif Require Import BoolSpec BoolSpecProps.
From Verif Require Import CfgSpecsProofs CfgSpecsProps.
From Coq Require Import Lia.
Open Scope string_scope.

(** ** A manager that can not be made *)
(** An option that is not a text, or that can not be parsed *)
Definition bad_option (v : val) (e : exn) : Prop := match v with VStr s => parse_check s = Raise e | _ => e = TypeError end.
Lemma set_false_raise s e : set_false s = Raise e -> parse_check s = Raise e.
Proof.
  unfold set_false. destruct (parse_check s) as [c|]; cbn [bind]; [|intro H; injection H as <-; reflexivity].
  destruct (_ && _); [|discriminate]. destruct (c_args c), (c_kwargs c); discriminate.
Qed.
Lemma kept_dec f q : kept_by f q \/ ~ kept_by f q.
Proof.
  destruct f as [[d g]|]; [|now left]. cbn [kept_by]. revert d g. induction q as [|x q' IHq]; intros d g; [now left|]. cbn [kept].
  assert (A : allowed d g x \/ ~ allowed d g x) by (rewrite <- keep_allowed; destruct (f_keep d g x); [now left|right; discriminate]).
  destruct A as [A|A]; [|right; tauto]. destruct (dget d x) as [[|d'|]|]; try (left; tauto). destruct q'; [left; tauto|]. destruct (IHq d' false); [left|right]; tauto.
Qed.
(** The only cause is an option that is kept and bad.  The object is left filtered, with a part of
    the booleans completed. *)
Theorem C75_failure st a t flt bf e st' : holds st a t -> new_manager (Object a) flt bf st = (Raise e, st') ->
  bf = true /\ (exists q v, kept_by flt q /\ option_at t q = Some v /\ bad_option v e) /\
  exists t', holds st' a t' /\
  (forall q, kept_by flt q ->
     section_at t' q = section_at t q /\
     match option_at t q with
     | Some v => option_at t' q = Some v \/ exists s s', v = VStr s /\ set_false s = Ok s' /\ option_at t' q = Some (VStr s')
     | None => option_at t' q = None
     end) /\
  (forall q, ~ kept_by flt q -> section_at t' q = false /\ option_at t' q = None) /\
  (forall b, b <> a -> nth_error (st_specs st') b = nth_error (st_specs st) b).
Proof.
  intros H Hn. destruct (first_part st a t flt H) as (st1 & Hm & H1 & Ho & _). rewrite (Hm bf) in Hn. clear Hm. destruct bf; [|discriminate]. split; [reflexivity|].
  assert (W := h_wf _ _ _ H). destruct (walk_false (filtered flt t)) as [t2 w] eqn:Ew. assert (Wk := walk_walked _ _ (filtered_wf flt t W) _ _ Ew).
  destruct w as [x|]; [|discriminate]. injection Hn as <- <-. split.
  - destruct (w_err _ _ _ _ Wk x eq_refl) as (q & v & Hv & Hf). destruct (kept_dec flt q) as [K|K].
    + exists q, v. split; [exact K|]. destruct (proj1 (filtered_at flt t q W) K) as [E _]. split; [congruence|].
      destruct v; cbn in *; auto. now apply set_false_raise.
    + destruct (proj2 (filtered_at flt t q W) K) as [E _]. congruence.
  - destruct H1 as [(sp & Hsp & Ht & Hi & Hc) W1]. destruct (set_tree_spec st1 a t2 sp Hsp) as (A & B & C & D).
    exists t2. split; [|split; [|split]].
    + split; [|apply Wk]. exists (mkspec t2 (sp_inline sp)). split; [exact A|]. split; [reflexivity|]. cbn [sp_inline]. rewrite C. split; [exact Hi|].
      intros k Hk. rewrite (w_sc _ _ _ _ Wk), (w_ss _ _ _ _ Wk) in Hk. unfold the_dict. rewrite C. now apply Hc.
    + intros q Hq. destruct (proj1 (filtered_at flt t q W) Hq) as [E1 E2]. rewrite (w_sec _ _ _ _ Wk). split; [exact E2|]. rewrite <- E1.
      destruct (option_at (filtered flt t) q) as [v|] eqn:Ev; [|now apply (w_none _ _ _ _ Wk)].
      destruct (w_opt _ _ _ _ Wk q v Ev) as (v' & Ev' & [(s & s' & -> & Es & ->)|[_ ->]]); [right; eauto|now left].
    + intros q Hq. destruct (proj2 (filtered_at flt t q W) Hq) as [E1 E2]. rewrite (w_sec _ _ _ _ Wk). split; [exact E2|]. now apply (w_none _ _ _ _ Wk).
    + intros b Hb. rewrite B by exact Hb. now apply Ho.
Qed.
(** And it is one *)
Theorem C75_bad st a t flt q v e : holds st a t -> kept_by flt q -> option_at t q = Some v -> bad_option v e ->
  exists e' st', new_manager (Object a) flt true st = (Raise e', st').
Proof.
  intros H K Hv Hb. destruct (first_part st a t flt H) as (st1 & Hm & _). rewrite (Hm true). clear Hm. assert (W := h_wf _ _ _ H).
  destruct (walk_false (filtered flt t)) as [t2 [x|]] eqn:Ew; [eauto|]. exfalso. assert (Wk := walk_walked _ _ (filtered_wf flt t W) _ _ Ew).
  destruct (proj1 (filtered_at flt t q W) K) as [E _]. rewrite Hv in E. destruct (w_opt _ _ _ _ Wk q v E) as (v' & _ & [(s & s' & -> & Es & _)|[X _]]); [|congruence].
  cbn in Hb. rewrite (C59_bad s e Hb) in Es. discriminate.
Qed.

(** ** What each operation may change *)
Record evolves (st st' : state) (S C D : nat -> Prop) : Prop := {
  e_specs : forall a sp, nth_error (st_specs st) a = Some sp -> exists sp', nth_error (st_specs st') a = Some sp' /\ sp_inline sp' = sp_inline sp /\ (~ S a -> sp' = sp);
  e_configs : forall c cg, nth_error (st_configs st) c = Some cg -> exists cg', nth_error (st_configs st') c = Some cg' /\ cg_inline cg' = cg_inline cg /\ (~ C c -> cg' = cg);
  e_len : (List.length (st_dicts st) <= List.length (st_dicts st'))%nat;
  e_dicts : forall x, (x < List.length (st_dicts st))%nat -> ~ D x -> the_dict st' x = the_dict st x;
  e_new_specs : forall a sp, nth_error (st_specs st') a = Some sp -> (sp_inline sp < List.length (st_dicts st'))%nat \/ exists sp0, nth_error (st_specs st) a = Some sp0;
  e_fresh_specs : forall a sp, nth_error (st_specs st') a = Some sp -> nth_error (st_specs st) a = None -> sp_inline sp = List.length (st_dicts st);
  e_new_configs : forall c cg, nth_error (st_configs st') c = Some cg -> nth_error (st_configs st) c = None ->
    (cg_inline cg = List.length (st_dicts st) /\ (cg_inline cg < List.length (st_dicts st'))%nat) \/ exists a sp, nth_error (st_specs st) a = Some sp /\ sp_inline sp = cg_inline cg }.
Lemma evolves_refl st S C D : evolves st st S C D.
Proof. constructor; eauto; intros; congruence. Qed.
Lemma evolves_dict st x d (S C D : nat -> Prop) : D x -> evolves st (set_dict st x d) S C D.
Proof.
  intro Hx. constructor; unfold set_dict; cbn [st_specs st_configs st_dicts]; eauto; try (intros; congruence).
  - now rewrite put_nth_length.
  - intros y Hy Hd. unfold the_dict. cbn [st_dicts]. apply nth_put_other. intros ->. contradiction.
Qed.
Lemma evolves_tree st a t (S C D : nat -> Prop) : S a -> evolves st (set_tree st a t) S C D.
Proof.
  intro Ha. unfold set_tree. destruct (nth_error (st_specs st) a) as [sp|] eqn:E; [|apply evolves_refl].
  assert (P : forall b, nth_error (put_nth (st_specs st) a {| sp_tree := t; sp_inline := sp_inline sp |}) b = if Nat.eqb a b then Some (mkspec t (sp_inline sp)) else nth_error (st_specs st) b).
  { intro b. destruct (Nat.eqb_spec a b) as [<-|N]; [eapply put_nth_same; eauto|now apply put_nth_other]. }
  constructor; cbn [st_specs st_configs st_dicts]; eauto; try (intros; congruence).
  - intros b sp0 Hb. rewrite P. destruct (Nat.eqb_spec a b) as [<-|N]; [|eauto]. eexists. split; [reflexivity|]. cbn. split; [congruence|]. intro. contradiction.
  - intros b sp0. rewrite P. destruct (Nat.eqb_spec a b) as [<-|N]; eauto.
  - intros b sp0. rewrite P. destruct (Nat.eqb_spec a b) as [<-|N]; congruence.
Qed.
Lemma evolves_trans st1 st2 st3 (S C D : nat -> Prop) :
  (forall x, nth_error (st_specs st2) x = None -> nth_error (st_specs st3) x = None) -> st_configs st3 = st_configs st2 -> List.length (st_dicts st3) = List.length (st_dicts st2) ->
  evolves st1 st2 S C D -> evolves st2 st3 S C (fun x => D x \/ (List.length (st_dicts st1) <= x)%nat) -> evolves st1 st3 S C D.
Proof.
  intros Hs Hc Hl A B. destruct A as [A1 A2 A3 A4 A5 A6 A7], B as [B1 B2 B3 B4 B5 B6 B7]. constructor.
  - intros a sp H. destruct (A1 a sp H) as (sp2 & H2 & E2 & U2). destruct (B1 a sp2 H2) as (sp3 & H3 & E3 & U3). exists sp3. split; [exact H3|]. split; [congruence|]. intro X. rewrite U3, U2; auto.
  - intros c cg H. destruct (A2 c cg H) as (sp2 & H2 & E2 & U2). destruct (B2 c sp2 H2) as (sp3 & H3 & E3 & U3). exists sp3. split; [exact H3|]. split; [congruence|]. intro X. rewrite U3, U2; auto.
  - lia.
  - intros x Hx Hd. rewrite B4, A4; auto; [lia|]. intros [|]; [contradiction|lia].
  - intros a sp H. destruct (nth_error (st_specs st2) a) as [sp2|] eqn:E2; [|apply Hs in E2; congruence].
    destruct (B1 a sp2 E2) as (sp3 & H3 & E3 & _). rewrite H in H3. injection H3 as <-. destruct (A5 a sp2 E2) as [X|X]; [left; lia|now right].
  - intros a sp H N. destruct (nth_error (st_specs st2) a) as [sp2|] eqn:E2; [|apply Hs in E2; congruence].
    destruct (B1 a sp2 E2) as (sp3 & H3 & E3 & _). rewrite H in H3. injection H3 as <-. rewrite E3. eauto.
  - intros c cg H N. rewrite Hc in H. destruct (A7 c cg H N) as [X|X]; [left; lia|now right].
Qed.

Definition touched_dict (st : state) (a x : nat) : Prop := exists sp, nth_error (st_specs st) a = Some sp /\ sp_inline sp = x.
Definition none (_ : nat) : Prop := False.
Lemma evolves_weaken st st' (S S' C D D' : nat -> Prop) : (forall x, S x -> S' x) -> (forall x, D x -> D' x) -> evolves st st' S C D -> evolves st st' S' C D'.
Proof.
  intros H1 H2 [A1 A2 A3 A4 A5 A6 A7]. constructor; auto.
  intros a sp H. destruct (A1 a sp H) as (sp' & X & Y & Z). exists sp'. split; [exact X|]. split; [exact Y|]. intro N. apply Z. intro. auto.
Qed.
Lemma set_tree_len st a t : (forall x, nth_error (st_specs st) x = None -> nth_error (st_specs (set_tree st a t)) x = None) /\ st_configs (set_tree st a t) = st_configs st /\ st_dicts (set_tree st a t) = st_dicts st.
Proof.
  unfold set_tree. destruct (nth_error (st_specs st) a) as [sp|] eqn:E; [|auto]. cbn [st_specs st_configs st_dicts]. split; auto.
  intros x Hx. apply nth_error_None. rewrite put_nth_length. now apply nth_error_None.
Qed.
Lemma manager_object st a flt bf : evolves st (snd (new_manager (Object a) flt bf st)) (eq a) none (touched_dict st a) /\
  (forall x, nth_error (st_specs st) x = None -> nth_error (st_specs (snd (new_manager (Object a) flt bf st))) x = None) /\
  st_configs (snd (new_manager (Object a) flt bf st)) = st_configs st /\ List.length (st_dicts (snd (new_manager (Object a) flt bf st))) = List.length (st_dicts st).
Proof.
  unfold new_manager. destruct (nth_error (st_specs st) a) as [sp|] eqn:E; cbn [snd]; [|split; [apply evolves_refl|auto]].
  set (p := match flt with Some (d, g) => _ | None => _ end).
  assert (P : evolves st (snd (fst p)) (eq a) none (touched_dict st a) /\
     (forall x, nth_error (st_specs st) x = None -> nth_error (st_specs (snd (fst p))) x = None) /\
     st_configs (snd (fst p)) = st_configs st /\ List.length (st_dicts (snd (fst p))) = List.length (st_dicts st)).
  { unfold p. destruct flt as [[d g]|]; [|cbn; split; [apply evolves_refl|auto]]. destruct (is_empty (sp_tree sp)); [cbn; split; [apply evolves_refl|auto]|].
    destruct (filter_top (sp_tree sp) d g (the_dict st (sp_inline sp))) as [[t i] e]. cbn [fst snd].
    destruct (set_tree_len st a t) as (L1 & L2 & L3).
    split; [|split; [exact L1|split; [exact L2|unfold set_dict; cbn [st_dicts]; rewrite put_nth_length; now rewrite L3]]].
    apply (evolves_trans st (set_tree st a t)); auto.
    - unfold set_dict. cbn [st_dicts]. now rewrite put_nth_length.
    - now apply evolves_tree.
    - apply evolves_dict. left. exists sp. auto. }
  destruct p as [[t st1] e]. cbn [fst snd] in P. destruct P as (P1 & P2 & P3 & P4).
  destruct e as [e|]; cbn [snd]; [auto|]. destruct bf; cbn [snd]; [|auto].
  destruct (walk_false t) as [t' [e|]]; cbn [snd]; destruct (set_tree_len st1 a t') as (L1 & L2 & L3).
  all: split; [|split; [auto|split; [congruence|congruence]]].
  all: apply (evolves_trans st st1); auto; [now rewrite L3|].
  all: now apply evolves_tree.
Qed.
Definition pushed (t : node) (i : dict string) (st : state) : state :=
  mkstate (st_specs st ++ [mkspec t (List.length (st_dicts st))])%list (st_configs st) (st_dicts st ++ [i])%list.
Lemma manager_file st t i flt bf : new_manager (File t i) flt bf st = new_manager (Object (List.length (st_specs st))) flt bf (pushed t i st).
Proof. reflexivity. Qed.
Lemma nth_error_snoc {A} (l : list A) x i y : nth_error (l ++ [x])%list i = Some y -> nth_error l i = Some y \/ (i = List.length l /\ y = x).
Proof.
  intro H. destruct (Nat.lt_ge_cases i (List.length l)) as [L|L]; [left; now rewrite nth_error_app1 in H|]. right. rewrite nth_error_app2 in H by exact L.
  destruct (i - List.length l)%nat as [|n] eqn:E; [|destruct n; discriminate]. cbn in H. injection H as <-. split; [lia|reflexivity].
Qed.
Lemma nth_error_keep {A} (l m : list A) i y : nth_error l i = Some y -> nth_error (l ++ m)%list i = Some y.
Proof. intro H. rewrite nth_error_app1; auto. apply nth_error_Some. congruence. Qed.
Lemma evolves_pushed t i st S C D : evolves st (pushed t i st) S C D.
Proof.
  constructor; unfold pushed; cbn [st_specs st_configs st_dicts].
  - intros a sp H. exists sp. split; [now apply nth_error_keep|auto].
  - eauto.
  - rewrite app_length. lia.
  - intros x Hx _. unfold the_dict. cbn [st_dicts]. now apply app_nth1.
  - intros a sp H. apply nth_error_snoc in H. destruct H as [H|[_ ->]]; [eauto|]. left. rewrite app_length. cbn. lia.
  - intros a sp H N. apply nth_error_snoc in H. destruct H as [H|[_ ->]]; [congruence|reflexivity].
  - intros. congruence.
Qed.
Lemma manager_step st src flt bf : evolves st (snd (new_manager src flt bf st)) (fun a => src = Object a) none (fun x => exists a, src = Object a /\ touched_dict st a x).
Proof.
  destruct src as [t i|a].
  - rewrite manager_file. destruct (manager_object (pushed t i st) (List.length (st_specs st)) flt bf) as (A & B & C & D).
    set (st' := snd _) in *.
    assert (X : evolves st st' (eq (List.length (st_specs st))) none (fun _ => False)).
    { apply (evolves_trans st (pushed t i st)); auto; [apply evolves_pushed|]. eapply evolves_weaken; [|  |exact A]; [auto|].
      intros x (sp & Hsp & <-). right. unfold pushed in Hsp. cbn [st_specs] in Hsp. apply nth_error_snoc in Hsp. destruct Hsp as [Hsp|[_ ->]]; [|cbn; lia].
      exfalso. assert (Y : nth_error (st_specs st) (List.length (st_specs st)) <> None) by congruence. apply nth_error_Some in Y. lia. }
    destruct X as [X1 X2 X3 X4 X5 X6 X7]. constructor; auto.
    + intros a sp H. destruct (X1 a sp H) as (sp' & P & Q & R). exists sp'. split; auto. split; auto. intros _. apply R. intros <-.
      assert (Y : nth_error (st_specs st) (List.length (st_specs st)) <> None) by congruence. apply nth_error_Some in Y. lia.
  - destruct (manager_object st a flt bf) as (A & _). eapply evolves_weaken; [| |exact A]; [intros x <-; auto|]. intros x Hx. exists a. auto.
Qed.
Lemma evolves_config st names x d S C D : (x = List.length (st_dicts st) /\ d <> [] \/ d = [] /\ exists a sp, nth_error (st_specs st) a = Some sp /\ sp_inline sp = x) ->
  (List.length d <= 1)%nat -> evolves st (mkstate (st_specs st) (st_configs st ++ [mkconfig names x])%list (st_dicts st ++ d)%list) S C D.
Proof.
  intros Hx Hd. constructor; cbn [st_specs st_configs st_dicts].
  - eauto.
  - intros c cg H. exists cg. split; [now apply nth_error_keep|auto].
  - rewrite app_length. lia.
  - intros y Hy _. unfold the_dict. cbn [st_dicts]. now apply app_nth1.
  - eauto.
  - intros. congruence.
  - intros c cg H N. apply nth_error_snoc in H. destruct H as [H|[_ ->]]; [congruence|]. cbn [cg_inline].
    destruct Hx as [[-> Hd']|[_ X]]; [left|now right]. split; auto. rewrite app_length. destruct d; [congruence|cbn; lia].
Qed.
Section histories.
  Variable has_default : string -> bool.
  Lemma defaults_step st a z : evolves st (snd (get_defaults has_default a z st)) none none none.
  Proof.
    unfold get_defaults. destruct (nth_error (st_specs st) a) as [sp|] eqn:E; cbn [snd]; [|apply evolves_refl].
    destruct (negb (Z.eqb z 0)); cbn [snd]; [apply evolves_config; [left; split; [auto|discriminate]|cbn; lia]|].
    destruct (is_empty (sp_tree sp)); cbn [snd]; [apply evolves_config; [left; split; [auto|discriminate]|cbn; lia]|].
    rewrite <- (app_nil_r (st_dicts st)). apply evolves_config; [right; split; [auto|eauto]|cbn; lia].
  Qed.
  Definition config_dict (st : state) (c x : nat) : Prop := exists cg, nth_error (st_configs st) c = Some cg /\ cg_inline cg = x.
  Lemma comment_step st c k t : evolves st (set_comment c k t st) none none (config_dict st c).
  Proof.
    unfold set_comment. destruct (nth_error (st_configs st) c) as [cg|] eqn:E; [|apply evolves_refl]. apply evolves_dict. exists cg. auto.
  Qed.
  Lemma remove_step st c k : evolves st (snd (del_option c k st)) none (eq c) (config_dict st c).
  Proof.
    unfold del_option. destruct (nth_error (st_configs st) c) as [cg|] eqn:E; [|apply evolves_refl]. destruct (mem k (cg_names cg)); [|apply evolves_refl].
    set (st1 := mkstate _ _ _).
    assert (P : forall b, nth_error (st_configs st1) b = if Nat.eqb c b then Some (mkconfig (remove_first k (cg_names cg)) (cg_inline cg)) else nth_error (st_configs st) b).
    { intro b. unfold st1. cbn [st_configs]. destruct (Nat.eqb_spec c b) as [<-|N]; [eapply put_nth_same; eauto|now apply put_nth_other]. }
    assert (A : evolves st st1 none (eq c) (config_dict st c)).
    { constructor; unfold st1 in *; cbn [st_specs st_configs st_dicts] in *; eauto; try (intros; congruence).
      - intros b cg0 Hb. rewrite P. destruct (Nat.eqb_spec c b) as [<-|N]; [|eauto]. eexists. split; [reflexivity|]. cbn. split; [congruence|]. intro. contradiction.
      - intros b cg0. rewrite P. destruct (Nat.eqb_spec c b) as [<-|N]; congruence. }
    destruct (dmem _ k); cbn [snd]; [|exact A]. apply (evolves_trans st st1); auto.
    - unfold set_dict. cbn [st_dicts]. now rewrite put_nth_length.
    - apply evolves_dict. left. exists cg. auto.
  Qed.
  (** What an operation works on *)
  Definition on_spec (o : op) (a : nat) : Prop := match o with Manager src _ _ => src = Object a | _ => False end.
  Definition on_config (o : op) (c : nat) : Prop := match o with Comment c' _ _ => c' = c | Remove c' _ => c' = c | _ => False end.
  Lemma step_evolves st o : evolves st (step has_default st o) (on_spec o) (on_config o)
    (fun x => (exists a, on_spec o a /\ touched_dict st a x) \/ exists c, on_config o c /\ config_dict st c x).
  Proof.
    destruct o as [src flt bf|a z|c k t|c k]; cbn [step on_spec on_config].
    - assert (X := manager_step st src flt bf). destruct X as [X1 X2 X3 X4 X5 X6 X7]. constructor; try assumption.
      intros x Hx Hd. apply X4; [exact Hx|]. intros (a & Ha). apply Hd. left. exists a. exact Ha.
    - assert (X := defaults_step st a z). destruct X as [X1 X2 X3 X4 X5 X6 X7]. constructor; try assumption.
      intros x Hx Hd. apply X4; [exact Hx|]. intro Y. exact Y.
    - assert (X := comment_step st c k t). destruct X as [X1 X2 X3 X4 X5 X6 X7]. constructor; try assumption.
      { intros c' cg H. destruct (X2 c' cg H) as (cg' & A & B & U). exists cg'. split; [exact A|]. split; [exact B|]. intros _. apply U. intro Y. exact Y. }
      intros x Hx Hd. apply X4; [exact Hx|]. intro Y. apply Hd. right. exists c. auto.
    - assert (X := remove_step st c k). destruct X as [X1 X2 X3 X4 X5 X6 X7]. constructor; try assumption.
      intros x Hx Hd. apply X4; [exact Hx|]. intro Y. apply Hd. right. exists c. auto.
  Qed.
  (** ** Specification objects are changed only by the managers made on them *)
  Theorem C75_specs_frame l : forall st a sp, nth_error (st_specs st) a = Some sp -> (forall o, In o l -> ~ on_spec o a) ->
    nth_error (st_specs (run has_default l st)) a = Some sp.
  Proof.
    induction l as [|o l IH]; intros st a sp H Ho; auto. cbn [run fold_left]. apply IH.
    - destruct (e_specs _ _ _ _ _ (step_evolves st o) a sp H) as (sp' & X & _ & U). rewrite X, U; auto. apply Ho. now left.
    - intros. apply Ho. now right.
  Qed.
  (** In particular those made from files: each has its own object *)
  Theorem C75_file st t i flt bf r st' : new_manager (File t i) flt bf st = (r, st') ->
    (r = Ok (List.length (st_specs st)) \/ exists e, r = Raise e) /\ (forall b sp, nth_error (st_specs st) b = Some sp -> nth_error (st_specs st') b = Some sp).
  Proof.
    intro H. split.
    - unfold new_manager in H. destruct (nth_error _ _) as [sp|]; [|injection H as <- <-; eauto].
      destruct (match flt with Some (d, g) => _ | None => _ end) as [[t1 s1] [e|]]; [injection H as <- <-; eauto|]. destruct bf; [|injection H as <- <-; auto].
      destruct (walk_false t1) as [t2 [e|]]; injection H as <- <-; eauto.
    - intros b sp Hb. destruct (e_specs _ _ _ _ _ (manager_step st (File t i) flt bf) b sp Hb) as (sp' & X & _ & U). rewrite H in X. cbn [snd] in X. rewrite X, U; auto. discriminate.
  Qed.

  Theorem C75_file_options st t i flt bf : wf t -> readable t -> (forall k, In k (scalars t ++ sections t)%list -> dmem i k = true) -> exists st' t',
    new_manager (File t i) flt bf st = (Ok (List.length (st_specs st)), st') /\ holds st' (List.length (st_specs st)) t' /\
    (forall q, kept_by flt q ->
       section_at t' q = section_at t q /\
       match option_at t q with
       | Some (VStr s) => exists s', option_at t' q = Some (VStr s') /\ (bf = true -> completed s s') /\ (bf = false -> s' = s)
       | _ => option_at t' q = None
       end) /\
    (forall q, ~ kept_by flt q -> section_at t' q = false /\ option_at t' q = None).
  Proof.
    intros W R Hi. rewrite manager_file.
    assert (H : holds (pushed t i st) (List.length (st_specs st)) t).
    { split; [|exact W]. exists (mkspec t (List.length (st_dicts st))). unfold pushed, the_dict. cbn [st_specs st_dicts sp_tree sp_inline].
      split; [rewrite nth_error_app2 by lia; now rewrite Nat.sub_diag|]. split; [reflexivity|]. split; [rewrite app_length; cbn; lia|].
      intros k Hk. rewrite app_nth2 by lia. rewrite Nat.sub_diag. now apply Hi. }
    destruct (C75_manager _ _ t flt bf H R) as (st' & t' & A & B & _ & C & D & _). exists st', t'. auto.
  Qed.

  (** ** What changes what a configuration writes *)
  (** Objects with the same dictionary of comments *)
  Definition shares_spec (st : state) (a c : nat) : Prop := exists sp cg, nth_error (st_specs st) a = Some sp /\ nth_error (st_configs st) c = Some cg /\ sp_inline sp = cg_inline cg.
  Definition shares_config (st : state) (c c' : nat) : Prop := exists cg cg', nth_error (st_configs st) c = Some cg /\ nth_error (st_configs st) c' = Some cg' /\ cg_inline cg = cg_inline cg'.
  (** The addresses are valid *)
  Definition valid (st : state) : Prop :=
    (forall a sp, nth_error (st_specs st) a = Some sp -> (sp_inline sp < List.length (st_dicts st))%nat) /\
    (forall c cg, nth_error (st_configs st) c = Some cg -> (cg_inline cg < List.length (st_dicts st))%nat) /\
    (forall a b sp sp', nth_error (st_specs st) a = Some sp -> nth_error (st_specs st) b = Some sp' -> sp_inline sp = sp_inline sp' -> a = b).
  Lemma step_valid st o : valid st -> valid (step has_default st o).
  Proof.
    intros (V1 & V2 & V3). destruct (step_evolves st o) as [E1 E2 E3 E4 E5 E6 E7]. set (st' := step has_default st o) in *.
    assert (Q : forall a sp', nth_error (st_specs st') a = Some sp' -> (exists sp, nth_error (st_specs st) a = Some sp /\ sp_inline sp' = sp_inline sp) \/ (nth_error (st_specs st) a = None /\ sp_inline sp' = List.length (st_dicts st))).
    { intros a sp' H. destruct (nth_error (st_specs st) a) as [sp|] eqn:E; [left|right; eauto]. destruct (E1 a sp E) as (sp2 & X & Y & _). exists sp. split; auto. congruence. }
    split; [|split].
    - intros a sp' H. destruct (E5 a sp' H) as [X|[sp X]]; auto. destruct (E1 a sp X) as (sp2 & Y & Z & _). specialize (V1 a sp X). rewrite H in Y. injection Y as <-. lia.
    - intros c cg' H. destruct (nth_error (st_configs st) c) as [cg|] eqn:E.
      + destruct (E2 c cg E) as (cg2 & Y & Z & _). specialize (V2 c cg E). rewrite H in Y. injection Y as <-. lia.
      + destruct (E7 c cg' H E) as [[_ X]|(a & sp & X & Y)]; auto. specialize (V1 a sp X). lia.
    - intros a b sp sp' Ha Hb E. destruct (nth_error (st_specs st) b) as [spb|] eqn:Eb.
      + destruct (Q b sp' Hb) as [(x & Hx & Ex)|[? _]]; [|congruence]. destruct (Q a sp Ha) as [(y & Hy & Ey)|[_ X]].
        * apply (V3 a b y x); auto. congruence.
        * specialize (V1 b x Hx). lia.
      + destruct (Q a sp Ha) as [(y & Hy & Ey)|[Ha0 X]].
        * destruct (Q b sp' Hb) as [(x & Hx & Ex)|[_ X]]; [congruence|]. specialize (V1 a y Hy). lia.
        * destruct o as [src flt bf|a0 z|c k t|c k]; cbn [step] in st'.
          { destruct src as [t i|a0].
            - assert (L : forall z, nth_error (st_specs st') z <> None -> nth_error (st_specs st) z = None -> z = List.length (st_specs st)).
              { intros z Hz Nz. unfold st' in Hz. rewrite manager_file in Hz. destruct (manager_object (pushed t i st) (List.length (st_specs st)) flt bf) as (_ & B & _).
                destruct (Nat.eq_dec z (List.length (st_specs st))) as [|N]; auto. exfalso. apply Hz. apply B. unfold pushed. cbn [st_specs]. apply nth_error_None. rewrite app_length. cbn [List.length]. apply nth_error_None in Nz. lia. }
              rewrite (L a), (L b); auto; congruence.
            - destruct (manager_object st a0 flt bf) as (_ & B & _). apply B in Ha0. unfold st' in Ha. congruence. }
          { unfold st', get_defaults in Ha. destruct (nth_error (st_specs st) a0); cbn [snd] in Ha; [|congruence]. destruct (negb _); [|destruct (is_empty _)]; cbn [snd st_specs] in Ha; congruence. }
          { unfold st', set_comment in Ha. destruct (nth_error (st_configs st) c); cbn in Ha; congruence. }
          { unfold st', del_option in Ha. destruct (nth_error (st_configs st) c) as [cg|]; cbn in Ha; [|congruence]. destruct (mem k _); [destruct (dmem _ k)|]; cbn in Ha; congruence. }
  Qed.
  Lemma run_valid l : forall st, valid st -> valid (run has_default l st).
  Proof. induction l as [|o l IH]; intros st V; auto. cbn [run fold_left]. apply IH. now apply step_valid. Qed.
  Definition nothing : state := mkstate [] [] [].
  Lemma nothing_valid : valid nothing.
  Proof. repeat split; intros [|]; discriminate. Qed.
  (** What a configuration writes is changed only by operations on it or on a configuration that
      shares its comments, and by the managers made on the specifications it shares them with *)
  Theorem C75_who_changes l o c st : st = run has_default l nothing -> write c st <> Raise NameError ->
    (forall a, on_spec o a -> ~ shares_spec st a c) -> (forall c', on_config o c' -> c' <> c /\ ~ shares_config st c' c) ->
    write c (step has_default st o) = write c st.
  Proof.
    intros -> Hw Hs Hc. assert (V := run_valid l nothing nothing_valid). set (st := run has_default l nothing) in *. clearbody st.
    destruct (step_evolves st o) as [E1 E2 E3 E4 E5 E6 E7]. unfold write in *. destruct (nth_error (st_configs st) c) as [cg|] eqn:E; [|congruence].
    destruct (E2 c cg E) as (cg' & X & Y & U). rewrite X. rewrite U by (intro Z; destruct (Hc c Z); congruence). f_equal.
    apply E4; [now apply (proj1 (proj2 V) c)|]. intros [(a & Ha & (sp & Hsp & Ei))|(c' & Hc' & (cg2 & Hcg & Ei))].
    - apply (Hs a Ha). exists sp, cg. auto.
    - destruct (Hc c' Hc') as [_ N]. apply N. exists cg2, cg. auto.
  Qed.

  (** ** Default configurations without comments have comments of their own, for ever *)
  Definition private (st : state) (c : nat) : Prop :=
    (exists cg, nth_error (st_configs st) c = Some cg) /\ (forall a, ~ shares_spec st a c) /\ (forall c', c' <> c -> ~ shares_config st c' c).
  Lemma private_step st o c : valid st -> private st c -> private (step has_default st o) c.
  Proof.
    intros V ([cg Hcg] & P1 & P2). destruct (step_evolves st o) as [E1 E2 E3 E4 E5 E6 E7]. destruct (E2 c cg Hcg) as (cg' & X & Y & _). split; [eauto|]. split.
    - intros a (sp & cg2 & Ha & Hc & E). rewrite X in Hc. injection Hc as <-. destruct (nth_error (st_specs st) a) as [sp0|] eqn:Ea.
      + destruct (E1 a sp0 Ea) as (sp2 & Z & Zi & _). apply (P1 a). exists sp0, cg. split; auto. split; auto. congruence.
      + assert (Z := E6 a sp Ha Ea). assert (L := proj1 (proj2 V) c cg Hcg). lia.
    - intros c' N (cg1 & cg2 & Hc' & Hc & E). rewrite X in Hc. injection Hc as <-. destruct (nth_error (st_configs st) c') as [cg0|] eqn:Ec.
      + destruct (E2 c' cg0 Ec) as (cg3 & Z & Zi & _). apply (P2 c' N). exists cg0, cg. split; auto. split; auto. congruence.
      + destruct (E7 c' cg1 Hc' Ec) as [[Z _]|(a & sp & Ha & Z)].
        * assert (L := proj1 (proj2 V) c cg Hcg). lia.
        * apply (P1 a). exists sp, cg. split; auto. split; auto. congruence.
  Qed.
  Theorem C75_private l : forall st c, valid st -> private st c -> (forall o, In o l -> ~ on_config o c) ->
    private (run has_default l st) c /\ write c (run has_default l st) = write c st.
  Proof.
    induction l as [|o l IH]; intros st c V P H; auto. cbn [run fold_left].
    destruct (IH (step has_default st o) c (step_valid st o V) (private_step st o c V P)) as [Q1 Q2]; [intros; apply H; now right|]. split; [exact Q1|].
    change (fold_left (step has_default) l (step has_default st o)) with (run has_default l (step has_default st o)). rewrite Q2.
    destruct P as ([cg Hcg] & P1 & P2). destruct (step_evolves st o) as [E1 E2 E3 E4 E5 E6 E7]. unfold write. destruct (E2 c cg Hcg) as (cg' & X & Y & U). rewrite X, Hcg.
    rewrite U by (apply H; now left). f_equal. apply E4; [now apply (proj1 (proj2 V) c)|].
    intros [(a & Ha & (sp & Hsp & Ei))|(c' & Hc' & (cg2 & Hcg2 & Ei))].
    - apply (P1 a). exists sp, cg. auto.
    - destruct (Nat.eq_dec c' c) as [->|N]; [exact (H o (or_introl eq_refl) Hc')|]. apply (P2 c' N). exists cg2, cg. auto.
  Qed.
  Lemma comments_of_map names f : (forall k, In k names -> exists c, f k = Some c) -> forall (d : dict string), (forall k, In k names -> dget d k = f k) ->
    comments_of names d = Ok (map (fun k => (k, match f k with Some c => c | None => "" end)) names).
  Proof.
    induction names as [|k names IH]; intros Hf d Hd; auto. cbn [comments_of map]. destruct (Hf k (or_introl eq_refl)) as [c Ec]. rewrite (Hd k) by now left. rewrite Ec.
    rewrite IH; auto; intros; [apply Hf|apply Hd]; now right.
  Qed.
  Lemma dget_copied t d k : In k (scalars t ++ sections t)%list -> dget (copied t d) k = Some (match dget d k with Some c => c | None => "" end).
  Proof.
    unfold copied. induction (scalars t ++ sections t)%list as [|x l IH]; [intros []|]. cbn [map dget fst snd]. destruct (String.eqb_spec k x) as [->|N]; auto.
    intros [->|H]; [contradiction|auto].
  Qed.
  Lemma dget_erased t names z d k : dget (erased t names z d) k = option_map (fun c => if mem k names && (mem k (scalars t) || Z.eqb z 2) then "" else c) (dget d k).
  Proof. unfold erased. induction d as [|[x c] d IH]; auto. cbn [map dget fst snd]. destruct (String.eqb_spec k x) as [->|]; auto. Qed.
  Lemma default_names_in t k : In k (default_names has_default t) -> In k (scalars t ++ sections t)%list.
  Proof. unfold default_names. intro H. apply in_app_or in H. apply in_or_app. destruct H as [H|H]; [|now right]. apply filter_In in H. left. apply H. Qed.
  (** The names of the configuration: the options with a default value and the sections *)
  Theorem C75_default_names t k : wf t -> (In k (default_names has_default t) <->
    (exists s, option_at t [k] = Some (VStr s) /\ has_default s = true) \/ section_at t [k] = true).
  Proof.
    intro W. destruct t as [|sc ss it]; [inversion W|]. unfold default_names. cbn [scalars sections items]. rewrite in_app_iff, filter_In, option_cons, section_cons.
    inversion W as [? ? ? H1 H2 H3 H4 H5]; subst. split.
    - intros [[Hk E]|Hk].
      + left. destruct (H3 k Hk) as [v Ev]. rewrite Ev in *. destruct v; try discriminate. exists s. auto.
      + right. destruct (H4 k Hk) as (m & Em & Wm). rewrite Em. destruct m; [inversion Wm|reflexivity].
    - intros [(s & E & Hd)|E]; destruct (dget it k) as [[v|a b c]|] eqn:Ek; try discriminate.
      + left. injection E as ->. split; [|exact Hd]. eapply wf_leaf; eauto.
      + right. eapply wf_sub; eauto.
  Qed.
  (** With nocomments, the options have no comment; the sections have none either when it is 2,
      else those of the specifications; and nothing is shared *)
  Theorem C75_nocomments l st a t z : st = run has_default l nothing -> holds st a t -> z <> 0%Z -> exists c st',
    get_defaults has_default a z st = (Ok c, st') /\ private st' c /\ valid st' /\
    exists w, write c st' = Ok w /\ map fst w = default_names has_default t /\
    forall k, In k (map fst w) -> dget w k = Some (if section_at t [k] then if Z.eqb z 2 then "" else match nth_error (st_specs st) a with Some sp => match dget (the_dict st (sp_inline sp)) k with Some x => x | None => "" end | None => "" end else "").
  Proof.
    intros -> H Hz. assert (V := run_valid l nothing nothing_valid). set (st := run has_default l nothing) in *. clearbody st.
    assert (W := h_wf _ _ _ H). destruct H as [(sp & Hsp & Ht & Hi & Hc) _]. unfold get_defaults. rewrite Hsp, Ht. apply Z.eqb_neq in Hz. rewrite Hz. cbn [negb].
    eexists _, _. split; [reflexivity|]. set (st' := mkstate _ _ _).
    assert (E : st' = snd (get_defaults has_default a z st)) by (unfold get_defaults; rewrite Hsp, Ht, Hz; reflexivity).
    assert (V' : valid st') by (rewrite E; apply (step_valid st (Defaults a z) V)).
    assert (Hn : nth_error (st_configs st') (List.length (st_configs st)) = Some (mkconfig (default_names has_default t) (List.length (st_dicts st)))).
    { unfold st'. cbn [st_configs]. rewrite nth_error_app2 by lia. now rewrite Nat.sub_diag. }
    split; [|split; [exact V'|]].
    - split; [eauto|]. split.
      + intros b (sp2 & cg & Hb & Hcg & Ei). rewrite Hn in Hcg. injection Hcg as <-. cbn [cg_inline] in Ei. unfold st' in Hb. cbn [st_specs] in Hb. assert (X := proj1 V b sp2 Hb). lia.
      + intros c' N (cg1 & cg & Hb & Hcg & Ei). rewrite Hn in Hcg. injection Hcg as <-. cbn [cg_inline] in Ei. unfold st' in Hb. cbn [st_configs] in Hb. apply nth_error_snoc in Hb.
        destruct Hb as [Hb|[Hb _]]; [|contradiction]. assert (X := proj1 (proj2 V) c' cg1 Hb). lia.
    - unfold write. rewrite Hn. cbn [cg_names cg_inline].
      assert (Hd : the_dict st' (List.length (st_dicts st)) = erased t (default_names has_default t) z (copied t (the_dict st (sp_inline sp)))).
      { unfold the_dict at 1, st'. cbn [st_dicts]. rewrite app_nth2 by lia. now rewrite Nat.sub_diag. }
      rewrite Hd. set (names := default_names has_default t).
      assert (G : forall k, In k names -> dget (erased t names z (copied t (the_dict st (sp_inline sp)))) k =
        Some (if section_at t [k] then if Z.eqb z 2 then "" else match dget (the_dict st (sp_inline sp)) k with Some x => x | None => "" end else "")).
      { intros k Hk. rewrite dget_erased. rewrite dget_copied by (apply default_names_in; exact Hk). cbn [option_map]. rewrite (proj2 (mem_in k names) Hk). cbn [andb]. f_equal.
        unfold names in Hk. apply default_names_in in Hk. destruct t as [|sc ss it]; [inversion W|]. cbn [scalars sections] in *. rewrite section_cons. inversion W as [? ? ? H1 H2 H3 H4 H5]; subst.
        apply in_app_or in Hk. destruct Hk as [Hk|Hk].
        - rewrite (proj2 (mem_in k sc) Hk). destruct (H3 k Hk) as [v ->]. reflexivity.
        - rewrite (proj2 (mem_not k sc)) by (intro X; exact (nodup_app_not sc ss k H1 X Hk)). destruct (H4 k Hk) as (m & -> & Wm). destruct m; [inversion Wm|]. reflexivity. }
      eexists. split; [apply comments_of_map with (f := fun k => Some (if section_at t [k] then if Z.eqb z 2 then "" else match dget (the_dict st (sp_inline sp)) k with Some x => x | None => "" end else "")); [eauto|exact G]|].
      rewrite map_map. cbn [fst]. rewrite map_id. split; [reflexivity|]. intros k Hk. clear -Hk. induction names as [|x names IH]; [destruct Hk|]. cbn [map dget fst snd]. destruct (String.eqb_spec k x) as [->|N]; auto.
      apply IH. destruct Hk as [->|]; [contradiction|auto].
  Qed.
  (** Without it, the comments are those of the specifications: the same dictionary *)
  Theorem C75_shared st a t : holds st a t -> is_empty t = false -> exists c st',
    get_defaults has_default a 0 st = (Ok c, st') /\ shares_spec st' a c /\
    exists w, write c st' = Ok w /\ map fst w = default_names has_default t /\
    forall k, In k (map fst w) -> exists sp, nth_error (st_specs st) a = Some sp /\ dget w k = dget (the_dict st (sp_inline sp)) k.
  Proof.
    intros H He. destruct H as [(sp & Hsp & Ht & Hi & Hc) W]. unfold get_defaults. rewrite Hsp, Ht, He. cbn [Z.eqb negb].
    eexists _, _. split; [reflexivity|]. set (st' := mkstate _ _ _).
    assert (Hn : nth_error (st_configs st') (List.length (st_configs st)) = Some (mkconfig (default_names has_default t) (sp_inline sp))).
    { unfold st'. cbn [st_configs]. rewrite nth_error_app2 by lia. now rewrite Nat.sub_diag. }
    split; [exists sp; eexists; split; [exact Hsp|split; [exact Hn|reflexivity]]|].
    unfold write. rewrite Hn. cbn [cg_names cg_inline]. change (the_dict st' (sp_inline sp)) with (the_dict st (sp_inline sp)). set (d := the_dict st (sp_inline sp)) in *. set (names := default_names has_default t).
    assert (G : forall k, In k names -> exists c, dget d k = Some c).
    { intros k Hk. apply default_names_in in Hk. specialize (Hc k Hk). unfold dmem in Hc. destruct (dget d k); [eauto|discriminate]. }
    eexists. split; [apply comments_of_map with (f := dget d); auto|]. rewrite map_map. cbn [fst]. rewrite map_id. split; [reflexivity|]. intros k Hk. exists sp. split; [reflexivity|].
    destruct (G k Hk) as [c Ec]. change (the_dict st (sp_inline sp)) with d. rewrite Ec. clear -Hk Ec. induction names as [|x names IH]; [destruct Hk|]. cbn [map dget fst snd]. destruct (String.eqb_spec k x) as [->|N]; [now rewrite Ec|].
    apply IH. destruct Hk as [->|]; [contradiction|auto].
  Qed.
  (** Empty specifications share nothing either: the configuration has no option and a dictionary
      of comments of its own *)
  Theorem C75_empty_specs l st a : st = run has_default l nothing -> holds st a (Sec [] [] []) -> exists c st',
    get_defaults has_default a 0 st = (Ok c, st') /\ private st' c /\ write c st' = Ok [].
  Proof.
    intros -> H. assert (V := run_valid l nothing nothing_valid). set (st := run has_default l nothing) in *. clearbody st.
    destruct H as [(sp & Hsp & Ht & Hi & Hc) _]. unfold get_defaults. rewrite Hsp, Ht. cbn [Z.eqb negb].
    eexists _, _. split; [reflexivity|]. set (st' := mkstate _ _ _).
    assert (Hn : nth_error (st_configs st') (List.length (st_configs st)) = Some (mkconfig (default_names has_default (Sec [] [] [])) (List.length (st_dicts st)))).
    { unfold st'. cbn [st_configs]. rewrite nth_error_app2 by lia. now rewrite Nat.sub_diag. }
    split.
    - split; [eauto|]. split.
      + intros b (sp2 & cg & Hb & Hcg & Ei). rewrite Hn in Hcg. injection Hcg as <-. cbn [cg_inline] in Ei. unfold st' in Hb. cbn [st_specs] in Hb. assert (X := proj1 V b sp2 Hb). lia.
      + intros c' N (cg1 & cg & Hb & Hcg & Ei). rewrite Hn in Hcg. injection Hcg as <-. cbn [cg_inline] in Ei. unfold st' in Hb. cbn [st_configs] in Hb. apply nth_error_snoc in Hb.
        destruct Hb as [Hb|[Hb _]]; [|contradiction]. assert (X := proj1 (proj2 V) c' cg1 Hb). lia.
    - unfold write. rewrite Hn. reflexivity.
  Qed.
End histories.
(** Such a state is reached *)
Example ex_empty_specs : let st := run (fun _ => true) [Manager (File (Sec [] [] []) []) None true] nothing in holds st 0 (Sec [] [] []).
Proof. split; [|wf_tac]. exists (mkspec (Sec [] [] []) 0). repeat split; cbn; try lia; intros k []. Qed.

(** ** What is false *)
Definition ex_tree : node :=
  Sec ["verbose"; "n"] ["run"] [("verbose", Leaf (VStr "boolean")); ("n", Leaf (VStr "integer(default=1)")); ("run", Sec ["file"; "fast"] [] [("file", Leaf (VStr "string(default=a.nc)")); ("fast", Leaf (VStr "boolean(help=x)"))])].
Definition ex_inline : dict string := [("verbose", "# talk"); ("n", "# number"); ("run", "# to run")].
Definition ex_st : state := mkstate [mkspec ex_tree 0] [] [ex_inline].
Definition always (_ : string) : bool := true.
Example ex_holds : holds ex_st 0 ex_tree /\ readable ex_tree.
Proof.
  split.
  - split; [|unfold ex_tree; wf_tac]. exists (mkspec ex_tree 0). split; [reflexivity|]. split; [reflexivity|]. split; [cbn; lia|].
    intros k Hk. cbn in Hk. destruct Hk as [<-|[<-|[<-|[]]]]; reflexivity.
  - intros q v H. unfold ex_tree in H.
    assert (G : In v [VStr "boolean"; VStr "integer(default=1)"; VStr "string(default=a.nc)"; VStr "boolean(help=x)"]).
    { destruct q as [|x [|y [|z q]]]; cbn in H; try discriminate.
      - destruct (String.eqb x "verbose"); [injection H as <-; cbn; auto|]. destruct (String.eqb x "n"); [injection H as <-; cbn; auto|]. destruct (String.eqb x "run"); discriminate.
      - destruct (String.eqb x "verbose"); [discriminate|]. destruct (String.eqb x "n"); [discriminate|]. destruct (String.eqb x "run"); [|discriminate]. cbn in H.
        destruct (String.eqb y "file"); [injection H as <-; cbn; auto|]. destruct (String.eqb y "fast"); [injection H as <-; cbn; auto|discriminate].
      - destruct (String.eqb x "verbose"); [discriminate|]. destruct (String.eqb x "n"); [discriminate|]. destruct (String.eqb x "run"); [|discriminate]. cbn in H.
        destruct (String.eqb y "file"); [discriminate|]. destruct (String.eqb y "fast"); [discriminate|discriminate]. }
    destruct G as [<-|[<-|[<-|[<-|[]]]]]; eexists; (split; [reflexivity|]); eexists; (split; [vm_compute; reflexivity|]); try discriminate.
    + intros _ _. constructor.
    + intros _ _. apply (BCall "help=x"). exists "help=", "x"%char. split; [reflexivity|]. split; [reflexivity|discriminate].
Qed.
(** A manager is not affected by those made later from the same object: false, the filter of the
    second one removes options of the first *)
Theorem C75_leak_refuted : exists st1 st2,
  new_manager (Object 0) None true ex_st = (Ok 0%nat, st1) /\ new_manager (Object 0) (Some ([("run", FVal true)], false)) true st1 = (Ok 0%nat, st2) /\
  option_map (fun sp => option_at (sp_tree sp) ["verbose"]) (nth_error (st_specs st1) 0) = Some (Some (VStr "boolean(default=False)")) /\
  option_map (fun sp => option_at (sp_tree sp) ["verbose"]) (nth_error (st_specs st2) 0) = Some None.
Proof. eexists _, _. split; [vm_compute; reflexivity|]. split; [vm_compute; reflexivity|]. split; vm_compute; reflexivity. Qed.
(** An object that gave a manager can give another one: false with "boolean()" *)
Theorem C75_twice_refuted : exists st st1 st2, new_manager (File (Sec ["x"] [] [("x", Leaf (VStr "boolean()"))]) [("x", "")]) None true nothing = (Ok 0%nat, st) /\
  new_manager (Object 0) None true st = (Raise ValidateError, st1) /\ new_manager (Object 0) None false st = (Ok 0%nat, st2).
Proof. eexists _, _, _. split; [vm_compute; reflexivity|]. split; vm_compute; reflexivity. Qed.
(** A ConfigObj read with its lists is not usable *)
Theorem C75_lists_refuted : exists st1, new_manager (File (Sec ["x"] [] [("x", Leaf (VList [VStr "option(a"; VStr "b)"]))]) [("x", "")]) None true nothing = (Raise TypeError, st1).
Proof. eexists. vm_compute. reflexivity. Qed.
(** Default configurations are independent: false.  A comment changed in one is changed in the
    others, before and after. *)
Theorem C75_comments_refuted : let st := run always [Defaults 0 0; Comment 0 "n" "# mine"; Defaults 0 0] ex_st in
  write 0 (run always [Defaults 0 0] ex_st) = Ok [("verbose", "# talk"); ("n", "# number"); ("run", "# to run")] /\
  write 1 st = Ok [("verbose", "# talk"); ("n", "# mine"); ("run", "# to run")].
Proof. vm_compute. auto. Qed.
(** An option removed from one can not be written from the others, and the manager can not be
    made again with a filter; nor can a configuration be written after a filter *)
Theorem C75_remove_refuted : let st := run always [Defaults 0 0; Defaults 0 0; Remove 0 "n"] ex_st in
  write 0 st = Ok [("verbose", "# talk"); ("run", "# to run")] /\ write 1 st = Raise KeyError /\
  fst (new_manager (Object 0) (Some ([("run", FVal true)], false)) true st) = Raise KeyError.
Proof. vm_compute. auto. Qed.
Theorem C75_filter_refuted : let st := run always [Defaults 0 0; Manager (Object 0) (Some ([("run", FVal true)], false)) true] ex_st in
  write 0 st = Raise KeyError.
Proof. vm_compute. reflexivity. Qed.
Example ex_private : let st := run always [Defaults 0 2; Defaults 0 1; Defaults 0 0; Comment 2 "n" "# mine"; Remove 2 "verbose"] ex_st in
  write 0 st = Ok [("verbose", ""); ("n", ""); ("run", "")] /\ write 1 st = Ok [("verbose", ""); ("n", ""); ("run", "# to run")].
Proof. vm_compute. auto. Qed.
