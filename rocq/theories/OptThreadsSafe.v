(** Facts for C72: invariants of any interleaving of threads that read and load options. *)
From Verif Require Export OptThreadsProofs.
Open Scope nat_scope.

Lemma exec_steps user t a st a' st' : steps user a st a' st' -> forall S_,
  nth_error (threads S_) t = Some a -> shared S_ = st -> exists n sd,
  exec user S_ (repeat t n) = mksys (upd (threads S_) t a') st' sd.
Proof.
  induction 1 as [a st|a st a1 st1 e a2 st2 H _ IH]; intros S_ Hn Hs.
  - exists 0, (said S_). destruct S_ as [ths sh sd]. cbn in *. subst. f_equal.
    clear -Hn. revert t Hn. induction ths as [|x ths IH]; intros [|t] Hn; cbn in *; try discriminate.
    + injection Hn as ->. reflexivity.
    + f_equal. auto.
  - set (S1 := sys_step user S_ t).
    assert (E : S1 = mksys (upd (threads S_) t a1) st1 (match e with Some e => said S_ ++ [(t, e)] | None => said S_ end)).
    { unfold S1, sys_step. rewrite Hn, Hs, H. reflexivity. }
    destruct (IH S1) as (n & sd & F).
    + rewrite E. cbn [threads]. apply nth_error_upd_eq. apply nth_error_Some; congruence.
    + rewrite E. reflexivity.
    + exists (S n), sd. cbn [repeat]. unfold exec in *. cbn [fold_left]. fold S1. rewrite F, E. cbn [threads]. f_equal.
      clear. generalize (threads S_) as l. revert t. intros t l. revert t. induction l; intros [|t]; cbn; auto. f_equal. auto.
Qed.

(** *** Threads that read and load *)
Section safe.
Variables (user : options) (i : nat) (ini : string -> string -> option oval) (G : string -> string -> oval -> Prop) (L : Prop).
(** Initial values are converted *)
Hypothesis ini_doc : forall s o c, documented s o = Some c -> exists v, ini s o = Some v /\ converts c v = false.
Definition fresh (s o : string) (v : oval) : Prop := exists w, G s o w /\ (v = w \/ v = converted s o w).
Definition allowed (s o : string) (x : option oval) : Prop := x = ini s o \/ exists v, x = Some v /\ fresh s o v.
Definition event_ok (e : event) : Prop :=
  match e with
  | EGet s o (Ok a) => exists s' o' x, asked s o = Some (s', o') /\ allowed s' o' x /\ a = answer_of x
  | EGet s o (Raise e) => e = XoaConfigError /\ asked s o = None
  | ELoad r => r = Ok tt /\ L
  | _ => False
  end.
Fixpoint safe (a : act) : Prop :=
  match a with
  | AStop _ => True
  | AHas k => safe (k true)
  | ACur k => safe (k (Some i))
  | ARead j s o k => j = i /\ forall x, allowed s o x -> safe (k x)
  | AWrite j s o v k => j = i /\ fresh s o v /\ safe k
  | ASay e k => event_ok e /\ safe k
  | _ => False
  end.
Lemma writes_safe l k : (forall s o v, In (s, o, v) l -> G s o v) -> safe k -> safe (writes i l k).
Proof.
  induction l as [|[[s o] v] l IH]; intros H Hk; [exact Hk|]. cbn [writes safe]. split; [reflexivity|]. split.
  - exists v. split; [apply H; left; reflexivity|auto].
  - apply IH; auto. intros s' o' v' Hi. apply H. right. exact Hi.
Qed.
Lemma allowed_doc s o c x : documented s o = Some c -> allowed s o x ->
  exists v, x = Some v /\ (converts c v = true -> fresh s o (check c v)).
Proof.
  intros Hd [->|(v & -> & (w & Hw & Hv))].
  - destruct (ini_doc s o c Hd) as (v & -> & E). exists v. split; [reflexivity|]. congruence.
  - exists v. split; [reflexivity|]. intro Hc. exists w. split; auto. right. unfold converted in *. rewrite Hd in *.
    destruct Hv as [->| ->]; [reflexivity|]. rewrite converts_check in Hc. discriminate.
Qed.
Lemma checks_safe l k : (forall s o c, In (s, o, c) l -> documented s o = Some c) -> safe k -> safe (checks i l k).
Proof.
  induction l as [|[[s o] c] l IH]; intros H Hk; [exact Hk|]. cbn [checks safe]. split; [reflexivity|].
  assert (IH' : safe (checks i l k)). { apply IH; auto. intros s' o' c' Hi. apply H. right. exact Hi. }
  intros x Hx. destruct (allowed_doc s o c x) as (v & -> & Hf); auto.
  { apply H. left. reflexivity. }
  destruct (converts c v); [|exact IH']. cbn [safe]. auto.
Qed.
Lemma load_safe cfg k : wf2 cfg -> (forall s o v, opt_of cfg s o = Some v -> G s o v) -> safe (k (Ok tt)) -> safe (load_act cfg k).
Proof.
  intros Hw Hg Hk. unfold load_act. cbn [safe].
  assert (V : safe (checks i (flat config_specs) (k (Ok tt)))).
  { apply checks_safe; auto. intros s o c. apply in_specs. }
  destruct cfg as [|x cfg]; cbn [safe]; [exact V|]. apply writes_safe; [|exact V].
  intros s o v Hi. apply Hg. rewrite <- look_opt_of. apply in_flat; auto.
Qed.
Lemma get_safe s o k : (forall r, event_ok (EGet s o r) -> safe (k r)) -> safe (get_act s o k).
Proof.
  intro Hk. unfold get_act. cbn [safe]. destruct o as [o|].
  - cbn [safe fst snd]. split; [reflexivity|]. intros x Hx. apply Hk. exists s, o, x. split; [reflexivity|]. auto.
  - destruct (re_option s) as [[s' o']|] eqn:E; cbn [safe fst snd].
    + split; [reflexivity|]. intros x Hx. apply Hk. exists s', o', x. split; [exact E|]. auto.
    + apply Hk. split; [reflexivity|exact E].
Qed.
Lemma thread_safe p fin : gets_loads p -> only_gets p \/ L -> (forall s o v, gives p s o v -> G s o v) -> (forall r, safe (fin r)) -> safe (thread p fin).
Proof.
  induction p as [|e|s o k IH|cfg k IH|s o k IH|k IH|s o body IHb k IHk]; intros Hp HL Hg Hf; cbn [thread gets_loads only_gets] in *; try contradiction.
  - apply Hf.
  - apply Hf.
  - apply get_safe. intros r Hr. cbn [safe]. split; [exact Hr|]. apply IH; auto.
    { destruct HL as [HL|HL]; [left; apply HL|right; exact HL]. }
    intros s' o' v H. apply Hg. econstructor. exact H.
  - destruct Hp as [Hw Hp]. apply load_safe; auto.
    + intros s o v H. apply Hg. now constructor.
    + destruct HL as [[]|HL]. cbn [safe]. split; [split; [reflexivity|exact HL]|]. apply IH; auto. intros s o v H. apply Hg. now apply gives_load.
Qed.
(** The invariant *)
Definition good (S_ : system) : Prop :=
  Forall safe (threads S_) /\ cache (shared S_) = Some i /\ i < List.length (objs (shared S_)) /\
  (forall s o, allowed s o (look (content (shared S_) i) s o)) /\ Forall (fun te => event_ok (snd te)) (said S_).
Lemma Forall_upd {A} (P : A -> Prop) l t x : Forall P l -> P x -> Forall P (upd l t x).
Proof.
  intros H Hx. revert t. induction H as [|y l Hy Hl IH]; intros [|t]; cbn [upd]; auto.
Qed.
Lemma step_good a st : safe a -> cache st = Some i -> i < List.length (objs st) ->
  (forall s o, allowed s o (look (content st i) s o)) ->
  let '(a', st', e) := step user a st in
  safe a' /\ cache st' = Some i /\ List.length (objs st') = List.length (objs st) /\
  (forall s o, allowed s o (look (content st' i) s o)) /\ match e with Some e => event_ok e | None => True end /\
  (forall j, j <> i -> content st' j = content st j).
Proof.
  intros Ha Hc Hi Hv. destruct a; cbn [step safe] in *; try contradiction.
  - repeat (split; auto).
  - rewrite Hc. repeat (split; auto).
  - rewrite Hc. repeat (split; auto).
  - destruct Ha as [-> Ha]. split; [apply Ha, Hv|]. repeat (split; auto).
  - destruct Ha as (-> & Hf & Ha). split; [exact Ha|]. split; [exact Hc|]. split; [apply upd_len|]. split; [|split; [exact Logic.I|]].
    + intros s' o'. rewrite content_write, Nat.eqb_refl, look_write by auto.
      destruct (String.eqb_spec s' s) as [->|]; cbn [andb]; [|apply Hv].
      destruct (String.eqb_spec o' o) as [->|]; [|apply Hv]. right. exists v. auto.
    + intros j Hj. rewrite content_write by auto. now rewrite (proj2 (Nat.eqb_neq _ _) Hj).
  - destruct Ha as [He Ha]. repeat (split; auto).
Qed.
Lemma sys_good S_ t : good S_ -> good (sys_step user S_ t) /\
  (forall j, j <> i -> content (shared (sys_step user S_ t)) j = content (shared S_) j) /\
  List.length (objs (shared (sys_step user S_ t))) = List.length (objs (shared S_)).
Proof.
  intros (H1 & H2 & H3 & H4 & H5). unfold sys_step. destruct (nth_error (threads S_) t) as [a|] eqn:E; [|split; [|auto]; repeat (split; auto)].
  assert (Ha : safe a) by (rewrite Forall_forall in H1; apply H1; eapply nth_error_In; eauto).
  assert (Q := step_good a (shared S_) Ha H2 H3 H4). destruct (step user a (shared S_)) as [[a' st'] e].
  destruct Q as (Q1 & Q2 & Q3 & Q4 & Q5 & Q6). cbn [shared]. split; [|auto]. split; [|split; [|split; [|split]]]; cbn [threads shared said]; auto.
  - now apply Forall_upd.
  - lia.
  - destruct e; [|auto]. apply Forall_app. split; [auto|]. constructor; [exact Q5|constructor].
Qed.
Lemma exec_good sched : forall S_, good S_ -> good (exec user S_ sched) /\
  (forall j, j <> i -> content (shared (exec user S_ sched)) j = content (shared S_) j) /\
  List.length (objs (shared (exec user S_ sched))) = List.length (objs (shared S_)).
Proof.
  induction sched as [|t sched IH]; intros S_ H; [split; auto|].
  destruct (sys_good S_ t H) as (A & B & C). unfold exec. cbn [fold_left].
  destruct (IH _ A) as (D & E & F). split; [exact D|]. split.
  - intros j Hj. rewrite E, B by auto. reflexivity.
  - unfold exec in F. rewrite F. exact C.
Qed.

(** *** At the end, values are converted *)
Section key.
Variables (s0 o0 : string) (c0 : checker).
Hypothesis doc : documented s0 o0 = Some c0.
Definition is_key (s o : string) : bool := String.eqb s s0 && String.eqb o o0.
Fixpoint settles (a : act) : Prop :=
  match a with
  | AHas k => settles (k true)
  | ACur k => settles (k (Some i))
  | ARead _ s o k =>
    if is_key s o then forall v, fresh s o v -> converts c0 v = true -> settles (k (Some v))
    else forall x, allowed s o x -> settles (k x)
  | AWrite _ s o v k => if is_key s o then converts c0 v = false \/ settles k else settles k
  | ASay _ k => settles k
  | _ => False
  end.
Fixpoint responsible (a : act) : Prop :=
  match a with
  | AStop _ => True
  | AHas k => responsible (k true)
  | ACur k => responsible (k (Some i))
  | ARead _ s o k => forall x, allowed s o x -> responsible (k x)
  | AWrite _ s o v k => (is_key s o = true -> converts c0 v = true -> settles k) /\ responsible k
  | ASay _ k => responsible k
  | _ => False
  end.
Lemma is_key_true s o : is_key s o = true -> s = s0 /\ o = o0.
Proof.
  unfold is_key. destruct (String.eqb_spec s s0) as [->|]; [|discriminate].
  destruct (String.eqb_spec o o0) as [->|]; [auto|discriminate].
Qed.
Lemma key_refl : is_key s0 o0 = true.
Proof. unfold is_key. now rewrite !String.eqb_refl. Qed.
Lemma checks_settles l k : (forall s o c, In (s, o, c) l -> documented s o = Some c) -> In (s0, o0, c0) l -> settles (checks i l k).
Proof.
  induction l as [|[[s o] c] l IH]; intros H Hi; [destruct Hi|]. cbn [checks settles].
  destruct (is_key s o) eqn:Ek.
  - apply is_key_true in Ek. destruct Ek as [-> ->]. assert (c = c0).
    { assert (Q := H s0 o0 c (or_introl eq_refl)). congruence. }
    subst c. intros v _ Hc. rewrite Hc. cbn [settles]. rewrite key_refl. left. apply converts_check.
  - destruct Hi as [E|Hi]; [injection E as -> -> ->; rewrite key_refl in Ek; discriminate|].
    assert (IH' : settles (checks i l k)) by (apply IH; auto; intros s' o' c' Hi'; apply H; right; exact Hi').
    intros x Hx. destruct (allowed_doc s o c x) as (v & -> & _); auto.
    { apply H. left. reflexivity. }
    destruct (converts c v); [|exact IH']. cbn [settles]. rewrite Ek. exact IH'.
Qed.
Lemma checks_responsible l k : (forall s o c, In (s, o, c) l -> documented s o = Some c) -> responsible k -> responsible (checks i l k).
Proof.
  induction l as [|[[s o] c] l IH]; intros H Hk; [exact Hk|]. cbn [checks responsible].
  assert (IH' : responsible (checks i l k)) by (apply IH; auto; intros s' o' c' Hi'; apply H; right; exact Hi').
  intros x Hx. destruct (allowed_doc s o c x) as (v & -> & _); auto.
  { apply H. left. reflexivity. }
  destruct (converts c v); [|exact IH']. cbn [responsible]. split; [|exact IH'].
  intros Ek. apply is_key_true in Ek. destruct Ek as [-> ->]. assert (c = c0).
  { assert (Q := H s0 o0 c (or_introl eq_refl)). congruence. }
  subst. rewrite converts_check. discriminate.
Qed.
Lemma writes_settles l k : settles k -> settles (writes i l k).
Proof.
  induction l as [|[[s o] v] l IH]; intro H; [exact H|]. cbn [writes settles]. destruct (is_key s o); auto.
Qed.
Lemma writes_responsible l k : settles k -> responsible k -> responsible (writes i l k).
Proof.
  induction l as [|[[s o] v] l IH]; intros H1 H2; [exact H2|]. cbn [writes responsible]. split; auto.
  intros _ _. now apply writes_settles.
Qed.
Lemma specs_settles k : settles (checks i (flat config_specs) k).
Proof. apply checks_settles; [intros s o c; apply in_specs|]. now apply in_specs. Qed.
Lemma load_responsible cfg k : responsible (k (Ok tt)) -> responsible (load_act cfg k).
Proof.
  intros Hk. unfold load_act. cbn [responsible].
  assert (V : responsible (checks i (flat config_specs) (k (Ok tt)))).
  { apply checks_responsible; auto. intros s o c. apply in_specs. }
  destruct cfg as [|x cfg]; cbn [responsible]; [exact V|]. apply writes_responsible; [cbn [settles]; apply specs_settles|exact V].
Qed.
Lemma get_responsible s o k : (forall r, responsible (k r)) -> responsible (get_act s o k).
Proof.
  intro Hk. unfold get_act. cbn [responsible]. destruct o as [o|]; [cbn [responsible]; auto|].
  destruct (re_option s); cbn [responsible]; auto.
Qed.
Lemma thread_responsible p fin : gets_loads p -> (forall r, responsible (fin r)) -> responsible (thread p fin).
Proof.
  induction p as [|e|s o k IH|cfg k IH|s o k IH|k IH|s o body IHb k IHk]; intros Hp Hf; cbn [thread gets_loads] in *; try contradiction.
  - apply Hf.
  - apply Hf.
  - apply get_responsible. intro r. cbn [responsible]. auto.
  - destruct Hp as [_ Hp]. apply load_responsible. cbn [responsible]. auto.
Qed.
Definition settled (st : state) : Prop := exists v, look (content st i) s0 o0 = Some v /\ converts c0 v = false.
Lemma step_settled a st : safe a -> responsible a -> cache st = Some i -> i < List.length (objs st) ->
  (forall s o, allowed s o (look (content st i) s o)) ->
  let '(a', st', e) := step user a st in
  responsible a' /\ (settled st -> settled st' \/ settles a') /\ (settles a -> settled st' \/ settles a').
Proof.
  intros Ha Hr Hc Hi Hv. destruct a; cbn [step safe responsible settles] in *; try contradiction.
  - auto.
  - rewrite Hc. auto.
  - rewrite Hc. auto.
  - destruct Ha as [-> Ha]. split; [apply Hr, Hv|]. split; [auto|]. intros Hs.
    destruct (is_key s o) eqn:Ek; [|right; apply Hs, Hv]. apply is_key_true in Ek. destruct Ek as [-> ->].
    change (dget (section_of (content st i) s0) o0) with (look (content st i) s0 o0).
    assert (Q := Hv s0 o0). destruct (allowed_doc s0 o0 c0 _ doc Q) as (v & Ev & _).
    destruct (converts c0 v) eqn:Ec.
    + right. rewrite Ev. apply Hs; auto. destruct Q as [Q|(v' & Q & Hf)].
      * exfalso. destruct (ini_doc s0 o0 c0 doc) as (v' & E & Ec'). congruence.
      * congruence.
    + left. exists v. auto.
  - destruct Ha as (-> & Hf & Ha). destruct Hr as [Hr1 Hr2]. split; [exact Hr2|].
    destruct (is_key s o) eqn:Ek.
    + apply is_key_true in Ek. destruct Ek as [-> ->].
      assert (Hs : converts c0 v = false -> settled (mkst (upd (objs st) i (write_opt (content st i) s0 o0 v)) (cache st))).
      { intro E. exists v. rewrite content_write, Nat.eqb_refl, look_write by auto. rewrite !String.eqb_refl. auto. }
      destruct (converts c0 v) eqn:Ec; [split; intros _; right; auto|split; intros _; left; auto].
    + split; [|auto]. intros (w & E & Ec). left. exists w. split; [|exact Ec].
      rewrite content_write, Nat.eqb_refl, look_write by auto.
      assert (X : String.eqb s0 s && String.eqb o0 o = false).
      { unfold is_key in Ek. rewrite (String.eqb_sym s0), (String.eqb_sym o0). exact Ek. }
      rewrite X. exact E.
  - destruct Ha. auto.
Qed.
Definition kept (S_ : system) : Prop :=
  Forall responsible (threads S_) /\ (settled (shared S_) \/ exists t a, nth_error (threads S_) t = Some a /\ settles a).
Lemma sys_kept S_ t : good S_ -> kept S_ -> kept (sys_step user S_ t).
Proof.
  intros (H1 & H2 & H3 & H4 & H5) [K1 K2]. unfold sys_step. destruct (nth_error (threads S_) t) as [a|] eqn:E; [|split; auto].
  assert (Ha : safe a) by (rewrite Forall_forall in H1; apply H1; eapply nth_error_In; eauto).
  assert (Hr : responsible a) by (rewrite Forall_forall in K1; apply K1; eapply nth_error_In; eauto).
  assert (Q := step_settled a (shared S_) Ha Hr H2 H3 H4). destruct (step user a (shared S_)) as [[a' st'] e].
  destruct Q as (Q1 & Q2 & Q3). split; cbn [threads shared]; [now apply Forall_upd|].
  assert (Ht : nth_error (upd (threads S_) t a') t = Some a').
  { apply nth_error_upd_eq. apply nth_error_Some; congruence. }
  assert (D : settled st' \/ settles a' -> settled st' \/ exists t0 a0, nth_error (upd (threads S_) t a') t0 = Some a0 /\ settles a0).
  { intros [D|D]; [auto|]. right. exists t, a'. auto. }
  destruct K2 as [K2|(t' & b & Hb & Kb)]; [auto|].
  destruct (Nat.eq_dec t' t) as [->|N].
  - assert (b = a) by congruence. subst b. auto.
  - right. exists t', b. split; [|exact Kb]. rewrite nth_error_upd_neq by auto. exact Hb.
Qed.
Lemma exec_kept sched : forall S_, good S_ -> kept S_ -> kept (exec user S_ sched).
Proof.
  induction sched as [|t sched IH]; intros S_ H K; [exact K|]. unfold exec. cbn [fold_left].
  apply IH; [apply sys_good; exact H|now apply sys_kept].
Qed.
End key.

(** *** Loads that agree *)
Section agree.
Variables (s0 o0 : string).
Fixpoint will_write (a : act) : Prop :=
  match a with
  | AHas k => will_write (k true)
  | ACur k => will_write (k (Some i))
  | ARead _ s o k => forall x, allowed s o x -> will_write (k x)
  | AWrite _ s o v k => is_key s0 o0 s o = true \/ will_write k
  | ASay _ k => will_write k
  | _ => False
  end.
Lemma checks_will l k : (forall s o c, In (s, o, c) l -> documented s o = Some c) -> will_write k -> will_write (checks i l k).
Proof.
  induction l as [|[[s o] c] l IH]; intros H Hk; [exact Hk|]. cbn [checks will_write].
  assert (IH' : will_write (checks i l k)) by (apply IH; auto; intros s' o' c' Hi'; apply H; right; exact Hi').
  intros x Hx. destruct (allowed_doc s o c x) as (v & -> & _); auto.
  { apply H. left. reflexivity. }
  destruct (converts c v); [|exact IH']. cbn [will_write]. auto.
Qed.
Lemma writes_will l k : will_write k \/ (exists v, In (s0, o0, v) l) -> will_write (writes i l k).
Proof.
  induction l as [|[[s o] v] l IH]; intros H; cbn [writes will_write].
  - destruct H as [H|[v []]]; exact H.
  - destruct H as [H|[w [E|Hi]]].
    + right. auto.
    + injection E as -> -> ->. left. unfold is_key. now rewrite !String.eqb_refl.
    + right. apply IH. right. eauto.
Qed.
Lemma load_will cfg k : wf2 cfg -> opt_of cfg s0 o0 <> None \/ will_write (k (Ok tt)) -> will_write (load_act cfg k).
Proof.
  intros Hw H. unfold load_act. cbn [will_write]. destruct cfg as [|x cfg]; cbn [will_write].
  - destruct H as [H|H]; [now destruct H|]. apply checks_will; auto. intros s o c. apply in_specs.
  - apply writes_will. destruct H as [H|H].
    + right. destruct (opt_of (x :: cfg) s0 o0) as [v|] eqn:E; [|congruence]. exists v. apply in_flat; auto. now rewrite look_opt_of.
    + left. cbn [will_write]. apply checks_will; auto. intros s o c. apply in_specs.
Qed.
Lemma thread_will p fin : gets_loads p -> must_give s0 o0 p -> will_write (thread p fin).
Proof.
  induction p as [|e|s o k IH|cfg k IH|s o k IH|k IH|s o body IHb k IHk]; intros Hp Hm; cbn [thread gets_loads] in *; try contradiction; try (inversion Hm; fail).
  - assert (Hk : forall r, must_give s0 o0 (k r)) by (inversion Hm; auto).
    assert (W : forall r, will_write (ASay (EGet s o r) (thread (k r) fin))) by (intro r; cbn [will_write]; auto).
    unfold get_act. cbn [will_write]. destruct o as [o|]; [cbn [will_write]; intros x _; apply W|].
    destruct (re_option s); cbn [will_write]; [intros x _; apply W|apply W].
  - destruct Hp as [Hw Hp]. apply load_will; auto. inversion Hm as [? ? H| ? ? H|]; subst; [left; exact H|]. right. cbn [will_write]. auto.
Qed.
Definition written (st : state) : Prop := exists v, look (content st i) s0 o0 = Some v /\ fresh s0 o0 v.
Lemma step_written a st : safe a -> cache st = Some i -> i < List.length (objs st) ->
  (forall s o, allowed s o (look (content st i) s o)) ->
  let '(a', st', e) := step user a st in
  (written st -> written st') /\ (will_write a -> written st' \/ will_write a').
Proof.
  intros Ha Hc Hi Hv. destruct a; cbn [step safe will_write] in *; try contradiction.
  - auto.
  - rewrite Hc. auto.
  - rewrite Hc. auto.
  - destruct Ha as [-> Ha]. split; [auto|]. intro H. right. apply H, Hv.
  - destruct Ha as (-> & Hf & Ha).
    destruct (is_key s0 o0 s o) eqn:Ek.
    + apply is_key_true in Ek. destruct Ek as [-> ->].
      assert (W : written (mkst (upd (objs st) i (write_opt (content st i) s0 o0 v)) (cache st))).
      { exists v. rewrite content_write, Nat.eqb_refl, look_write by auto. rewrite !String.eqb_refl. auto. }
      auto.
    + split; [|intros [H|H]; [discriminate|auto]]. intros (w & E & Hw). exists w. split; [|exact Hw].
      rewrite content_write, Nat.eqb_refl, look_write by auto.
      assert (X : String.eqb s0 s && String.eqb o0 o = false).
      { unfold is_key in Ek. rewrite (String.eqb_sym s0), (String.eqb_sym o0). exact Ek. }
      rewrite X. exact E.
  - auto.
Qed.
Definition due (S_ : system) : Prop := written (shared S_) \/ exists t a, nth_error (threads S_) t = Some a /\ will_write a.
Lemma sys_due S_ t : good S_ -> due S_ -> due (sys_step user S_ t).
Proof.
  intros (H1 & H2 & H3 & H4 & H5) K2. unfold sys_step. destruct (nth_error (threads S_) t) as [a|] eqn:E; [|exact K2].
  assert (Ha : safe a) by (rewrite Forall_forall in H1; apply H1; eapply nth_error_In; eauto).
  assert (Q := step_written a (shared S_) Ha H2 H3 H4). destruct (step user a (shared S_)) as [[a' st'] e].
  destruct Q as (Q1 & Q2). unfold due. cbn [threads shared].
  destruct K2 as [K2|(t' & b & Hb & Kb)]; [auto|].
  destruct (Nat.eq_dec t' t) as [->|N].
  - assert (b = a) by congruence. subst b. destruct (Q2 Kb) as [D|D]; [auto|]. right. exists t, a'. split; [|exact D].
    apply nth_error_upd_eq. apply nth_error_Some; congruence.
  - right. exists t', b. split; [|exact Kb]. rewrite nth_error_upd_neq by auto. exact Hb.
Qed.
Lemma exec_due sched : forall S_, good S_ -> due S_ -> due (exec user S_ sched).
Proof.
  induction sched as [|t sched IH]; intros S_ H K; [exact K|]. unfold exec. cbn [fold_left].
  apply IH; [apply sys_good; exact H|now apply sys_due].
Qed.
End agree.
End safe.
