(** Facts for C73. *)
From Verif Require Export CFThreadsSpec CFCurrentProps PyBaseFacts.
From Coq Require Import Lia.
Open Scope nat_scope.

(** *** A thread that runs alone *)
Section solo.
Variable w : world.
Inductive steps : act -> state -> act -> state -> Prop :=
| steps_refl a st : steps a st a st
| steps_step a st a1 st1 e a2 st2 : step w a st = (a1, st1, e) -> steps a1 st1 a2 st2 -> steps a st a2 st2.
Lemma steps_trans a st a1 st1 a2 st2 : steps a st a1 st1 -> steps a1 st1 a2 st2 -> steps a st a2 st2.
Proof. induction 1; intro H1; [auto|]. econstructor; eauto. Qed.
Ltac go := eapply steps_step; [reflexivity|].
Ltac go_ E := eapply steps_step; [cbn [step]; rewrite E; reflexivity|].

Lemma fetch_solo n c k st : steps (ACur (fun o => match o with None => k (Raise KeyError)
     | Some i => ALook i (fun x => k (Ok (answer_in i x n c))) end)) st
   (k (match cur st with None => Raise KeyError | Some i => Ok (answer_in i (obj st i) n c) end)) st.
Proof. go. destruct (cur st) as [i|]; [|constructor]. go. constructor. Qed.
Lemma get_solo n c m k st : steps (get_act n c m k) st (k (snd (get_cf_specs w n c m st))) (fst (get_cf_specs w n c m st)).
Proof.
  set (fetch := ACur (fun o => match o with None => k (Raise KeyError) | Some i => ALook i (fun x => k (Ok (answer_in i x n c))) end)).
  assert (F : forall st0, steps fetch st0 (k (match cur st0 with None => Raise KeyError | Some i => Ok (answer_in i (obj st0 i) n c) end)) st0)
    by (intro; apply fetch_solo).
  assert (R : m <> CInvalid -> get_cf_specs w n c m st = (ensure w m st,
     match cur (ensure w m st) with None => Raise KeyError | Some i => Ok (answer_in i (obj (ensure w m st) i) n c) end)).
  { intro H. unfold get_cf_specs, answer_in, obj. destruct m; try congruence;
      destruct (cur (ensure w _ st)); reflexivity. }
  destruct (match m with CInvalid => true | _ => false end) eqn:Em.
  { destruct m; try discriminate. cbn. constructor. }
  rewrite R by (intro; subst; discriminate). cbn [fst snd].
  set (clean := match m with CClean => ARemove fetch | _ => fetch end).
  set (fin := fun st0 : state => match m with CClean => reset_cache true false st0 | _ => st0 end).
  assert (C : forall st0, steps clean st0 (k (match cur (fin st0) with None => Raise KeyError | Some i => Ok (answer_in i (obj (fin st0) i) n c) end)) (fin st0)).
  { intro st0. unfold clean, fin. destruct m; try apply F. go. apply F. }
  assert (K : forall st0, steps (AHas (fun b => if b then clean else
      AFresh (fun i => put_act i (fun _ => match m with CWrite | CRw => ADump clean | _ => clean end)))) st0
      (k (match cur (fin (compute w m st0)) with None => Raise KeyError | Some i => Ok (answer_in i (obj (fin (compute w m st0)) i) n c) end)) (fin (compute w m st0))).
  { intro st0. unfold compute. destruct (cur st0) as [i|] eqn:E; [go_ E; apply C|]. go_ E. go. unfold put_act. go. go. cbn [new_obj].
    assert (D : steps (match m with CWrite | CRw => ADump clean | _ => clean end)
       (set_cur (fst (new_obj st0 (fresh w (List.length (objs st0))))) (Some (List.length (objs st0)))) clean
       (match m with
        | CWrite | CRw => if writable st0 then set_file (set_cur (fst (new_obj st0 (fresh w (List.length (objs st0))))) (Some (List.length (objs st0))))
              (Some (clock st0, PSpecs (fresh w (List.length (objs st0))))) else set_cur (fst (new_obj st0 (fresh w (List.length (objs st0))))) (Some (List.length (objs st0)))
        | _ => set_cur (fst (new_obj st0 (fresh w (List.length (objs st0))))) (Some (List.length (objs st0))) end)).
    { destruct m; try constructor.
      - eapply steps_step; [|constructor]. cbn [step]. cbn [writable set_cur new_obj fst cur clock]. unfold obj. cbn [objs set_cur].
        rewrite app_nth2, Nat.sub_diag by lia. reflexivity.
      - eapply steps_step; [|constructor]. cbn [step]. cbn [writable set_cur new_obj fst cur clock]. unfold obj. cbn [objs set_cur].
        rewrite app_nth2, Nat.sub_diag by lia. reflexivity. }
    eapply steps_trans; [exact D|]. clear D. destruct m; apply C. }
  assert (EN : ensure w m st = fin (match cur st with Some _ => st | None => compute w m (try_disk w m st) end)).
  { unfold ensure, fin. destruct m; reflexivity. }
  rewrite EN. unfold get_act. fold fetch. fold clean.
  destruct (cur st) as [i|] eqn:E.
  - assert (X : steps (AHas (fun b => if b then clean else clean)) st (k (match cur (fin st) with None => Raise KeyError | Some i => Ok (answer_in i (obj (fin st) i) n c) end)) (fin st)).
    { go_ E. apply C. }
    destruct m; try discriminate; (go_ E; apply C).
  - destruct m; try discriminate; go_ E; try apply K. cbn [try_disk].
    destruct (file st) as [[t p]|] eqn:Ef.
    2: { eapply steps_step; [cbn [step]; rewrite Ef; reflexivity|]. apply K. }
    destruct p as [x|].
    + destruct (cfg_time w <? t) eqn:Et.
      * eapply steps_step; [cbn [step]; rewrite Ef, Et; reflexivity|]. unfold put_act. go. go. cbn [new_obj]. apply K.
      * eapply steps_step; [cbn [step]; rewrite Ef, Et; reflexivity|]. apply K.
    + eapply steps_step; [cbn [step]; rewrite Ef; reflexivity|]. destruct (cfg_time w <? t); apply K.
Qed.
Lemma set_solo s k st : steps (set_act s k) st (k (snd (set_init s st))) (fst (set_init s st)).
Proof.
  destruct s as [c|e|i|]; cbn [set_act set_init fst snd].
  - unfold put_act. go. go. go. constructor.
  - constructor.
  - destruct (i <? List.length (objs st)) eqn:E; cbn [fst snd].
    + go_ E. unfold put_act. go. go. constructor.
    + go_ E. constructor.
  - constructor.
Qed.
Lemma exit_solo old k st : steps (exit_act old k) st (k (snd (set_exit old st))) (fst (set_exit old st)).
Proof.
  unfold exit_act, set_exit. destruct old as [i|]; [go; constructor|].
  destruct (cur st) eqn:E; go_ E; constructor.
Qed.
Lemma reset_solo d m k st : steps (reset_act d m k) st k (reset_cache d m st).
Proof. destruct d, m; cbn; repeat go; constructor. Qed.
Lemma say_solo e k st a st' : steps k st a st' -> steps (ASay e k) st a st'.
Proof. intro H. go. exact H. Qed.
Lemma thread_solo : forall p fin st, steps (thread p fin) st (fin (snd (run w p st))) (fst (run w p st)).
Proof.
  induction p as [|e|n c m k IH|s k IH|d m k IH|f wr t k IH|s body IHb k IHk]; intros fin st; cbn [run thread].
  - constructor.
  - constructor.
  - eapply steps_trans; [apply get_solo|]. apply say_solo. destruct (get_cf_specs w n c m st) as [st1 r]. apply IH.
  - eapply steps_trans; [apply set_solo|]. apply say_solo. destruct (set_init s st) as [st1 r]. apply IH.
  - eapply steps_trans; [apply reset_solo|]. apply IH.
  - go. apply IH.
  - eapply steps_trans; [apply set_solo|]. unfold with_specs. destruct (set_init s st) as [st1 [[old i]|e]]; cbn [fst snd].
    + eapply steps_trans; [apply IHb|]. destruct (run w (body i) st1) as [st2 r]. cbn [fst snd].
      eapply steps_trans; [apply exit_solo|]. destruct (set_exit old st2) as [st3 r']. cbn [fst snd].
      apply say_solo. apply IHk.
    + apply say_solo. apply IHk.
Qed.
End solo.

Lemma upd_len {A} (l : list A) i x : List.length (upd l i x) = List.length l.
Proof. revert i; induction l; intros [|i]; simpl; auto. Qed.
Lemma exec_steps w t a st a' st' : steps w a st a' st' -> forall S_,
  nth_error (threads S_) t = Some a -> shared S_ = st -> exists n sd,
  exec w S_ (repeat t n) = mksys (upd (threads S_) t a') st' sd.
Proof.
  induction 1 as [a st|a st a1 st1 e a2 st2 H _ IH]; intros S_ Hn Hs.
  - exists 0, (said S_). destruct S_ as [ths sh sd]. cbn in *. subst. f_equal.
    clear -Hn. revert t Hn. induction ths as [|x ths IH]; intros [|t] Hn; cbn in *; try discriminate.
    + injection Hn as ->. reflexivity.
    + f_equal. auto.
  - set (S1 := sys_step w S_ t).
    assert (E : S1 = mksys (upd (threads S_) t a1) st1 (match e with Some e => said S_ ++ [(t, e)] | None => said S_ end)).
    { unfold S1, sys_step. rewrite Hn, Hs, H. reflexivity. }
    destruct (IH S1) as (n & sd & F).
    + rewrite E. cbn [threads]. apply nth_error_upd_eq. apply nth_error_Some; congruence.
    + rewrite E. reflexivity.
    + exists (S n), sd. cbn [repeat]. unfold exec in *. cbn [fold_left]. fold S1. rewrite F, E. cbn [threads]. f_equal.
      clear. generalize (threads S_) as l. revert t. intros t l. revert t. induction l; intros [|t]; cbn; auto. f_equal. auto.
Qed.
Lemma act_ends w : forall a st, exists r st', steps w a st (AStop r) st'.
Proof.
  assert (N : forall a st a' st' e, step w a st = (a', st', e) -> (exists r st2, steps w a' st' (AStop r) st2) ->
     exists r st2, steps w a st (AStop r) st2).
  { intros a st a' st' e E (r & st2 & H). exists r, st2. eapply steps_step; eauto. }
  induction a as [r|k IH|k IH|i k IH|k IH|k IH|c k IH|k IH|i k IH|i k IH|k IH|k IH|k IH|f wr t k IH|e k IH]; intro st.
  - exists r, st. constructor.
  - eapply N; [reflexivity|apply IH].
  - eapply N; [reflexivity|apply IH].
  - eapply N; [reflexivity|apply IH].
  - destruct (cur st) eqn:E; (eapply N; [cbn [step]; rewrite E; reflexivity|apply IH]).
  - eapply N; [reflexivity|apply IH].
  - eapply N; [reflexivity|apply IH].
  - eapply N; [reflexivity|apply IH].
  - eapply N; [reflexivity|apply IH].
  - eapply N; [reflexivity|apply IH].
  - destruct (file st) as [[t [c|]]|] eqn:E.
    + destruct (cfg_time w <? t) eqn:E'; (eapply N; [cbn [step]; rewrite E, E'; reflexivity|apply IH]).
    + eapply N; [cbn [step]; rewrite E; reflexivity|apply IH].
    + eapply N; [cbn [step]; rewrite E; reflexivity|apply IH].
  - eapply N; [reflexivity|apply IH].
  - eapply N; [reflexivity|apply IH].
  - eapply N; [reflexivity|apply IH].
  - eapply N; [reflexivity|apply IH].
Qed.

(** *** Invariants of any interleaving *)
Section safe.
Variables (w : world) (objs0 : list content) (A : nat -> Prop) (G : content -> Prop) (K : Prop) (E0 : nat * pickled -> Prop).
Definition n0 : nat := List.length objs0.
(** Objects made by the threads may be current *)
Hypothesis A_new : forall i, n0 <= i -> A i.
(** Contents of objects *)
Definition has (i : nat) (c : content) : Prop := nth_error objs0 i = Some c \/ (n0 <= i /\ G c).
Definition event_ok (e : event) : Prop :=
  match e with
  | EGet n cat m (Ok a) => m <> CInvalid /\ exists i c, A i /\ has i c /\ a = answer_in i c n cat
  | EGet n cat m (Raise e) => e = AssertionError /\ m = CInvalid
  | ESet (Raise e) | EWith (Raise e) => K /\ e <> KeyError
  | ESet (Ok _) | EWith (Ok _) => K
  end.
(** [n]: how many objects there are; [b]: the thread knows that there are current specifications *)
Fixpoint safe (n : nat) (b : bool) (a : act) : Prop :=
  match a with
  | AStop (Ok _) => True
  | AStop (Raise e) => K -> e <> KeyError
  | AHas k => safe n true (k true) /\ (b = false -> safe n false (k false))
  | ACur k => (forall m i, n <= m -> i < m -> A i -> safe m true (k (Some i))) /\ (b = false -> safe n false (k None))
  | APut i k => i < n /\ A i /\ safe n true k
  | ADel _ | AClear _ | ADisk _ => False
  | ANew c k => G c /\ forall m, n <= m -> safe (S m) b (k m)
  | AFresh k => (forall n, G (fresh w n)) /\ forall m, n <= m -> safe (S m) b (k m)
  | AIs i k => safe n b (k false) /\ forall m, n <= m -> i < m -> safe m b (k true)
  | ALook i k => i < n /\ A i /\ forall c, has i c -> safe n b (k c)
  | ADump k => b = true /\ safe n b k
  | ARemove k => safe n b k
  | AEnv f _ _ k => (forall x, f = Some x -> E0 x) /\ safe n b k
  | ASay e k => event_ok e /\ safe n b k
  end.
Lemma safe_mono a : forall n n' b b', n <= n' -> (b = true -> b' = true) -> safe n b a -> safe n' b' a.
Proof.
  induction a as [r|k IH|k IH|i k IH|k IH|k IH|c k IH|k IH|i k IH|i k IH|k IH|k IH|k IH|f wr t k IH|e k IH];
    intros n n' b b' Hn Hb Hs; cbn [safe] in *; auto.
  - destruct Hs as [H1 H2]. split; [eapply IH; [exact Hn| |exact H1]; auto|]. intros ->. destruct b; [discriminate Hb; reflexivity|]. 
    eapply IH; [exact Hn| |apply H2; reflexivity]. discriminate.
  - destruct Hs as [H1 H2]. split; [intros m i Hm Hi Ha; apply H1; auto; lia|]. intros ->. destruct b; [discriminate Hb; reflexivity|].
    eapply IH; [exact Hn| |apply H2; reflexivity]. discriminate.
  - destruct Hs as (H1 & H2 & H3). split; [lia|]. split; [auto|]. eapply IH; [exact Hn| |exact H3]; auto.
  - destruct Hs as [H1 H2]. split; [auto|]. intros m Hm. eapply IH; [apply le_n|exact Hb|]. apply H2. lia.
  - destruct Hs as [H1 H2]. split; [auto|]. intros m Hm. eapply IH; [apply le_n|exact Hb|]. apply H2. lia.
  - destruct Hs as [H1 H2]. split; [eapply IH; eauto|]. intros m Hm Hi. eapply IH; [apply le_n|exact Hb|]. apply H2; lia.
  - destruct Hs as (H1 & H2 & H3). split; [lia|]. split; [auto|]. intros c Hc. eapply IH; eauto.
  - destruct Hs as [-> H2]. split; [auto|]. eapply IH; eauto.
  - eapply IH; eauto.
  - destruct Hs as [H1 H2]. split; [auto|]. eapply IH; eauto.
  - destruct Hs as [H1 H2]. split; [auto|]. eapply IH; eauto.
Qed.
(** The invariant *)
Definition state_ok (st : state) : Prop :=
  n0 <= List.length (objs st) /\ (forall i c, nth_error (objs st) i = Some c -> has i c) /\
  (forall i, cur st = Some i -> A i /\ i < List.length (objs st)) /\
  (forall t p, file st = Some (t, p) -> E0 (t, p) \/ exists i c, p = PSpecs c /\ A i /\ has i c).
Lemma new_ok st c : state_ok st -> G c -> state_ok (fst (new_obj st c)) /\ snd (new_obj st c) = List.length (objs st) /\
  List.length (objs (fst (new_obj st c))) = S (List.length (objs st)) /\ cur (fst (new_obj st c)) = cur st.
Proof.
  intros (H1 & H2 & H3 & H4) Hc. cbn [new_obj fst snd objs cur]. rewrite app_length. cbn [List.length].
  split; [|split; [reflexivity|split; [lia|reflexivity]]]. split; [cbn [objs]; rewrite app_length; lia|]. split.
  - intros i x Hx. cbn [objs] in Hx. destruct (Nat.lt_ge_cases i (List.length (objs st))) as [L|L].
    + rewrite nth_error_app1 in Hx by auto. auto.
    + rewrite nth_error_app2 in Hx by auto. right. split; [lia|].
      destruct (i - List.length (objs st)) as [|[|j]]; cbn in Hx; [congruence|discriminate|discriminate].
  - split; [|exact H4]. intros i Hi. cbn [objs cur] in *. destruct (H3 i Hi). split; [auto|]. rewrite app_length. cbn. lia.
Qed.
Lemma step_ok a st b : state_ok st -> safe (List.length (objs st)) b a -> (b = true -> cur st <> None) ->
  let '(a', st', e) := step w a st in
  state_ok st' /\ List.length (objs st) <= List.length (objs st') /\ (cur st <> None -> cur st' <> None) /\
  (exists b', safe (List.length (objs st')) b' a' /\ (b' = true -> cur st' <> None)) /\
  match e with Some e => event_ok e | None => True end.
Proof.
  intros HS Hs Hb. assert (HS' := HS). destruct HS' as (S1 & S2 & S3 & S4).
  destruct a as [r|k|k|i k|k|k|c k|k|i k|i k|k|k|k|f wr t k|e k]; cbn [step safe] in *; try contradiction.
  - repeat (split; auto). exists b. auto.
  - destruct Hs as [H1 H2]. repeat (split; auto). destruct (cur st) as [i|] eqn:E.
    + exists true. split; [exact H1|discriminate].
    + destruct b; [now destruct (Hb eq_refl)|]. exists false. split; [auto|discriminate].
  - destruct Hs as [H1 H2]. repeat (split; auto). destruct (cur st) as [i|] eqn:E.
    + exists true. destruct (S3 i eq_refl). split; [apply H1; auto|discriminate].
    + destruct b; [now destruct (Hb eq_refl)|]. exists false. split; [auto|discriminate].
  - destruct Hs as (H1 & H2 & H3). split; [|split; [cbn; lia|split; [discriminate|split; [exists true; split; [exact H3|discriminate]|exact Logic.I]]]].
    split; [exact S1|]. split; [exact S2|]. split; [|exact S4]. cbn [cur set_cur objs]. intros j Hj. injection Hj as <-. auto.
  - destruct Hs as [H1 H2]. destruct (new_ok st c HS H1) as (N1 & N2 & N3 & N4).
    destruct (new_obj st c) as [st' i]. cbn [fst snd] in *. subst i. split; [exact N1|]. split; [lia|]. rewrite N4. split; [auto|].
    split; [|exact Logic.I]. exists b. split; [rewrite N3; apply H2; lia|exact Hb].
  - destruct Hs as [H1 H2]. set (c := fresh w (List.length (objs st))). destruct (new_ok st c HS (H1 _)) as (N1 & N2 & N3 & N4).
    destruct (new_obj st c) as [st' i]. cbn [fst snd] in *. subst i. split; [exact N1|]. split; [lia|]. rewrite N4. split; [auto|].
    split; [|exact Logic.I]. exists b. split; [rewrite N3; apply H2; lia|exact Hb].
  - destruct Hs as [H1 H2]. repeat (split; auto). exists b. split; [|exact Hb].
    destruct (Nat.ltb_spec i (List.length (objs st))); auto.
  - destruct Hs as (H1 & H2 & H3). repeat (split; auto). exists b. split; [|exact Hb]. apply H3. apply S2.
    unfold obj. destruct (nth_error (objs st) i) as [c|] eqn:E; [|apply nth_error_None in E; lia].
    f_equal. symmetry. apply nth_error_nth. exact E.
  - destruct Hs as [-> Hs]. destruct (writable st); (split; [|split; [cbn; lia|]; split; [auto|]; split; [|exact Logic.I]; exists true; auto]); [|exact HS].
    split; [exact S1|]. split; [exact S2|]. split; [exact S3|]. cbn [file set_file]. intros t p Hp. injection Hp as <- <-. right.
    destruct (cur st) as [i|] eqn:E; [|now destruct (Hb eq_refl)]. destruct (S3 i eq_refl) as [Ha Hi]. exists i, (obj st i). split; [reflexivity|].
    split; [exact Ha|]. apply S2. unfold obj. destruct (nth_error (objs st) i) as [c|] eqn:E'; [|apply nth_error_None in E'; lia].
    f_equal. symmetry. apply nth_error_nth. exact E'.
  - split; [split; [exact S1|split; [exact S2|split; [exact S3|discriminate]]]|]. split; [cbn; lia|]. split; [auto|]. split; [|exact Logic.I]. exists b; auto.
  - destruct Hs as [H1 H2]. split; [split; [exact S1|split; [exact S2|split; [exact S3|]]]; cbn [file]; intros t' p' Hp; left; auto|]. split; [cbn; lia|]. split; [auto|]. split; [|exact Logic.I]. exists b; auto.
  - destruct Hs as [H1 H2]. repeat (split; auto). exists b. auto.
Qed.
Definition good (S_ : system) : Prop :=
  state_ok (shared S_) /\
  Forall (fun a => exists b, safe (List.length (objs (shared S_))) b a /\ (b = true -> cur (shared S_) <> None)) (threads S_) /\
  Forall (fun te => event_ok (snd te)) (said S_).
Lemma Forall_upd {B} (P : B -> Prop) l t x : Forall P l -> P x -> Forall P (upd l t x).
Proof. intros H Hx. revert t. induction H as [|y l Hy Hl IH]; intros [|t]; cbn [upd]; auto. Qed.
Lemma sys_good S_ t : good S_ -> good (sys_step w S_ t) /\ (cur (shared S_) <> None -> cur (shared (sys_step w S_ t)) <> None).
Proof.
  intros (H1 & H2 & H3). unfold sys_step. destruct (nth_error (threads S_) t) as [a|] eqn:E; [|split; [split; auto|auto]].
  assert (Ha := H2). rewrite Forall_forall in Ha. destruct (Ha a) as (b & Hs & Hb); [eapply nth_error_In; eauto|].
  assert (Q := step_ok a (shared S_) b H1 Hs Hb). destruct (step w a (shared S_)) as [[a' st'] e].
  destruct Q as (Q1 & Q2 & Q3 & Q4 & Q5). split; [|exact Q3]. split; [exact Q1|]. split; cbn [threads shared said].
  - apply Forall_upd; [|exact Q4]. eapply Forall_impl; [|exact H2]. intros x (b' & X1 & X2). exists b'. split; [|auto].
    eapply safe_mono; [exact Q2| |exact X1]; auto.
  - destruct e; [|auto]. apply Forall_app. split; [auto|]. constructor; [exact Q5|constructor].
Qed.
Lemma exec_good sched : forall S_, good S_ -> good (exec w S_ sched) /\ (cur (shared S_) <> None -> cur (shared (exec w S_ sched)) <> None).
Proof.
  induction sched as [|t sched IH]; intros S_ H; [split; auto|].
  destruct (sys_good S_ t H) as [B C]. unfold exec. cbn [fold_left]. destruct (IH _ B) as [D E]. auto.
Qed.

(** *** The threads are safe *)
Lemma fetch_safe n b k name cat : (b = true) -> n0 <= n ->
  (forall m a, n <= m -> (exists i c, A i /\ has i c /\ a = answer_in i c name cat) -> safe m true (k (Ok a))) ->
  safe n b (ACur (fun o => match o with None => k (Raise KeyError)
       | Some i => ALook i (fun c => k (Ok (answer_in i c name cat))) end)).
Proof.
  intros -> Hn Hk. cbn [safe]. split; [|discriminate]. intros m i Hm Hi Ha. split; [auto|]. split; [auto|].
  intros c Hc. apply Hk; [auto|]. exists i, c. auto.
Qed.
Lemma get_safe n b name cat m k : n0 <= n -> b = true \/ (m <> CRead /\ forall j, G (fresh w j)) ->
  (forall n' b' r, n <= n' -> (b = true -> b' = true) -> event_ok (EGet name cat m r) -> safe n' b' (k r)) ->
  safe n b (get_act name cat m k).
Proof.
  intros Hn Hm Hk.
  destruct (match m with CInvalid => true | _ => false end) eqn:Em.
  { destruct m; try discriminate. cbn [get_act]. apply Hk; [apply le_n|auto|]. split; reflexivity. }
  assert (Hv : m <> CInvalid) by (intro; subst; discriminate).
  assert (F : forall n', n <= n' -> safe n' true (ACur (fun o => match o with None => k (Raise KeyError)
       | Some i => ALook i (fun c => k (Ok (answer_in i c name cat))) end))).
  { intros n' Hn'. apply fetch_safe; [reflexivity|lia|]. intros m' a Hm' Ha. apply Hk; [lia|auto|]. split; [exact Hv|exact Ha]. }
  set (fetch := ACur (fun o => match o with None => k (Raise KeyError)
       | Some i => ALook i (fun c => k (Ok (answer_in i c name cat))) end)) in *.
  set (clean := match m with CClean => ARemove fetch | _ => fetch end).
  assert (C : forall n', n <= n' -> safe n' true clean) by (intros n' Hn'; unfold clean; destruct m; cbn [safe]; auto).
  set (compute_ := AHas (fun b => if b then clean else
    AFresh (fun i => put_act i (fun _ => match m with CWrite | CRw => ADump clean | _ => clean end)))).
  assert (D : b = false -> safe n false compute_).
  { intros ->. destruct Hm as [Hm|[Hm Hf]]; [discriminate|]. unfold compute_. cbn [safe put_act]. split; [apply C; lia|].
    intros _. split; [exact Hf|]. intros j Hj.
    assert (X : forall n', n <= n' -> safe n' true (match m with CWrite | CRw => ADump clean | _ => clean end)).
    { intros n' Hn'. destruct m; cbn [safe]; try (split; [reflexivity|]); auto. }
    split; [intros m' i' H1 H2 H3|intros _]; (split; [lia|]; split; [apply A_new; lia|]; apply X; lia). }
  unfold get_act. fold fetch. fold clean. fold compute_.
  destruct m; try discriminate; cbn [safe]; (split; [apply C; lia|]); intro Hb;
    try (apply D; exact Hb); try (destruct Hm as [Hm|[Hm _]]; congruence).
Qed.
Lemma set_safe n b src k : n0 <= n ->
  (forall c, src = SDict c -> G c) -> (forall i, src = SObj i -> A i) ->
  (forall n' old i, n <= n' -> (match old with Some j => j < n' /\ A j | None => b = false end) -> i < n' ->
     safe n' true (k (Ok (old, i)))) ->
  (forall n' b' e, n <= n' -> (b = true -> b' = true) -> e = AssertionError \/ src = SBadDict e -> safe n' b' (k (Raise e))) ->
  safe n b (set_act src k).
Proof.
  intros Hn Hc Hi Hk He.
  assert (P : forall n' b0 i, n <= n' -> (b0 = false -> b = false) -> i < n' -> A i -> safe n' b0 (put_act i (fun old => k (Ok (old, i))))).
  { intros n' b0 i Hn' Hb0 Hi' Ha. unfold put_act. cbn [safe]. split.
    - intros m j Hm Hj Haj. split; [lia|]. split; [auto|]. apply Hk; [lia|auto|lia].
    - intros Hb. split; [auto|]. split; [auto|]. apply Hk; [lia| |lia]. auto. }
  destruct src as [c|e|i|]; cbn [set_act safe].
  - split; [apply Hc; reflexivity|]. intros m Hm. apply P; [lia|auto|lia|apply A_new; lia].
  - apply He; auto.
  - split; [apply He; auto|]. intros m Hm Hlt. apply P; [lia|auto|lia|apply Hi; reflexivity].
  - apply He; auto.
Qed.
Lemma tame_safe : forall p n fin, K -> (forall x, E0 x) -> tame p -> n0 <= n ->
  (forall c, sets p (SDict c) -> G c) -> (forall i, sets p (SObj i) -> A i) ->
  (forall n' r, n <= n' -> (forall e, r = Raise e -> e <> KeyError) -> safe n' true (fin r)) ->
  safe n true (thread p fin).
Proof.
  induction p as [|e|nm c m k IH|s k IH|d m k IH|f wr t k IH|s body IHb k IHk]; intros n fin HK HE Hp Hn HG HA Hf; cbn [thread tame] in *.
  - apply Hf; [lia|discriminate].
  - apply Hf; [lia|]. intros e' E. now injection E as <-.
  - apply get_safe; [exact Hn|auto|]. intros n' b' r Hn' Hb' Hr. rewrite (Hb' eq_refl). cbn [safe]. split; [exact Hr|].
    apply IH; auto; try lia.
    + apply Hp. intros ->. cbn [event_ok] in Hr. destruct Hr as [Hr _]. discriminate.
    + intros x Hx. apply HG. eapply sets_get; eauto.
    + intros x Hx. apply HA. eapply sets_get; eauto.
    + intros n'' r' Hn'' Hr'. apply Hf; [lia|auto].
  - destruct Hp as [Hs Hp].
    assert (KS : forall n' r, n <= n' -> (forall e, r = Raise e -> e <> KeyError) -> safe n' true (ASay (ESet r) (thread (k r) fin))).
    { intros n' r Hn' Hr. cbn [safe]. split; [destruct r; cbn; auto|]. apply IH; auto; try lia.
      + apply Hp. intros ->. now apply (Hr KeyError).
      + intros x Hx. apply HG. eapply sets_seq; eauto.
      + intros x Hx. apply HA. eapply sets_seq; eauto.
      + intros n'' r' Hn'' Hr'. apply Hf; [lia|auto]. }
    apply set_safe; auto.
    + intros x ->. apply HG. constructor.
    + intros x ->. apply HA. constructor.
    + intros n' old i Hn' _ _. apply KS; [lia|discriminate].
    + intros n' b' e Hn' Hb' He. rewrite (Hb' eq_refl). apply KS; [lia|]. intros e' E. injection E as <-.
      destruct He as [->| ->]; [discriminate|]. intro; subst. now apply Hs.
  - destruct Hp as [-> Hp]. unfold reset_act. 
    assert (X : safe n true (thread k fin)).
    { apply IH; auto.
      + intros x Hx. apply HG. eapply sets_reset; eauto.
      + intros x Hx. apply HA. eapply sets_reset; eauto. }
    destruct d; cbn [safe]; exact X.
  - cbn [safe]. split; [auto|]. apply IH; auto.
    + intros x Hx. apply HG. eapply sets_else; eauto.
    + intros x Hx. apply HA. eapply sets_else; eauto.
  - destruct Hp as (Hs & Hpb & Hpk).
    assert (KS : forall n' r, n <= n' -> (forall e, r = Raise e -> e <> KeyError) -> safe n' true (ASay (EWith r) (thread (k r) fin))).
    { intros n' r Hn' Hr. cbn [safe]. split; [destruct r; cbn; auto|]. apply IHk; auto; try lia.
      + apply Hpk. intros ->. now apply (Hr KeyError).
      + intros x Hx. apply HG. eapply sets_after; eauto.
      + intros x Hx. apply HA. eapply sets_after; eauto.
      + intros n'' r' Hn'' Hr'. apply Hf; [lia|auto]. }
    apply set_safe; auto.
    + intros x ->. apply HG. constructor.
    + intros x ->. apply HA. constructor.
    + intros n' old i Hn' Hold Hi. destruct old as [j|]; [|discriminate]. destruct Hold as [Hj Haj].
      apply IHb; auto; try lia.
      * intros x Hx. apply HG. eapply sets_body; eauto.
      * intros x Hx. apply HA. eapply sets_body; eauto.
      * intros n'' r Hn'' Hr. unfold exit_act. cbn [safe]. split; [lia|]. split; [auto|]. apply KS; [lia|exact Hr].
    + intros n' b' e Hn' Hb' He. rewrite (Hb' eq_refl). apply KS; [lia|]. intros e' E. injection E as <-.
      destruct He as [->| ->]; [discriminate|]. intro; subst. now apply Hs.
Qed.
Lemma gets_safe : forall p n b fin, only_gets p -> n0 <= n -> (forall j, G (fresh w j)) ->
  (forall n' b' r, safe n' b' (fin r)) -> safe n b (thread p fin).
Proof.
  induction p as [|e|nm c m k IH|s k IH|d m k IH|f wr t k IH|s body IHb k IHk]; intros n b fin Hp Hn HG Hf; cbn [thread only_gets] in *; try contradiction.
  - apply Hf.
  - apply Hf.
  - destruct Hp as [Hm Hp]. apply get_safe; [exact Hn|auto|]. intros n' b' r Hn' Hb' Hr. cbn [safe]. split; [exact Hr|].
    apply IH; auto. lia.
Qed.
End safe.
