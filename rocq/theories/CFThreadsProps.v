(** C73: the current CF specifications shared by threads. *)
From Verif Require Export CFThreadsProofs.
From Coq Require Import Lia.
Open Scope nat_scope.

(** A program that no other thread interrupts does what it does in a session of its own (C31) *)
Theorem C73_uninterrupted : forall w S_ t p, nth_error (threads S_) t = Some (thread p AStop) ->
  exists n, let S' := exec w S_ (repeat t n) in
    threads S' = upd (threads S_) t (AStop (snd (run w p (shared S_)))) /\ shared S' = fst (run w p (shared S_)).
Proof.
  intros w S_ t p Hn. destruct (exec_steps w t _ _ _ _ (thread_solo w p AStop (shared S_)) S_ Hn eq_refl) as (n & sd & E).
  exists n. cbv zeta. rewrite E. auto.
Qed.
Lemma exec_app w S_ l1 l2 : exec w S_ (l1 ++ l2) = exec w (exec w S_ l1) l2.
Proof. unfold exec. apply fold_left_app. Qed.
(** No thread blocks *)
Theorem C73_ends : forall w S_ schedule, exists more, finished (exec w S_ (schedule ++ more)).
Proof.
  intros w S_ schedule. setoid_rewrite exec_app. generalize (exec w S_ schedule) as S1. clear S_ schedule. intro S1.
  assert (H : forall n, n <= List.length (threads S1) -> exists more,
    List.length (threads (exec w S1 more)) = List.length (threads S1) /\
    forall t a, t < n -> nth_error (threads (exec w S1 more)) t = Some a -> exists r, a = AStop r).
  { induction n as [|n IH]; intro Hn; [exists []; split; [reflexivity|]; intros; lia|].
    destruct IH as (more & L & H); [lia|].
    destruct (nth_error (threads (exec w S1 more)) n) as [a|] eqn:E; [|apply nth_error_None in E; lia].
    destruct (act_ends w a (shared (exec w S1 more))) as (r & st' & Hs).
    destruct (exec_steps w n _ _ _ _ Hs _ E eq_refl) as (m & sd & Em).
    exists (more ++ repeat n m)%list. rewrite exec_app, Em. cbn [threads]. split; [rewrite upd_len; exact L|].
    intros t b Ht Hb. destruct (Nat.eq_dec t n) as [->|N].
    - rewrite nth_error_upd_eq in Hb by lia. injection Hb as <-. eauto.
    - rewrite nth_error_upd_neq in Hb by auto. apply (H t b); [lia|exact Hb]. }
  destruct (H _ (le_n _)) as (more & L & F). exists more. apply Forall_forall. intros a Ha.
  apply In_nth_error in Ha. destruct Ha as [t Ht]. apply (F t a); [|exact Ht]. rewrite <- L. apply nth_error_Some. congruence.
Qed.

Lemma answers_in w name cat m i c : m <> CInvalid -> answers w name cat m i c (answer_in i c name cat).
Proof.
  intros Hm st Hc Ho. unfold get_cf_specs. assert (E : ensure w m st = match m with CClean => set_file st None | _ => st end) by (eapply ensure_some; eauto).
  unfold content_of in Ho. assert (N : nth i (objs st) (mkcontent [] []) = c) by (apply nth_error_nth; exact Ho).
  destruct m; try congruence; rewrite E; cbn [cur set_file snd objs]; rewrite Hc; cbn [snd]; rewrite N; reflexivity.
Qed.
Definition A_of (ps : list prog) (st : state) (i : nat) : Prop :=
  List.length (objs st) <= i \/ cur st = Some i \/ exists p, In p ps /\ sets p (SObj i).
Definition G_of (ps : list prog) (c : content) : Prop := exists p, In p ps /\ sets p (SDict c).
Lemma start_state st (A : nat -> Prop) (G : content -> Prop) (E0 : nat * pickled -> Prop) : valid st -> (forall i, cur st = Some i -> A i) ->
  (forall x, file st = Some x -> E0 x) -> state_ok (objs st) A G E0 st.
Proof.
  intros V HA HE. split; [apply le_n|]. split; [intros i c H; left; exact H|]. split; [intros i Hi; auto|]. intros t p Hp. left. auto.
Qed.
Lemma has_known ps st i c : A_of ps st i -> has (objs st) (G_of ps) i c -> known ps st i c.
Proof.
  intros HA [H|[Hn HG]].
  - left. split; [exact H|]. destruct HA as [L|HA]; [|exact HA].
    assert (i < List.length (objs st)) by (apply nth_error_Some; congruence). lia.
  - right. split; [|exact HG]. apply nth_error_None. exact Hn.
Qed.
(** When there are current specifications before the threads start, any number of threads may get and set
    specifications, in contexts or not, and clean or use the cache file: whatever the interleaving no call raises
    KeyError, get_cf_specs answers as in a single thread whose current object is one of those that were set, and there
    are current specifications, set by someone, at any time *)
Theorem C73_set_first : forall w st ps schedule, reachable w st -> cur st <> None -> Forall tame ps ->
  let S_ := exec w (start ps st) schedule in
  (forall t e, In (t, e) (said S_) -> match e with
     | EGet n cat m (Ok a) => exists i c, known ps st i c /\ answers w n cat m i c a
     | EGet n cat m (Raise e) => e = AssertionError /\ m = CInvalid
     | ESet (Raise e) | EWith (Raise e) => e <> KeyError
     | _ => True
     end) /\
  (forall t r, nth_error (threads S_) t = Some (AStop r) -> r <> Raise KeyError) /\
  exists i c, cur (shared S_) = Some i /\ content_of (shared S_) i = Some c /\ known ps st i c.
Proof.
  intros w st ps schedule Hr Hc Hp S_. assert (V := reachable_valid w st Hr).
  set (A := A_of ps st). set (G := G_of ps).
  assert (HN : forall i, n0 (objs st) <= i -> A i) by (intros i Hi; left; exact Hi).
  assert (H0 : good w (objs st) A G True (fun _ => True) (start ps st)).
  { split; [apply start_state; auto; intros i Hi; right; left; exact Hi|]. split; [|constructor].
    unfold start. cbn [threads shared]. apply Forall_forall. intros a Ha. apply in_map_iff in Ha. destruct Ha as (p & <- & Hi).
    exists true. split; [|auto]. rewrite Forall_forall in Hp. apply tame_safe; auto.
    - intros c Hs. exists p. auto.
    - intros i Hs. right. right. exists p. auto.
    - intros n' r _ Hr'. cbn [safe]. destruct r; auto. }
  destruct (exec_good w (objs st) A G True (fun _ => True) schedule _ H0) as ((H1 & H2 & H3) & H4). fold S_ in H1, H2, H3, H4.
  split; [|split].
  - intros t e Hi. rewrite Forall_forall in H3. specialize (H3 _ Hi). cbn [snd] in H3.
    destruct e as [n cat m [a|e]|[u|e]|[u|e]]; cbn [event_ok] in H3; try exact Logic.I; try exact H3; try exact (proj2 H3).
    destruct H3 as (Hm & i & c & HA & HH & ->). exists i, c. split; [now apply has_known|now apply answers_in].
  - intros t r Ht ->. rewrite Forall_forall in H2. destruct (H2 (AStop (Raise KeyError))) as (b & Hs & _); [eapply nth_error_In; eauto|].
    cbn [safe] in Hs. now apply Hs.
  - specialize (H4 Hc). destruct (cur (shared S_)) as [i|] eqn:E; [|congruence].
    destruct H1 as (_ & S2 & S3 & _). destruct (S3 i E) as [HA Hi].
    destruct (nth_error (objs (shared S_)) i) as [c|] eqn:Eo; [|apply nth_error_None in Eo; lia].
    exists i, c. split; [reflexivity|]. split; [exact Eo|]. apply has_known; auto.
Qed.
(** First use: any number of threads that get the specifications, without reading the cache file, get those of the
    configuration files: as in a single thread, but for the identity of the object; and the cache file is missing, or
    what it was, or holds the specifications of the configuration files *)
Theorem C73_first_use : forall w st ps schedule, reachable w st -> cur st = None -> Forall only_gets ps ->
  let S_ := exec w (start ps st) schedule in
  (forall t e, In (t, e) (said S_) -> match e with
     | EGet n cat m (Ok a) => exists i j, content_of st i = None /\ answers w n cat m i (fresh w j) a
     | EGet n cat m (Raise e) => e = AssertionError /\ m = CInvalid
     | _ => False
     end) /\
  (file (shared S_) = None \/ file (shared S_) = file st \/ exists time j, file (shared S_) = Some (time, PSpecs (fresh w j))).
Proof.
  intros w st ps schedule Hr Hc Hp S_. assert (V := reachable_valid w st Hr).
  set (A := fun i => List.length (objs st) <= i). set (G := fun c => exists j, c = fresh w j).
  assert (H0 : good w (objs st) A G False (fun x => file st = Some x) (start ps st)).
  { split; [apply (start_state st A G (fun x => file st = Some x) V); [intros i Hx; congruence|auto]|]. split; [|constructor].
    unfold start. cbn [threads shared]. apply Forall_forall. intros a Ha. apply in_map_iff in Ha. destruct Ha as (p & <- & Hip).
    exists false. split; [|discriminate]. rewrite Forall_forall in Hp. apply gets_safe; auto.
    - intros j. exists j. reflexivity.
    - intros n' b' r. cbn [safe]. destruct r; auto. }
  destruct (exec_good w (objs st) A G False (fun x => file st = Some x) schedule _ H0) as ((H1 & H2 & H3) & H4). fold S_ in H1, H3.
  split.
  2: { destruct H1 as (_ & _ & _ & HF). destruct (file (shared S_)) as [[time p]|] eqn:Ef; [|auto]. right.
    destruct (HF time p eq_refl) as [H|(i & c & -> & HA & HH)]; [left; auto|]. right.
    destruct HH as [HH|[_ [j ->]]]; [|eauto]. exfalso. apply nth_error_None in HA. congruence. }
  intros t e Hi. rewrite Forall_forall in H3. specialize (H3 _ Hi). cbn [snd] in H3.
  destruct e as [n cat m [a|e]|r|r]; cbn [event_ok] in H3.
  - destruct H3 as (Hm & i & c & HA & HH & ->). assert (N : content_of st i = None) by (apply nth_error_None; exact HA).
    destruct HH as [HH|[_ [j ->]]]; [unfold content_of in N; congruence|]. exists i, j. split; [exact N|now apply answers_in].
  - exact H3.
  - destruct r; cbn in H3; [exact H3|now destruct H3].
  - destruct r; cbn in H3; [exact H3|now destruct H3].
Qed.

(** *** What does not hold, with explicit schedules *)
Definition get1 := Get (Some "temp"%string) None CIgnore (fun _ => Stop).
Definition context (c : content) := With (SDict c) (fun _ => Get (Some "temp"%string) None CIgnore (fun _ => Stop)) (fun r => match r with Ok _ => Stop | Raise e => Throw e end).
Definition ca := mkcontent [("temp", 10)]%string [].
Definition cb := mkcontent [("temp", 20)]%string [].
(** A session in which the specifications of the configuration files are in use *)
Definition used : state := fst (run w0 (Get None None CIgnore (fun _ => Stop)) (session None true 8)).
Lemma used_ok : reachable w0 used /\ cur used = Some 0 /\ content_of used 0 = Some c1.
Proof. split; [exists (Get None None CIgnore (fun _ => Stop)), None, true, 8; reflexivity|split; reflexivity]. Qed.
(** Contexts of two threads that overlap: both end normally, and the specifications of the session are not restored *)
Theorem C73_refuted_contexts : exists schedule, let S_ := exec w0 (start [context ca; context cb] used) schedule in
  threads S_ = [AStop (Ok tt); AStop (Ok tt)] /\
  cur (shared S_) = Some 1 /\ content_of (shared S_) 1 = Some ca.
Proof. exists (repeat 0 3 ++ repeat 1 3 ++ repeat 0 20 ++ repeat 1 20). vm_compute. auto. Qed.
(** In its context, a thread gets the specifications of another thread *)
Theorem C73_refuted_inside : exists schedule,
  In (0, EGet (Some "temp"%string) None CIgnore (Ok (AEntry 20))) (said (exec w0 (start [context ca; context cb] used) schedule)).
Proof. exists (repeat 0 3 ++ repeat 1 3 ++ repeat 0 4). vm_compute. auto. Qed.
(** At the first use of a session, get_cf_specs fails when the context of another thread ends *)
Theorem C73_refuted_get : exists schedule,
  In (1, EGet (Some "temp"%string) None CIgnore (Raise KeyError)) (said (exec w0 (start [context ca; get1] (session None true 8)) schedule)).
Proof. exists (repeat 0 3 ++ [1] ++ repeat 0 20 ++ repeat 1 20). vm_compute. auto. Qed.
(** At the first use of a session, one of two contexts fails at its end *)
Theorem C73_refuted_exit : exists schedule, let S_ := exec w0 (start [context ca; context cb] (session None true 8)) schedule in
  threads S_ = [AStop (Ok tt); AStop (Raise KeyError)].
Proof. exists (repeat 0 2 ++ repeat 1 7 ++ repeat 0 20 ++ repeat 1 20). vm_compute. auto. Qed.
(** At the first use of a session, two threads may get different objects *)
Theorem C73_refuted_same : exists schedule, let p := Get None None CIgnore (fun _ => Stop) in
  said (exec w0 (start [p; p] (session None true 8)) schedule) =
    [(0, EGet None None CIgnore (Ok (ASpecs 0))); (1, EGet None None CIgnore (Ok (ASpecs 1)))].
Proof. exists (repeat 1 2 ++ repeat 0 20 ++ repeat 1 20). vm_compute. auto. Qed.
(** The specifications of a context of a thread end in the cache file, for the sessions to come, though no thread asks to
    save them *)
Theorem C73_refuted_file : exists schedule,
  let S_ := exec w0 (start [Get None None CRw (fun _ => Stop); context ca] (session None true 8)) schedule in
  threads S_ = [AStop (Ok tt); AStop (Ok tt)] /\ file (shared S_) = Some (8, PSpecs ca) /\
  snd (get_cf_specs w0 (Some "temp"%string) None CRead (session (file (shared S_)) true 9)) = Ok (AEntry 10) /\
  (forall m, m <> CInvalid -> snd (get_cf_specs w0 (Some "temp"%string) None m (session None true 9)) = Ok (AEntry 1)).
Proof.
  exists (repeat 0 5 ++ repeat 1 3 ++ repeat 0 20 ++ repeat 1 20). cbv zeta. split; [vm_compute; reflexivity|]. split; [vm_compute; reflexivity|].
  split; [vm_compute; reflexivity|]. intros []; vm_compute; auto. intro H. now destruct H.
Qed.

(** The hypotheses of C73_set_first and of C73_first_use are met *)
Example C73_set_first_example : let ps := [context ca; SetSpecs (SObj 0) (fun _ => get1); Reset true false (context cb)] in
  let S_ := exec w0 (start ps used) (repeat 0 3 ++ repeat 1 5 ++ repeat 2 4 ++ repeat 0 20 ++ repeat 1 20 ++ repeat 2 20) in
  reachable w0 used /\ cur used <> None /\ Forall tame ps /\ finished S_ /\
  said S_ = [(1, ESet (Ok tt)); (0, EGet (Some "temp"%string) None CIgnore (Ok (AEntry 20))); (0, EWith (Ok tt));
             (1, EGet (Some "temp"%string) None CIgnore (Ok (AEntry 1))); (2, EGet (Some "temp"%string) None CIgnore (Ok (AEntry 1))); (2, EWith (Ok tt))].
Proof.
  cbv zeta. split; [apply used_ok|]. split; [discriminate|]. split.
  - assert (T : forall c, tame (context c)).
    { intro c. split; [discriminate|]. split; [intros i r _; exact Logic.I|]. intros [u|e] He; cbn; [exact Logic.I|congruence]. }
    constructor; [apply T|]. constructor; [split; [discriminate|]; intros r _ r' _; exact Logic.I|]. constructor; [split; [reflexivity|apply T]|constructor].
  - split; [|vm_compute; reflexivity].
    match goal with |- finished ?S_ => assert (E : threads S_ = [AStop (Ok tt); AStop (Ok tt); AStop (Ok tt)]) by (vm_compute; reflexivity) end.
    unfold finished. rewrite E. repeat (constructor; [eexists; reflexivity|]). constructor.
Qed.
Example C73_first_use_example : let ps := [Get None None CRw (fun _ => get1); get1; Get None (Some Coords) CClean (fun _ => Throw ValueError)] in
  let S_ := exec w0 (start ps (session None true 8)) (repeat 0 4 ++ repeat 1 6 ++ repeat 2 2 ++ repeat 0 20 ++ repeat 1 20 ++ repeat 2 1) in
  reachable w0 (session None true 8) /\ Forall only_gets ps /\ file (shared S_) = Some (8, PSpecs c1) /\
  said S_ = [(0, EGet None None CRw (Ok (ASpecs 0))); (0, EGet (Some "temp"%string) None CIgnore (Ok (AEntry 1)));
             (1, EGet (Some "temp"%string) None CIgnore (Ok (AEntry 1)))].
Proof.
  cbv zeta. split; [exists Stop, None, true, 8; reflexivity|]. split; [|split; vm_compute; reflexivity].
  constructor; [split; [discriminate|]; intro r; split; [discriminate|]; intro r'; exact Logic.I|].
  constructor; [split; [discriminate|]; intro r; exact Logic.I|].
  constructor; [split; [discriminate|]; intro r; exact Logic.I|constructor].
Qed.
