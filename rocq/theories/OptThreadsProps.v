(** C72: options shared by threads. *)
From Verif Require Export OptThreadsSafe OptionsProps.
Open Scope nat_scope.

(** A program that no other thread interrupts does what it does in a session of its own (C25): same result, and same
    options.  [t] is any thread of any system, between calls of which the session is [stA] *)
Theorem C72_uninterrupted : forall user S_ t p stA,
  proper p -> reachable user stA -> same_session (shared S_) stA -> nth_error (threads S_) t = Some (thread p AStop) ->
  exists n, let S' := exec user S_ (repeat t n) in
    threads S' = upd (threads S_) t (AStop (snd (run user p stA))) /\ same_session (shared S') (fst (run user p stA)).
Proof.
  intros user S_ t p stA Hp Hr Hs Hn.
  destruct (thread_solo user p AStop (shared S_) stA Hp (reachable_Inv user stA Hr) Hs) as (st' & F1 & F2).
  destruct (exec_steps user t _ _ _ _ F1 S_ Hn eq_refl) as (n & sd & E). exists n. cbv zeta. rewrite E. cbn [threads shared]. auto.
Qed.

(** No thread blocks: from any point of any execution all threads can end *)
Lemma act_ends user : forall a st, exists r st', steps user a st (AStop r) st'.
Proof.
  induction a as [r|k IH|k IH|j k IH|k IH|k IH|j k IH|j s o k IH|j s o v k IH|e k IH]; intro st.
  - exists r, st. constructor.
  - destruct (IH (match cache st with Some _ => true | None => false end) st) as (r & st' & H). exists r, st'. eapply steps_step; [reflexivity|exact H].
  - destruct (IH (List.length (objs st)) (mkst (objs st ++ [user]) (cache st))) as (r & st' & H). exists r, st'. eapply steps_step; [reflexivity|exact H].
  - destruct (IH (mkst (objs st) (Some j))) as (r & st' & H). exists r, st'. eapply steps_step; [reflexivity|exact H].
  - destruct (IH (cache st) st) as (r & st' & H). exists r, st'. eapply steps_step; [reflexivity|exact H].
  - destruct (cache st) as [c|] eqn:E.
    + destruct (IH true (mkst (objs st) None)) as (r & st' & H). exists r, st'. eapply steps_step; [cbn [step]; rewrite E; reflexivity|exact H].
    + destruct (IH false st) as (r & st' & H). exists r, st'. eapply steps_step; [cbn [step]; rewrite E; reflexivity|exact H].
  - destruct (IH (match content st j with [] => false | _ => true end) st) as (r & st' & H). exists r, st'. eapply steps_step; [reflexivity|exact H].
  - destruct (IH (dget (section_of (content st j) s) o) st) as (r & st' & H). exists r, st'. eapply steps_step; [reflexivity|exact H].
  - destruct (IH (mkst (upd (objs st) j (write_opt (content st j) s o v)) (cache st))) as (r & st' & H). exists r, st'. eapply steps_step; [reflexivity|exact H].
  - destruct (IH st) as (r & st' & H). exists r, st'. eapply steps_step; [reflexivity|exact H].
Qed.
Lemma exec_app user S_ l1 l2 : exec user S_ (l1 ++ l2) = exec user (exec user S_ l1) l2.
Proof. unfold exec. apply fold_left_app. Qed.
Theorem C72_ends : forall user S_ schedule, exists more, finished (exec user S_ (schedule ++ more)).
Proof.
  intros user S_ schedule. setoid_rewrite exec_app. generalize (exec user S_ schedule) as S1. clear S_ schedule. intro S1.
  assert (H : forall n, n <= List.length (threads S1) -> exists more,
    List.length (threads (exec user S1 more)) = List.length (threads S1) /\
    forall t a, t < n -> nth_error (threads (exec user S1 more)) t = Some a -> exists r, a = AStop r).
  { induction n as [|n IH]; intro Hn; [exists []; split; [reflexivity|]; intros; lia|].
    destruct IH as (more & L & H); [lia|].
    destruct (nth_error (threads (exec user S1 more)) n) as [a|] eqn:E; [|apply nth_error_None in E; lia].
    destruct (act_ends user a (shared (exec user S1 more))) as (r & st' & Hs).
    destruct (exec_steps user n _ _ _ _ Hs _ E eq_refl) as (m & sd & Em).
    exists (more ++ repeat n m). rewrite exec_app, Em. cbn [threads]. split; [rewrite upd_len; exact L|].
    intros t b Ht Hb. destruct (Nat.eq_dec t n) as [->|N].
    - rewrite nth_error_upd_eq in Hb by lia. injection Hb as <-. eauto.
    - rewrite nth_error_upd_neq in Hb by auto. apply (H t b); [lia|exact Hb]. }
  destruct (H _ (le_n _)) as (more & L & F). exists more. apply Forall_forall. intros a Ha.
  apply In_nth_error in Ha. destruct Ha as [t Ht]. apply (F t a); [|exact Ht]. rewrite <- L. apply nth_error_Some. congruence.
Qed.

(** *** Threads that read *)
Lemma look_init st i : Inv st -> cache st = Some i -> forall s o c, documented s o = Some c ->
  exists v, look (content st i) s o = Some v /\ converts c v = false.
Proof.
  intros HI Hc s o c Hd. destruct (proj2 HI i (proj1 HI i Hc)) as [x E]. rewrite E, validate_look, Hd.
  eexists. split; [reflexivity|]. destruct (look x s o); [apply converts_check|]. destruct c; reflexivity.
Qed.
Lemma start_good st ps i (G : string -> string -> oval -> Prop) (L : Prop) : Forall only_gets ps \/ L -> Inv st -> cache st = Some i -> Forall gets_loads ps ->
  (forall p s o v, In p ps -> gives p s o v -> G s o v) ->
  good i (look (content st i)) G L (start ps st).
Proof.
  intros HL HI Hc Hp Hg. unfold start. split; [|split; [|split; [|split]]]; cbn [threads shared said].
  - apply Forall_forall. intros a Ha. apply in_map_iff in Ha. destruct Ha as (p & <- & Hi).
    rewrite Forall_forall in Hp. apply thread_safe; auto.
    + intros s o c. now apply look_init.
    + destruct HL as [HL|HL]; [left; rewrite Forall_forall in HL; auto|right; exact HL].
    + intros s o v. apply Hg. exact Hi.
    + intro r. exact Logic.I.
  - exact Hc.
  - apply (proj1 HI). exact Hc.
  - intros s o. left. reflexivity.
  - constructor.
Qed.
Lemma only_gets_loads p : only_gets p -> gets_loads p.
Proof. induction p; cbn; auto; contradiction. Qed.
Lemma only_gets_gives p s o v : only_gets p -> ~ gives p s o v.
Proof.
  intros Hp Hg. induction Hg as [cfg k s o v H|cfg k s o v H IH|s' o' k r s o v H IH]; cbn in Hp; auto.
Qed.

(** Any number of threads that read options do not change them, and every answer is the one of a single thread *)
Theorem C72_readers : forall user st ps schedule, reachable user st -> loaded st -> Forall only_gets ps ->
  let S_ := exec user (start ps st) schedule in
  cache (shared S_) = cache st /\ (forall s o, value_in (shared S_) s o = value_in st s o) /\
  forall t e, In (t, e) (said S_) -> exists s o, e = EGet s o (snd (get_option user s o st)).
Proof.
  intros user st ps schedule Hr Hl Hp S_. assert (HI := reachable_Inv user st Hr).
  destruct (cache st) as [i|] eqn:Hc; [|congruence].
  set (G := fun (s o : string) (v : oval) => False).
  assert (H0 : good i (look (content st i)) G False (start ps st)).
  { apply start_good; auto.
    - eapply Forall_impl; [|exact Hp]. apply only_gets_loads.
    - intros p s o v Hi Hg. rewrite Forall_forall in Hp. now apply (only_gets_gives p s o v (Hp p Hi)). }
  destruct (exec_good user i (look (content st i)) G False schedule _ H0) as ((_ & H2 & _ & H4 & H5) & _ & _).
  fold S_ in H2, H4, H5.
  assert (HA : forall s o x, allowed (look (content st i)) G s o x -> x = look (content st i) s o).
  { intros s o x [H|(v & _ & (w & [] & _))]. exact H. }
  split; [exact H2|]. split.
  - intros s o. unfold value_in, current. rewrite H2, Hc, <- !look_opt_of. apply HA. apply H4.
  - intros t e Hi. rewrite Forall_forall in H5. specialize (H5 _ Hi). cbn [snd] in H5.
    destruct e as [s o r|r|r|r|r]; cbn [event_ok] in H5; try contradiction.
    + exists s, o. f_equal. unfold get_option, get_options. rewrite Hc. cbn [snd]. unfold current. rewrite Hc.
      unfold asked in H5. destruct r as [a|e].
      * destruct H5 as (s' & o' & x & E & Hx & ->). apply HA in Hx. rewrite Hx.
        destruct o as [o|]; [injection E as -> ->; reflexivity|]. rewrite E. reflexivity.
      * destruct H5 as [-> E]. destruct o as [o|]; [discriminate|]. rewrite E. reflexivity.
    + destruct H5 as [_ []].
Qed.

Example C72_readers_example : let S_ := exec [] (start [Get "plot.cmapdiv" None (fun _ => Get "cf" (Some "nope"%string) (fun _ => Stop)); Get "plot.cmapdiv" None (fun _ => Stop)]
    (load_options [] [] init)) [0; 1; 0; 1; 1; 0; 1; 0; 0; 0; 0; 0; 1] in
  reachable [] (load_options [] [] init) /\ loaded (load_options [] [] init) /\ finished S_ /\
  said S_ = [(1, EGet "plot.cmapdiv" None (Ok (Value (OStr "cmo.balance")))); (0, EGet "plot.cmapdiv" None (Ok (Value (OStr "cmo.balance"))));
             (0, EGet "cf" (Some "nope"%string) (Ok ErrorObject))]%string.
Proof.
  split; [exists (Load [] Stop); reflexivity|]. split; [discriminate|]. split; [|vm_compute; reflexivity].
  repeat (constructor; [eexists; vm_compute; reflexivity|]). constructor.
Qed.

(** *** Threads that read and load *)
Definition from_load (ps : list prog) (s o : string) (v : oval) : Prop := exists p, In p ps /\ gives p s o v.
(** Any number of threads that read and load options once these are loaded: no call fails (but the reads of a name that is
    not "section.option"); every value read is the one at the start, or one that some thread loads, as given or
    converted; the objects kept by contexts do not change; when all threads have ended, every option has its value at
    the start, or one that some thread loaded, converted *)
Theorem C72_reads_and_loads : forall user st ps schedule, reachable user st -> loaded st -> Forall gets_loads ps ->
  let S_ := exec user (start ps st) schedule in
  (forall t e, In (t, e) (said S_) -> match e with
     | EGet s o (Ok a) => exists s' o' x, asked s o = Some (s', o') /\ a = answer_of x /\
         (x = value_in st s' o' \/ exists v, from_load ps s' o' v /\ (x = Some v \/ x = Some (converted s' o' v)))
     | EGet s o (Raise e) => e = XoaConfigError /\ asked s o = None
     | ELoad r => r = Ok tt
     | _ => False
     end) /\
  cache (shared S_) = cache st /\
  (forall j, cache st <> Some j -> content (shared S_) j = content st j) /\
  (finished S_ -> forall s o, value_in (shared S_) s o = value_in st s o \/
     exists v, from_load ps s o v /\ value_in (shared S_) s o = Some (converted s o v)).
Proof.
  intros user st ps schedule Hr Hl Hp S_. assert (HI := reachable_Inv user st Hr).
  destruct (cache st) as [i|] eqn:Hc; [|congruence].
  assert (H0 : good i (look (content st i)) (from_load ps) True (start ps st)).
  { apply start_good; auto. intros p s o v Hi Hg. exists p. auto. }
  destruct (exec_good user i (look (content st i)) (from_load ps) True schedule _ H0) as ((H1 & H2 & H3 & H4 & H5) & HJ & _).
  fold S_ in H1, H2, H3, H4, H5, HJ.
  assert (Hv0 : forall s o, value_in st s o = look (content st i) s o).
  { intros s o. unfold value_in, current. rewrite Hc. now rewrite look_opt_of. }
  assert (Hv1 : forall s o, value_in (shared S_) s o = look (content (shared S_) i) s o).
  { intros s o. unfold value_in, current. rewrite H2. now rewrite look_opt_of. }
  split; [|split; [|split]].
  - intros t e Hi. rewrite Forall_forall in H5. specialize (H5 _ Hi). cbn [snd] in H5.
    destruct e as [s o [a|e]|r|r|r|r]; cbn [event_ok] in H5; try contradiction.
    + destruct H5 as (s' & o' & x & E & Hx & ->). exists s', o', x. split; [exact E|]. split; [reflexivity|].
      rewrite Hv0. destruct Hx as [Hx|(v & -> & (w & Hw & [->| ->]))]; [left; exact Hx| |]; right; exists w; auto.
    + exact H5.
    + apply H5.
  - exact H2.
  - intros j Hj. apply HJ. congruence.
  - intros Hf s o. rewrite Hv0, Hv1. destruct (H4 s o) as [E|(v & E & (w & Hw & Hvw))]; [left; exact E|].
    destruct (documented s o) as [c|] eqn:Hd.
    + assert (K : kept i (look (content st i)) (from_load ps) s o c (start ps st)).
      { split.
        - unfold start. cbn [threads]. apply Forall_forall. intros a Ha. apply in_map_iff in Ha. destruct Ha as (p & <- & Hi).
          rewrite Forall_forall in Hp. apply thread_responsible; auto; [intros s' o' c'; now apply look_init|]. intro r. exact Logic.I.
        - left. destruct (look_init st i HI Hc s o c Hd) as (x & Ex & Cx). exists x. auto. }
      destruct (exec_kept user i (look (content st i)) (from_load ps) True (look_init st i HI Hc) s o c Hd schedule _ H0 K) as [_ [(x & Ex & Cx)|(t & a & Ht & Ha)]].
      * fold S_ in Ex. rewrite E in Ex. injection Ex as <-. right. exists w. split; [exact Hw|]. rewrite E. f_equal.
        destruct Hvw as [->| ->]; [|reflexivity]. unfold converted. rewrite Hd. symmetry. now apply check_id.
      * exfalso. unfold finished in Hf. rewrite Forall_forall in Hf. destruct (Hf a) as [r ->]; [eapply nth_error_In; exact Ht|]. exact Ha.
    + right. exists w. split; [exact Hw|]. rewrite E. unfold converted in *. rewrite Hd in *. destruct Hvw as [->| ->]; reflexivity.
Qed.
(** An option that a load gives, and to which every load gives the same value, has this value, converted, when all threads
    have ended; an option that no load gives keeps its value *)
Theorem C72_loads_agree : forall user st ps schedule s o v, reachable user st -> loaded st -> Forall gets_loads ps ->
  let S_ := exec user (start ps st) schedule in
  finished S_ ->
  (forall w, from_load ps s o w -> w = v) ->
  ((exists p, In p ps /\ must_give s o p) -> value_in (shared S_) s o = Some (converted s o v)) /\
  ((forall w, ~ from_load ps s o w) -> value_in (shared S_) s o = value_in st s o).
Proof.
  intros user st ps schedule s o v Hr Hl Hp S_ Hf Hv. assert (HI := reachable_Inv user st Hr).
  destruct (C72_reads_and_loads user st ps schedule Hr Hl Hp) as (_ & H2 & _ & HF). fold S_ in H2, HF. specialize (HF Hf s o).
  split.
  - intros (p & Hi & Hm). destruct HF as [HF|(w & Hw & ->)]; [|now rewrite (Hv w Hw)].
    destruct (cache st) as [i|] eqn:Hc; [|congruence].
    assert (H0 : good i (look (content st i)) (from_load ps) True (start ps st)).
    { apply start_good; auto. intros q s' o' w Hi' Hg. exists q. auto. }
    assert (D : due i (look (content st i)) (from_load ps) s o (start ps st)).
    { right. destruct (In_nth_error _ _ Hi) as [t Ht]. exists t, (thread p AStop). split.
      - unfold start. cbn [threads]. rewrite nth_error_map, Ht. reflexivity.
      - rewrite Forall_forall in Hp. apply thread_will; auto. intros s' o' c'. now apply look_init. }
    destruct (exec_due user i (look (content st i)) (from_load ps) True s o schedule _ H0 D) as [(x & Ex & (w & Hw & Hx))|(t & a & Ht & Ha)].
    + fold S_ in Ex. assert (Hw' := Hv w Hw). subst w.
      assert (V1 : value_in (shared S_) s o = Some x). { unfold value_in, current. rewrite H2, <- look_opt_of. exact Ex. }
      destruct Hx as [->| ->]; [|exact V1].
      (* the value at the start is converted *)
      assert (V0 : look (content st i) s o = Some v).
      { rewrite V1 in HF. unfold value_in, current in HF. rewrite Hc, <- look_opt_of in HF. congruence. }
      rewrite V1. f_equal. unfold converted. destruct (documented s o) as [c|] eqn:Hd; [|reflexivity].
      destruct (look_init st i HI Hc s o c Hd) as (y & Ey & Cy). assert (y = v) by congruence. subst y. symmetry. now apply check_id.
    + exfalso. unfold finished in Hf. rewrite Forall_forall in Hf. destruct (Hf a) as [r ->]; [eapply nth_error_In; exact Ht|]. exact Ha.
  - intros Hn. destruct HF as [HF|(w & Hw & _)]; [exact HF|]. destruct (Hn w Hw).
Qed.

(** *** What does not hold *)
Definition session1 : state := load_options [] [] init.
Lemma session1_reachable : reachable [] session1 /\ loaded session1.
Proof. split; [exists (Load [] Stop); reflexivity|discriminate]. Qed.
Definition finishedb (S_ : system) : bool := forallb (fun a => match a with AStop (Ok _) => true | _ => false end) (threads S_).
Lemma finishedb_ok S_ : finishedb S_ = true -> Forall (fun a => a = AStop (Ok tt)) (threads S_).
Proof.
  unfold finishedb. rewrite forallb_forall, Forall_forall. intros H a Ha. specialize (H a Ha).
  destruct a as [[[]|]| | | | | | | | | ]; try discriminate. reflexivity.
Qed.
Definition context (v : string) : prog :=
  With (Some "plot"%string) [("cmapdiv"%string, OStr v)] Stop (fun r => match r with Ok _ => Stop | Raise e => Throw e end).

(** Loads of two threads are not atomic: the final options can be those of neither order *)
Theorem C72_refuted_atomic : exists schedule,
  let cfg1 := [("cf", [("cache", OStr "no")]); ("plot", [("cmapdiv", OStr "a")])]%string in
  let cfg2 := [("cf", [("cache", OStr "yes")]); ("plot", [("cmapdiv", OStr "b")])]%string in
  let S_ := exec [] (start [Load cfg1 Stop; Load cfg2 Stop] session1) schedule in
  Forall (fun a => a = AStop (Ok tt)) (threads S_) /\
  value_in (shared S_) "cf" "cache" = Some (OBool false) /\ value_in (shared S_) "plot" "cmapdiv" = Some (OStr "b") /\
  (let st := load_options [] cfg2 (load_options [] cfg1 session1) in value_in st "cf" "cache" = Some (OBool true)) /\
  (let st := load_options [] cfg1 (load_options [] cfg2 session1) in value_in st "plot" "cmapdiv" = Some (OStr "a")).
Proof.
  exists (repeat 0 7 ++ repeat 1 40 ++ repeat 0 40). cbv zeta. split; [apply finishedb_ok; vm_compute; reflexivity|].
  repeat (split; [vm_compute; reflexivity|]). vm_compute; reflexivity.
Qed.
(** The contexts of two threads that overlap: both end normally, and the options of the session are not restored *)
Theorem C72_refuted_contexts : exists schedule,
  let S_ := exec [] (start [context "a"; context "b"] session1) schedule in
  Forall (fun a => a = AStop (Ok tt)) (threads S_) /\
  value_in session1 "plot" "cmapdiv" = Some (OStr "cmo.balance") /\
  value_in (shared S_) "plot" "cmapdiv" = Some (OStr "a").
Proof.
  exists (repeat 0 20 ++ repeat 1 20 ++ repeat 0 9 ++ repeat 1 9). cbv zeta. split; [apply finishedb_ok; vm_compute; reflexivity|].
  split; vm_compute; reflexivity.
Qed.
(** A context can even change the options of the session itself: those of the object that the first context keeps *)
Theorem C72_refuted_kept : exists schedule,
  let S_ := exec [] (start [context "a"; context "b"] session1) schedule in
  Forall (fun a => a = AStop (Ok tt)) (threads S_) /\ cache session1 = Some 0 /\
  opt_of (content (shared S_) 0) "plot" "cmapdiv" = Some (OStr "b").
Proof.
  exists (repeat 0 20 ++ repeat 1 2 ++ repeat 0 9 ++ repeat 1 40). cbv zeta. split; [apply finishedb_ok; vm_compute; reflexivity|].
  split; vm_compute; reflexivity.
Qed.
(** A read fails when another thread enters a context *)
Theorem C72_refuted_read : exists schedule,
  In (1, EGet "plot" (Some "cmapdiv"%string) (Raise KeyError))
     (said (exec [] (start [context "a"; Get "plot" (Some "cmapdiv"%string) (fun _ => Stop)] session1) schedule)).
Proof. exists [1; 0; 0; 1; 1]. vm_compute. left. reflexivity. Qed.
(** At the first use of a session, a read of a documented option can return the error object *)
Theorem C72_refuted_first : exists schedule,
  let read := Get "plot" (Some "cmapdiv"%string) (fun _ => Stop) in
  In (1, EGet "plot" (Some "cmapdiv"%string) (Ok ErrorObject)) (said (exec [] (start [read; read] init) schedule)) /\
  seen [] init "plot" "cmapdiv" = Ok (Value (OStr "cmo.balance")).
Proof. exists [0; 0; 0; 0; 1; 1; 1; 1; 1]. cbv zeta. split; [vm_compute; left; reflexivity|vm_compute; reflexivity]. Qed.

(** The hypotheses of the theorems above are met, with loads that agree on an option *)
Example C72_example :
  let cfg1 := [("cf", [("cache", OStr "no")]); ("plot", [("cmapdiv", OStr "a")])]%string in
  let cfg2 := [("cf", [("cache", OStr "no")])]%string in
  let ps := [Load cfg1 Stop; Get "cf.cache" None (fun _ => Load cfg2 Stop)] in
  let S_ := exec [] (start ps session1) (repeat 1 2 ++ repeat 0 3 ++ repeat 1 7 ++ repeat 0 40 ++ repeat 1 40) in
  Forall gets_loads ps /\ finished S_ /\ (forall w, from_load ps "cf" "cache" w -> w = OStr "no") /\
  (exists p, In p ps /\ must_give "cf" "cache" p) /\
  value_in (shared S_) "cf" "cache" = Some (OBool false) /\
  said S_ = [(1, EGet "cf.cache" None (Ok (Value (OStr "no")))); (0, ELoad (Ok tt)); (1, ELoad (Ok tt))]%string.
Proof.
  cbv zeta.
  assert (W : forall a b : dict oval, dict_wf a -> dict_wf b -> wf2 [("cf", a); ("plot", b)]%string).
  { intros a b Ha Hb. split; [repeat (constructor; [simpl; intuition discriminate|]); constructor|]. intros s d H.
    cbn [dget] in H. destruct (String.eqb s "cf"); [congruence|]. destruct (String.eqb s "plot"); [congruence|discriminate]. }
  assert (W1 : forall k (v : oval), dict_wf [(k, v)]) by (intros; repeat constructor; simpl; auto).
  split; [|split; [|split; [|split; [|split]]]].
  - constructor; [|constructor; [|constructor]].
    + split; [apply W; apply W1|exact Logic.I].
    + intro r. split; [|exact Logic.I]. split; [repeat constructor; simpl; auto|]. intros s d H. cbn [dget] in H.
      destruct (String.eqb s "cf"); [|discriminate]. injection H as <-. apply W1.
  - eapply Forall_impl; [|apply finishedb_ok; vm_compute; reflexivity]. intros a ->. eauto.
  - intros w (p & [<-|[<-|[]]] & Hg).
    + inversion Hg as [? ? ? ? ? H|? ? ? ? ? H|]; subst; [|inversion H]. vm_compute in H. congruence.
    + inversion Hg as [| |? ? ? ? ? ? ? H]; subst. inversion H as [? ? ? ? ? H'|? ? ? ? ? H'|]; subst; [|inversion H']. vm_compute in H'. congruence.
  - eexists. split; [left; reflexivity|]. apply must_here. vm_compute. discriminate.
  - vm_compute. reflexivity.
  - vm_compute. reflexivity.
Qed.
