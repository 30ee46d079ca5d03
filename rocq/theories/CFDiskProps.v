(** C68: the disk cache of the CF specifications, shared by processes that crash, with edits of the
    configuration files. *)
From Verif Require Import CFDiskProofs.
From Coq Require Import List Arith Lia Bool.
Import ListNotations.
Open Scope nat_scope.

(** ** What holds *)
Section Holds.
Context {D U X : Type}.
Variable compute : D -> U -> X.
Variable enc : X -> list nat.
Variable dec : list nat -> option X.
Notation W := (world D U X).
Notation hist := (history compute enc dec).
Notation cur := (current compute).
Notation stepc := (step compute enc dec).

(** With one writer at a time, whatever the crashes, errors, removals and edits: a call never returns
    anything but specifications that the configuration files have defined *)
Theorem C68_untorn (w0 : W) vis w p x : codec enc dec -> first_world w0 -> hist one_writer w0 vis w -> returns w p x ->
  once_current compute vis x.
Proof.
  intros HC H0 H Hr. assert (I := inv_history compute enc dec HC one_writer w0 vis w (fun _ _ h => h) H0 H).
  apply (v_phase _ _ _ _ I p). unfold returns in Hr. now rewrite Hr.
Qed.
(** If moreover edits do not overlap calls and the user file does not change: a process that has no
    specifications gets the current ones, in every mode *)
Theorem C68_up_to_date (w0 : W) vis w p w' x : codec enc dec -> first_world w0 -> hist (both one_writer calm) w0 vis w ->
  p_mem (procs w p) = None -> stepc w (Go p) = Some w' -> p_mem (procs w' p) = Some x -> x = cur w'.
Proof.
  intros HC H0 H Hm Hs Hx.
  assert (K := calm_history compute enc dec HC (both one_writer calm) w0 vis w (fun _ _ h => h) H0 H).
  cbn [step] in Hs. unfold go in Hs.
  assert (SAME : forall ph, Some (set_proc w p (p_mem (procs w p)) ph) = Some w' -> x = cur w').
  { intros ph E. injection E as <-. cbn [procs set_proc] in Hx. rewrite pset_same in Hx. cbn in Hx. congruence. }
  destruct (p_at (procs w p)) as [| | | |m|y|i rest off y|y|y|r] eqn:Ep; try discriminate; try (now apply SAME in Hs).
  - destruct (file_of w) as [f|] eqn:Ef; [|now apply SAME in Hs].
    destruct (dec (i_bytes f)) as [y|] eqn:Ed; [|now apply SAME in Hs].
    injection Hs as <-. cbn [procs set_proc] in Hx. rewrite pset_same in Hx. cbn in Hx. injection Hx as <-.
    change (cur (set_proc w p (Some y) (AtReturn (Returned y)))) with (cur w).
    destruct (c_load _ _ _ K p Ep) as [_ L]. destruct (file_of_in w f Ef) as (i & _ & Hi).
    exact (c_file _ _ _ K i f y Hi (L f Ef) Ed).
  - injection Hs as <-. cbn [procs set_proc] in Hx. rewrite pset_same in Hx. cbn in Hx. injection Hx as <-. reflexivity.
  - destruct (link w); injection Hs as <-; cbn [procs set_proc] in Hx; rewrite pset_same in Hx; cbn in Hx; congruence.
  - destruct rest; [|discriminate]. now apply SAME in Hs.
  - destruct (file_of w); [|now apply SAME in Hs]. injection Hs as <-. cbn [procs set_proc] in Hx. rewrite pset_same in Hx. cbn in Hx. congruence.
Qed.
(** In every history, what a call returns is what the process has got, and will return *)
Theorem C68_returns_memory (w0 : W) vis w p x : new_processes w0 -> hist anything w0 vis w -> returns w p x -> p_mem (procs w p) = Some x.
Proof.
  intros H0 H Hr.
  assert (I : forall q y, phase_has (p_at (procs w q)) = Some y -> p_mem (procs w q) = Some y).
  2:{ apply I. unfold returns in Hr. now rewrite Hr. }
  clear p x Hr. induction H as [|vis w e w' H IH _ Hs].
  { intros q y. rewrite H0. discriminate. }
  assert (TR : forall w1 p mem ph, procs w1 = procs w -> w' = set_proc w1 p mem ph -> (forall y, phase_has ph = Some y -> mem = Some y) ->
     forall q y, phase_has (p_at (procs w' q)) = Some y -> p_mem (procs w' q) = Some y).
  { intros w1 p mem ph E -> T q. cbn [procs set_proc]. rewrite E.
    destruct (pset_cases (procs w) p (mkproc mem ph) q) as [[_ ->]|[_ ->]]; cbn [p_at p_mem]; auto. }
  destruct e as [p m|p|p n|p|p|d t|u|]; cbn [step] in Hs.
  - destruct (p_at (procs w p)) eqn:Ep; try discriminate. injection Hs as Hs. symmetry in Hs. eapply TR; [reflexivity|exact Hs|].
    destruct (p_mem (procs w p)); [|destruct m; discriminate]. intros y Hy. now rewrite finish_has in Hy.
  - unfold go in Hs. specialize (IH p). destruct (p_at (procs w p)) as [| | | |m|x|i rest off x|x|x|r] eqn:Ep; try discriminate; cbn [phase_has] in IH.
    + injection Hs as Hs. symmetry in Hs. eapply TR; [reflexivity|exact Hs|]. destruct (file_of w); discriminate.
    + injection Hs as Hs. symmetry in Hs. eapply TR; [reflexivity|exact Hs|].
      destruct (file_of w) as [f|]; [destruct (dtime w <? i_time f)|]; discriminate.
    + destruct (match file_of w with Some f => dec (i_bytes f) | None => None end); injection Hs as Hs; symmetry in Hs;
      (eapply TR; [reflexivity|exact Hs|]); [auto|discriminate].
    + injection Hs as Hs. symmetry in Hs. eapply TR; [reflexivity|exact Hs|]. destruct m; auto.
    + destruct (link w); injection Hs as Hs; symmetry in Hs; (eapply TR; [|exact Hs|exact IH]; reflexivity).
    + destruct rest; [|discriminate]. injection Hs as Hs. symmetry in Hs. eapply TR; [reflexivity|exact Hs|exact IH].
    + injection Hs as Hs. symmetry in Hs. eapply TR; [reflexivity|exact Hs|]. destruct (file_of w); exact IH.
    + destruct (file_of w); injection Hs as Hs; symmetry in Hs; (eapply TR; [|exact Hs|]; [reflexivity|]); [exact IH|discriminate].
    + injection Hs as Hs. symmetry in Hs. eapply TR; [reflexivity|exact Hs|discriminate].
  - specialize (IH p). destruct (p_at (procs w p)) as [| | | | | |i rest off x| | |] eqn:Ep; try discriminate.
    destruct (nth_error (inodes w) i) as [f|]; [|discriminate]. injection Hs as Hs. symmetry in Hs.
    eapply TR; [|exact Hs|exact IH]. reflexivity.
  - specialize (IH p). destruct (p_at (procs w p)) as [| | | | |x|i rest off x| | |] eqn:Ep; try discriminate; injection Hs as Hs; symmetry in Hs;
    (eapply TR; [reflexivity|exact Hs|]); try discriminate; exact IH.
  - injection Hs as Hs. symmetry in Hs. eapply TR; [reflexivity|exact Hs|discriminate].
  - injection Hs as <-. exact IH.
  - injection Hs as <-. exact IH.
  - injection Hs as <-. exact IH.
Qed.
(** Without the mode "read", nothing matters: any number of writers, any former content of the
    cache file *)
Definition quiet_phase (ph : phase X) : Prop := ph <> AtExists /\ ph <> AtStat /\ ph <> AtLoad /\ ph <> AtCompute MRead.
Lemma no_read_inv (w0 : W) vis w : new_processes w0 -> hist no_read w0 vis w ->
  (forall q x, p_mem (procs w q) = Some x -> once_current compute vis x) /\
  (forall q x, phase_has (p_at (procs w q)) = Some x -> once_current compute vis x) /\
  forall q, quiet_phase (p_at (procs w q)).
Proof.
  intros H0 H. induction H as [|vis w e w' H (A & B & C) Ho Hs].
  { repeat split; try (intros q; rewrite H0; discriminate); rewrite H0; discriminate. }
  assert (HV : forall x, x = cur w -> once_current compute (w' :: vis) x).
  { intros x ->. destruct (visited_head _ _ _ _ _ _ _ H) as (l & ->). exists w. split; auto. right. now left. }
  assert (TR : forall w1 p mem ph, procs w1 = procs w -> w' = set_proc w1 p mem ph ->
     (forall x, mem = Some x -> once_current compute (w' :: vis) x) ->
     (forall x, phase_has ph = Some x -> once_current compute (w' :: vis) x) -> quiet_phase ph ->
     (forall q x, p_mem (procs w' q) = Some x -> once_current compute (w' :: vis) x) /\
     (forall q x, phase_has (p_at (procs w' q)) = Some x -> once_current compute (w' :: vis) x) /\
     forall q, quiet_phase (p_at (procs w' q))).
  { intros w1 p mem ph E -> T1 T2 T3. cbn [procs set_proc]. rewrite E. split; [|split]; intro q.
    - destruct (pset_cases (procs w) p (mkproc mem ph) q) as [[_ ->]|[_ ->]]; cbn [p_mem]; auto. intros x Hx. apply once_mono. eauto.
    - destruct (pset_cases (procs w) p (mkproc mem ph) q) as [[_ ->]|[_ ->]]; cbn [p_at]; auto. intros x Hx. apply once_mono. eauto.
    - destruct (pset_cases (procs w) p (mkproc mem ph) q) as [[_ ->]|[_ ->]]; cbn [p_at]; auto. }
  assert (Hm : forall p x, p_mem (procs w p) = Some x -> once_current compute (w' :: vis) x) by (intros; apply once_mono; eauto).
  assert (Hp : forall p x, phase_has (p_at (procs w p)) = Some x -> once_current compute (w' :: vis) x) by (intros; apply once_mono; eauto).
  assert (QT : forall r, quiet_phase (AtReturn r)) by (intro r; repeat split; discriminate).
  destruct e as [p m|p|p n|p|p|d t|u|]; cbn [step] in Hs.
  - assert (Nm : m <> MRead) by (intros ->; now apply (Ho p)).
    destruct (p_at (procs w p)) eqn:Ep; try discriminate. injection Hs as Hs. symmetry in Hs.
    eapply TR; [reflexivity|exact Hs|exact (Hm p)| |].
    + destruct (p_mem (procs w p)) as [x|] eqn:Em.
      * intros y Hy. rewrite finish_has in Hy. injection Hy as <-. eauto.
      * destruct m; try congruence; discriminate.
    + destruct (p_mem (procs w p)); destruct m; try (exfalso; now apply Nm); repeat split; discriminate.
  - unfold go in Hs. specialize (C p). specialize (Hm p). specialize (Hp p). unfold quiet_phase in C.
    destruct (p_at (procs w p)) as [| | | |m|x|i rest off x|x|x|r] eqn:Ep; try discriminate; cbn [phase_has] in Hp;
      try (exfalso; intuition congruence).
    + injection Hs as Hs. symmetry in Hs. eapply TR; [reflexivity|exact Hs| | |].
      * intros y Hy. apply HV. now injection Hy as <-.
      * intros y Hy. apply HV. destruct m; cbn in Hy; unfold current; congruence.
      * destruct C as (_ & _ & _ & C). destruct m; repeat split; try discriminate; congruence.
    + destruct (link w); injection Hs as Hs; symmetry in Hs; (eapply TR; [|exact Hs|exact Hm|exact Hp|]; [reflexivity|repeat split; discriminate]).
    + destruct rest; [|discriminate]. injection Hs as Hs. symmetry in Hs. eapply TR; [reflexivity|exact Hs|exact Hm|exact Hp|apply QT].
    + injection Hs as Hs. symmetry in Hs. eapply TR; [reflexivity|exact Hs|exact Hm| |]; destruct (file_of w); auto. repeat split; discriminate.
    + destruct (file_of w); injection Hs as Hs; symmetry in Hs; (eapply TR; [|exact Hs|exact Hm| |apply QT]; [reflexivity|]); auto. discriminate.
    + injection Hs as Hs. symmetry in Hs. eapply TR; [reflexivity|exact Hs|exact Hm|discriminate|repeat split; discriminate].
  - specialize (Hp p). destruct (p_at (procs w p)) as [| | | | | |i rest off x| | |] eqn:Ep; try discriminate.
    destruct (nth_error (inodes w) i) as [f|]; [|discriminate]. injection Hs as Hs. symmetry in Hs.
    eapply TR; [|exact Hs|eauto|exact Hp|]; [reflexivity|repeat split; discriminate].
  - specialize (Hp p). specialize (C p). unfold quiet_phase in C. destruct (p_at (procs w p)) as [| | | | |x|i rest off x| | |] eqn:Ep; try discriminate;
      try (exfalso; intuition congruence); injection Hs as Hs; symmetry in Hs; (eapply TR; [reflexivity|exact Hs|eauto|exact Hp|apply QT]).
  - injection Hs as Hs. symmetry in Hs. eapply TR; [reflexivity|exact Hs|discriminate|discriminate|repeat split; discriminate].
  - injection Hs as <-. cbn [procs] in *. split; [|split]; auto.
  - injection Hs as <-. cbn [procs] in *. split; [|split]; auto.
  - injection Hs as <-. cbn [procs] in *. split; [|split]; auto.
Qed.
Theorem C68_default_mode (w0 : W) vis w p x : new_processes w0 -> hist no_read w0 vis w -> returns w p x -> once_current compute vis x.
Proof.
  intros H0 H Hr. destruct (no_read_inv w0 vis w H0 H) as (_ & B & _). apply (B p). unfold returns in Hr. now rewrite Hr.
Qed.

(** Without removals, no call fails *)
Theorem C68_never_fails (w0 : W) vis w p : first_world w0 -> hist no_clean w0 vis w -> ~ fails w p.
Proof.
  intros H0 H.
  assert (I : (forall i, link w = Some i -> i < List.length (inodes w)) /\
    (forall q, p_at (procs w q) = AtStat -> link w <> None) /\
    forall q, p_at (procs w q) <> AtReturn NotFound /\ p_at (procs w q) <> AtCompute MClean /\
      forall x, p_at (procs w q) <> AtCleanExists x /\ p_at (procs w q) <> AtCleanRemove x).
  2:{ destruct I as (_ & _ & I). apply I. }
  clear p.
  induction H as [|vis w e w' H (A & B & C) Ho Hs].
  { destruct H0 as (H1 & H2 & _ & H3). rewrite H1. split; [discriminate|]. split; [intro q; rewrite H3; discriminate|].
    intro q. rewrite H3. repeat split; discriminate. }
  assert (NF : link w <> None -> file_of w <> None).
  { unfold file_of. destruct (link w) as [i|]; [|congruence]. intros _. apply nth_error_Some. now apply A. }
  set (good := fun ph : phase X => ph <> AtReturn NotFound /\ ph <> AtCompute MClean /\ forall x, ph <> AtCleanExists x /\ ph <> AtCleanRemove x).
  assert (TR : forall w1 p mem ph, procs w1 = procs w -> w' = set_proc w1 p mem ph ->
     (forall i, link w1 = Some i -> i < List.length (inodes w1)) -> (link w <> None -> link w1 <> None) -> good ph -> (ph = AtStat -> link w1 <> None) ->
     (forall i, link w' = Some i -> i < List.length (inodes w')) /\
     (forall q, p_at (procs w' q) = AtStat -> link w' <> None) /\ forall q, good (p_at (procs w' q))).
  { intros w1 p mem ph E -> T1 T2 T3 T4. cbn [procs set_proc link inodes]. rewrite E. split; [exact T1|]. split; intro q.
    - destruct (pset_cases (procs w) p (mkproc mem ph) q) as [[_ ->]|[_ ->]]; cbn [p_at]; eauto.
    - destruct (pset_cases (procs w) p (mkproc mem ph) q) as [[_ ->]|[_ ->]]; cbn [p_at]; auto. apply C. }
  assert (GR : forall x, good (AtReturn (Returned x))) by (intro x; repeat split; discriminate).
  destruct e as [p m|p|p n|p|p|d t|u|]; cbn [step] in Hs.
  - assert (Nm : m <> MClean) by (intros ->; now apply (Ho p)).
    destruct (p_at (procs w p)) eqn:Ep; try discriminate. injection Hs as Hs. symmetry in Hs.
    eapply TR; [reflexivity|exact Hs|auto|auto| |]; destruct (p_mem (procs w p)); destruct m; try congruence; try (repeat split; discriminate); discriminate.
  - unfold go in Hs. specialize (C p). specialize (B p).
    destruct (p_at (procs w p)) as [| | | |m|x|i rest off x|x|x|r] eqn:Ep; try discriminate.
    + injection Hs as Hs. symmetry in Hs. eapply TR; [reflexivity|exact Hs|auto|auto| |].
      * destruct (file_of w); repeat split; discriminate.
      * unfold file_of. destruct (link w); [discriminate|]. discriminate.
    + injection Hs as Hs. symmetry in Hs. specialize (NF (B eq_refl)). eapply TR; [reflexivity|exact Hs|auto|auto| |];
      destruct (file_of w) as [f|]; try congruence; destruct (dtime w <? i_time f); try discriminate; repeat split; discriminate.
    + destruct (match file_of w with Some f => dec (i_bytes f) | None => None end); injection Hs as Hs; symmetry in Hs;
      (eapply TR; [reflexivity|exact Hs|auto|auto| |discriminate]); repeat split; discriminate.
    + injection Hs as Hs. symmetry in Hs. destruct C as (_ & C & _). eapply TR; [reflexivity|exact Hs|auto|auto| |];
      destruct m; try congruence; try (repeat split; discriminate); discriminate.
    + destruct (link w) as [j|] eqn:El; injection Hs as Hs; symmetry in Hs;
      (eapply TR; [|exact Hs| | |repeat split; discriminate|discriminate]); [reflexivity| | |reflexivity| |]; cbn [link set_file inodes]; try discriminate.
      * intros k Hk. rewrite set_nth_length. now apply A.
      * intros k Hk. injection Hk as <-. rewrite app_length. cbn. lia.
    + destruct rest; [|discriminate]. injection Hs as Hs. symmetry in Hs. eapply TR; [reflexivity|exact Hs|auto|auto|apply GR|discriminate].
    + exfalso. destruct C as (_ & _ & C). now destruct (C x).
    + exfalso. destruct C as (_ & _ & C). now destruct (C x).
    + injection Hs as Hs. symmetry in Hs. eapply TR; [reflexivity|exact Hs|auto|auto|repeat split; discriminate|discriminate].
  - destruct (p_at (procs w p)) as [| | | | | |i rest off x| | |] eqn:Ep; try discriminate.
    destruct (nth_error (inodes w) i) as [f|]; [|discriminate]. injection Hs as Hs. symmetry in Hs.
    eapply TR; [|exact Hs| | |repeat split; discriminate|discriminate]; [reflexivity| |auto].
    cbn [link set_file inodes]. intros k Hk. rewrite set_nth_length. now apply A.
  - destruct (p_at (procs w p)) as [| | | | |x|i rest off x| | |] eqn:Ep; try discriminate; injection Hs as Hs; symmetry in Hs;
    (eapply TR; [reflexivity|exact Hs|auto|auto|repeat split; discriminate|discriminate]).
  - injection Hs as Hs. symmetry in Hs. eapply TR; [reflexivity|exact Hs|auto|auto|repeat split; discriminate|discriminate].
  - injection Hs as <-. auto.
  - injection Hs as <-. auto.
  - injection Hs as <-. auto.
Qed.

(** Any number of processes that write at the same time, without crash, error or edit: the file is
    right as soon as nobody writes it *)
Record same_inv (x0 : X) (w : W) : Prop := mksame {
  s_cur : cur w = x0;
  s_phase : forall q x, (p_at (procs w q) = AtOpen x \/ exists i rest off, p_at (procs w q) = AtWrite i rest off x) -> x = x0;
  s_write : forall q i rest off x, p_at (procs w q) = AtWrite i rest off x ->
    i < List.length (inodes w) /\ rest = skipn off (enc x0) /\ off <= List.length (enc x0);
  s_len : forall i f, nth_error (inodes w) i = Some f -> List.length (i_bytes f) <= List.length (enc x0);
  s_file : forall i f, nth_error (inodes w) i = Some f -> i_bytes f = enc x0 \/
    exists q rest off x, p_at (procs w q) = AtWrite i rest off x /\ off <= List.length (i_bytes f) /\
      forall j, j < off -> nth_error (i_bytes f) j = nth_error (enc x0) j;
  s_link : forall i, link w = Some i -> i < List.length (inodes w) }.
Lemma full_equal (b e : list nat) : List.length b <= List.length e -> List.length e <= List.length b ->
  (forall j, j < List.length e -> nth_error b j = nth_error e j) -> b = e.
Proof.
  revert e. induction b as [|x b IH]; intros [|y e] L1 L2 H; cbn in *; auto; try lia.
  assert (E := H 0 ltac:(lia)). cbn in E. injection E as <-. f_equal. apply IH; try lia.
  intros j Hj. exact (H (S j) ltac:(lia)).
Qed.
(** A process that was not writing moves, the files do not *)
Lemma same_move x0 (w : W) p mem ph : same_inv x0 w -> (forall i rest off x, p_at (procs w p) <> AtWrite i rest off x) ->
  (forall i rest off x, ph <> AtWrite i rest off x) -> (forall x, ph = AtOpen x -> x = x0) -> same_inv x0 (set_proc w p mem ph).
Proof.
  intros [A B C E F G] Hp H1 H2. constructor; cbn [procs set_proc inodes link]; auto.
  - intros q x. destruct (pset_cases (procs w) p (mkproc mem ph) q) as [[_ ->]|[_ ->]]; cbn [p_at]; [|apply B].
    intros [H|(i & rest & off & H)]; [now apply H2|now destruct (H1 i rest off x)].
  - intros q i rest off x. destruct (pset_cases (procs w) p (mkproc mem ph) q) as [[_ ->]|[_ ->]]; cbn [p_at]; [|apply C].
    intro H. now destruct (H1 i rest off x).
  - intros i f Hi. destruct (F i f Hi) as [H|(q & rest & off & x & Hq & H)]; auto. right. exists q, rest, off, x. split; auto.
    destruct (pset_cases (procs w) p (mkproc mem ph) q) as [[-> _]|[_ ->]]; auto. now destruct (Hp i rest off x).
Qed.
Lemma same_step x0 (w : W) e w' : same_inv x0 w -> smooth w e -> stepc w e = Some w' -> same_inv x0 w'.
Proof.
  intros I Hc H. assert (I0 := I). destruct I as [A B C E F G].
  destruct e as [p m|p|p n|p|p|d t|u|]; cbn [step] in H; cbn [smooth] in Hc; try contradiction.
  - destruct (p_at (procs w p)) eqn:Ep; try discriminate. injection H as <-.
    apply same_move; auto; try (intros; rewrite Ep; discriminate); destruct (p_mem (procs w p)); destruct m; discriminate.
  - unfold go in H. destruct (p_at (procs w p)) as [| | | |m|x|i rest off x|x|x|r] eqn:Ep; try discriminate;
    try (assert (NW : forall i rest off x, p_at (procs w p) <> AtWrite i rest off x) by (intros; rewrite Ep; discriminate)).
    + injection H as <-. apply same_move; auto; destruct (file_of w); discriminate.
    + injection H as <-. apply same_move; auto; destruct (file_of w) as [f|]; try discriminate; destruct (dtime w <? i_time f); discriminate.
    + destruct (match file_of w with Some f => dec (i_bytes f) | None => None end); injection H as <-; apply same_move; auto; discriminate.
    + injection H as <-. apply same_move; auto; destruct m; try discriminate. intros x Hx. injection Hx as <-. exact A.
    + assert (Hx : x = x0) by (apply (B p); now left). subst x.
      assert (GEN : forall i is, i < List.length is -> (forall f, nth_error is i = Some f -> i_bytes f = []) ->
        List.length (inodes w) <= List.length is ->
        (forall j f, j <> i -> nth_error is j = Some f -> nth_error (inodes w) j = Some f) ->
        same_inv x0 (set_proc (set_file w (Some i) is) p (p_mem (procs w p)) (AtWrite i (enc x0) 0 x0))).
      { intros i is Li Hi Hlen Ho. set (ph := AtWrite i (enc x0) 0 x0). constructor; cbn [procs set_proc set_file inodes link]; auto.
        - intros q x. destruct (pset_cases (procs w) p (mkproc (p_mem (procs w p)) ph) q) as [[_ ->]|[_ ->]]; cbn [p_at]; [|apply B].
          intros [Hq|(i' & rest' & off' & Hq)]; [discriminate|]. now injection Hq.
        - intros q j rest off x. destruct (pset_cases (procs w) p (mkproc (p_mem (procs w p)) ph) q) as [[_ ->]|[_ ->]]; cbn [p_at].
          + intro Hq. injection Hq as <- <- <- <-. repeat split; auto. lia.
          + intro Hq. destruct (C _ _ _ _ _ Hq) as (C1 & C2 & C3). repeat split; auto. lia.
        - intros j f Hj. destruct (Nat.eq_dec j i) as [->|N]; [rewrite (Hi f Hj); cbn; lia|]. eauto.
        - intros j f Hj. destruct (Nat.eq_dec j i) as [->|N].
          + right. exists p, (enc x0), 0, x0. rewrite pset_same. split; auto. split; [lia|]. intros k Hk. lia.
          + destruct (F j f (Ho j f N Hj)) as [Hf|(q & rest & off & x & Hq & Hf)]; auto. right. exists q, rest, off, x. split; auto.
            destruct (pset_cases (procs w) p (mkproc (p_mem (procs w p)) ph) q) as [[-> _]|[_ ->]]; auto. congruence.
        - intros j Hj. now injection Hj as <-. }
      destruct (link w) as [i|] eqn:El; injection H as <-.
      * assert (Li := G i eq_refl). apply GEN.
        -- now rewrite set_nth_length.
        -- intros f Hf. rewrite set_nth_same in Hf by auto. now injection Hf as <-.
        -- rewrite set_nth_length. lia.
        -- intros j f N Hj. now rewrite set_nth_other in Hj.
      * apply GEN.
        -- rewrite app_length. cbn. lia.
        -- intros f Hf. rewrite nth_error_app2 in Hf by lia. rewrite Nat.sub_diag in Hf. cbn in Hf. now injection Hf as <-.
        -- rewrite app_length. lia.
        -- intros j f N Hj. apply app1_cases in Hj. destruct Hj as [[-> _]|[_ Hj]]; [congruence|auto].
    + destruct rest as [|]; [|discriminate]. injection H as <-. destruct (C _ _ _ _ _ Ep) as (C1 & C2 & C3).
      assert (Lo : off = List.length (enc x0)).
      { assert (L := f_equal (@List.length nat) C2). rewrite skipn_length in L. cbn in L. lia. }
      set (ph := AtReturn (Returned x)). constructor; cbn [procs set_proc inodes link]; auto.
      * intros q y. destruct (pset_cases (procs w) p (mkproc (p_mem (procs w p)) ph) q) as [[_ ->]|[_ ->]]; cbn [p_at]; [|apply B].
        intros [H|(i' & rest' & off' & H)]; discriminate.
      * intros q j rest off' y. destruct (pset_cases (procs w) p (mkproc (p_mem (procs w p)) ph) q) as [[_ ->]|[_ ->]]; cbn [p_at]; [discriminate|apply C].
      * intros j f Hj. destruct (F j f Hj) as [Hf|(q & rest & off' & y & Hq & Hf)]; auto.
        destruct (pset_cases (procs w) p (mkproc (p_mem (procs w p)) ph) q) as [[-> _]|[N Eq]].
        -- left. rewrite Ep in Hq. injection Hq as <- <- <- <-. destruct Hf as [Hf1 Hf2]. subst off.
           apply full_equal; eauto.
        -- right. exists q, rest, off', y. rewrite Eq. auto.
    + injection H as <-. apply same_move; auto; destruct (file_of w); discriminate.
    + injection H as <-. destruct (file_of w); [|apply same_move; auto; discriminate]. apply same_move; auto; try discriminate.
      constructor; auto. discriminate.
    + injection H as <-. apply same_move; auto; discriminate.
  - destruct (p_at (procs w p)) as [| | | | | |i rest off x| | |] eqn:Ep; try discriminate.
    destruct (nth_error (inodes w) i) as [f|] eqn:Ei; [|discriminate]. injection H as <-.
    assert (Hx : x = x0) by (apply (B p); right; eauto). subst x.
    destruct (C _ _ _ _ _ Ep) as (C1 & C2 & C3).
    set (chunk := firstn n rest). set (ph := AtWrite i (skipn n rest) (off + List.length chunk) x0).
    assert (LC : List.length chunk <= List.length (enc x0) - off).
    { unfold chunk. rewrite firstn_length, C2, skipn_length. lia. }
    assert (HS : forall k (l : list nat) m, nth_error (skipn k l) m = nth_error l (k + m)).
    { clear. induction k as [|k IH]; intros [|z l] m; cbn; auto. now destruct m. }
    assert (NC : forall j, j < List.length chunk -> nth_error chunk j = nth_error (enc x0) (off + j)).
    { intros j Hj. rewrite <- HS, <- C2. unfold chunk in *. rewrite firstn_length in Hj.
      rewrite <- (firstn_skipn n rest) at 2. rewrite nth_error_app1; auto. rewrite firstn_length. lia. }
    assert (KEEP : forall m b, m <= List.length b -> (forall j, j < m -> nth_error b j = nth_error (enc x0) j) ->
       forall j, j < m -> nth_error (write_at off chunk b) j = nth_error (enc x0) j).
    { intros m b Lb Hb j Hj. assert (Hgoal : off <= List.length b \/ off <= j \/ (List.length b < off /\ j < off)) by lia.
      destruct Hgoal as [Ho|[Ho|[Ho1 Ho2]]].
      - rewrite write_at_nth by auto. destruct (Nat.ltb_spec j off); [auto|]. destruct (Nat.ltb_spec j (off + List.length chunk)); [|auto].
        rewrite NC by lia. f_equal. lia.
      - rewrite write_at_nth by auto. destruct (Nat.ltb_spec j off); [auto|]. destruct (Nat.ltb_spec j (off + List.length chunk)); [|auto].
        rewrite NC by lia. f_equal. lia.
      - unfold write_at. rewrite nth_error_app1 by (rewrite firstn_length, app_length, repeat_length; lia).
        rewrite <- (Hb j Hj). rewrite firstn_all2 by (rewrite app_length, repeat_length; lia).
        now rewrite nth_error_app1 by lia. }
    constructor; cbn [procs set_proc set_file inodes link]; auto.
    + intros q y. destruct (pset_cases (procs w) p (mkproc (p_mem (procs w p)) ph) q) as [[_ ->]|[_ ->]]; cbn [p_at]; [|apply B].
      intros [H|(i' & rest' & off' & H)]; [discriminate|]. now injection H.
    + intros q j rest' off' y. rewrite set_nth_length. destruct (pset_cases (procs w) p (mkproc (p_mem (procs w p)) ph) q) as [[_ ->]|[_ ->]]; cbn [p_at]; [|apply C].
      intro H. injection H as <- <- <- <-. split; auto. split; [|lia]. rewrite C2 at 1. rewrite skipn_skipn'.
      unfold chunk. rewrite firstn_length, C2, skipn_length. destruct (Nat.le_ge_cases n (List.length (enc x0) - off)) as [L|L].
      * now rewrite Nat.min_l by auto.
      * rewrite Nat.min_r by auto. rewrite !skipn_all2 by lia. reflexivity.
    + intros j g Hj. apply set_nth_cases in Hj. destruct Hj as [[_ ->]|[_ Hj]]; [|eauto]. cbn [i_bytes]. rewrite write_at_length.
      specialize (E i f Ei). lia.
    + intros j g Hj. apply set_nth_cases in Hj. destruct Hj as [[-> ->]|[N Hj]].
      * cbn [i_bytes]. destruct (F i f Ei) as [Hf|(q & rest' & off' & y & Hq & Hf1 & Hf2)].
        -- left. apply full_equal.
           ++ rewrite write_at_length, Hf. lia.
           ++ rewrite write_at_length, Hf. lia.
           ++ apply KEEP; rewrite Hf; auto.
        -- right. destruct (Nat.eq_dec q p) as [->|Nq].
           ++ rewrite Ep in Hq. injection Hq as <- <- <-. exists p, (skipn n rest), (off + List.length chunk), x0. rewrite pset_same. split; auto.
              split; [rewrite write_at_length; lia|]. intros j Hj.
              rewrite write_at_nth by auto. destruct (Nat.ltb_spec j off); [auto|]. destruct (Nat.ltb_spec j (off + List.length chunk)); [|lia].
              rewrite NC by lia. f_equal. lia.
           ++ exists q, rest', off', y. split; [|split].
              ** destruct (pset_cases (procs w) p (mkproc (p_mem (procs w p)) ph) q) as [[X1 _]|[_ ->]]; [congruence|auto].
              ** rewrite write_at_length. lia.
              ** now apply KEEP.
      * destruct (F j g Hj) as [Hf|(q & rest' & off' & y & Hq & Hf)]; auto. right. exists q, rest', off', y. split; auto.
        destruct (pset_cases (procs w) p (mkproc (p_mem (procs w p)) ph) q) as [[-> _]|[_ ->]]; auto. congruence.
    + intros j Hj. rewrite set_nth_length. auto.
  - injection H as <-. constructor; auto.
Qed.
Theorem C68_same_writers (w0 : W) vis w f : first_world w0 -> hist smooth w0 vis w -> (forall q, ~ writing w q) ->
  file_of w = Some f -> i_bytes f = enc (cur w).
Proof.
  intros H0 H Hn Hf.
  assert (I : same_inv (cur w0) w).
  { clear Hn Hf f. induction H as [|vis w e w' H IH Ho Hs].
    - destruct H0 as (H1 & H2 & _ & H3). constructor; auto.
      + intros q x. rewrite H3. intros [Hq|(i & rest & off & Hq)]; discriminate.
      + intros q i rest off x. rewrite H3. discriminate.
      + intros i f. rewrite H2. destruct i; discriminate.
      + intros i f. rewrite H2. destruct i; discriminate.
      + rewrite H1. discriminate.
    - eapply same_step; eauto. }
  destruct (file_of_in w f Hf) as (i & _ & Hi). rewrite (s_cur _ _ I).
  destruct (s_file _ _ I i f Hi) as [E|(q & rest & off & x & Hq & _)]; auto. exfalso. apply (Hn q). now exists i, rest, off, x.
Qed.
End Holds.

(** ** What does not hold *)
Section Play.
Context {D U X : Type}.
Variable compute : D -> U -> X.
Variable enc : X -> list nat.
Variable dec : list nat -> option X.
Notation W := (world D U X).
Notation hist := (history compute enc dec).
(** Only process 0 writes *)
Definition writer0 (e : event D U) : Prop := forall p, e = Call p MWrite -> p = 0.
Definition with0 (ok : W -> event D U -> Prop) (w : W) (e : event D U) : Prop := writer0 e /\ ok w e.
Lemma play_history ok w0 vis w es w' : hist ok w0 vis w -> (forall e, In e es -> forall v, ok v e) -> play compute enc dec w es = Some w' ->
  exists vis', hist ok w0 vis' w'.
Proof.
  revert vis w. induction es as [|e es IH]; intros vis w H He Hp; cbn [play] in Hp.
  - injection Hp as <-. eauto.
  - destruct (step compute enc dec w e) as [w1|] eqn:E; [|discriminate]. eapply IH; [|intros e' H' v; apply He; now right|exact Hp].
    eapply h_step; eauto. apply He. now left.
Qed.
Lemma with0_one ok w0 vis w : first_world w0 -> hist (with0 ok) w0 vis w -> hist (both one_writer ok) w0 vis w.
Proof.
  intros H0 H.
  set (J := fun w : W => forall q, q <> 0 -> p_at (procs w q) <> AtCompute MWrite /\
     (forall x, p_at (procs w q) <> AtOpen x) /\ forall i rest off x, p_at (procs w q) <> AtWrite i rest off x).
  enough (HH : hist (both one_writer ok) w0 vis w /\ J w) by apply HH.
  induction H as [|vis w e w' H [IH K] [Ho1 Ho2] Hs].
  { split; [constructor|]. intros q _. destruct H0 as (_ & _ & _ & H3). rewrite H3. repeat split; discriminate. }
  split.
  { eapply h_step; eauto. split; auto. intros p x -> Hp q (i & rest & off & y & Hq).
    destruct (Nat.eq_dec p 0) as [->|N]; [|destruct (K p N) as (_ & K1 & _); now destruct (K1 x)].
    destruct (Nat.eq_dec q 0) as [->|N]; [congruence|]. destruct (K q N) as (_ & _ & K1). now destruct (K1 i rest off y). }
  assert (TR : forall w1 p mem ph, procs w1 = procs w -> w' = set_proc w1 p mem ph ->
     (p <> 0 -> ph <> AtCompute MWrite /\ (forall x, ph <> AtOpen x) /\ forall i rest off x, ph <> AtWrite i rest off x) -> J w').
  { intros w1 p mem ph E -> T q Nq. cbn [procs set_proc]. rewrite E.
    destruct (pset_cases (procs w) p (mkproc mem ph) q) as [[-> ->]|[_ ->]]; cbn [p_at]; auto. }
  destruct e as [p m|p|p n|p|p|d t|u|]; cbn [step] in Hs.
  - destruct (p_at (procs w p)) eqn:Ep; try discriminate. injection Hs as Hs. symmetry in Hs. eapply TR; [reflexivity|exact Hs|].
    intro N. assert (Nm : m <> MWrite) by (intros ->; apply N; now apply Ho1).
    destruct (p_mem (procs w p)); destruct m; try (exfalso; now apply Nm); repeat split; discriminate.
  - unfold go in Hs. destruct (p_at (procs w p)) as [| | | |m|x|i rest off x|x|x|r] eqn:Ep; try discriminate.
    + injection Hs as Hs. symmetry in Hs. eapply TR; [reflexivity|exact Hs|]. intros _. destruct (file_of w); repeat split; discriminate.
    + injection Hs as Hs. symmetry in Hs. eapply TR; [reflexivity|exact Hs|]. intros _.
      destruct (file_of w) as [f|]; [destruct (dtime w <? i_time f)|]; repeat split; discriminate.
    + destruct (match file_of w with Some f => dec (i_bytes f) | None => None end); injection Hs as Hs; symmetry in Hs;
      (eapply TR; [reflexivity|exact Hs|]); intros _; repeat split; discriminate.
    + injection Hs as Hs. symmetry in Hs. eapply TR; [reflexivity|exact Hs|]. intro N. destruct (K p N) as (K1 & _).
      destruct m; try congruence; repeat split; discriminate.
    + destruct (link w); injection Hs as Hs; symmetry in Hs; (eapply TR; [|exact Hs|]; [reflexivity|]); intro N;
      destruct (K p N) as (_ & K1 & _); now destruct (K1 x).
    + destruct rest; [|discriminate]. injection Hs as Hs. symmetry in Hs. eapply TR; [reflexivity|exact Hs|]. repeat split; discriminate.
    + injection Hs as Hs. symmetry in Hs. eapply TR; [reflexivity|exact Hs|]. intros _. destruct (file_of w); repeat split; discriminate.
    + destruct (file_of w); injection Hs as Hs; symmetry in Hs; (eapply TR; [|exact Hs|]; [reflexivity|]); repeat split; discriminate.
    + injection Hs as Hs. symmetry in Hs. eapply TR; [reflexivity|exact Hs|]. repeat split; discriminate.
  - destruct (p_at (procs w p)) as [| | | | | |i rest off x| | |] eqn:Ep; try discriminate.
    destruct (nth_error (inodes w) i) as [f|]; [|discriminate]. injection Hs as Hs. symmetry in Hs.
    eapply TR; [|exact Hs|]; [reflexivity|]. intro N. destruct (K p N) as (_ & _ & K1). now destruct (K1 i rest off x).
  - destruct (p_at (procs w p)) as [| | | | |x|i rest off x| | |] eqn:Ep; try discriminate; injection Hs as Hs; symmetry in Hs;
    (eapply TR; [reflexivity|exact Hs|]); repeat split; discriminate.
  - injection Hs as Hs. symmetry in Hs. eapply TR; [reflexivity|exact Hs|]. repeat split; discriminate.
  - injection Hs as <-. exact K.
  - injection Hs as <-. exact K.
  - injection Hs as <-. exact K.
Qed.
Lemma smooth_current w0 vis w : hist smooth w0 vis w -> forall v, In v vis -> current compute v = current compute w0.
Proof.
  intro H. enough (HH : (forall v, In v vis -> current compute v = current compute w0) /\ In w vis) by apply HH.
  induction H as [|vis w e w' H [IH Hw] Ho Hs].
  - split; [|now left]. intros v [<-|[]]. reflexivity.
  - split; [|now left]. intros v [<-|Hv]; auto. rewrite <- (IH w Hw).
    destruct e as [p m|p|p n|p|p|d t|u|]; cbn [smooth] in Ho; try contradiction; cbn [step] in Hs.
    + destruct (p_at (procs w p)); try discriminate. now injection Hs as <-.
    + unfold go in Hs. destruct (p_at (procs w p)) as [| | | |m|x|i rest off x|x|x|r]; try discriminate; try (now injection Hs as <-).
      * injection Hs as <-. destruct (match file_of w with Some f => dec (i_bytes f) | None => None end); reflexivity.
      * injection Hs as <-. destruct (link w); reflexivity.
      * destruct rest; [|discriminate]. now injection Hs as <-.
      * injection Hs as <-. destruct (file_of w); reflexivity.
    + destruct (p_at (procs w p)); try discriminate. destruct (nth_error (inodes w) i); [|discriminate]. now injection Hs as <-.
    + now injection Hs as <-.
Qed.
End Play.

(** A pickle: the length, then the items *)
Definition ex_compute (d u : nat) : list nat := [d; u].
Definition ex_enc (x : list nat) : list nat := List.length x :: x.
Definition ex_dec (b : list nat) : option (list nat) :=
  match b with n :: l => if List.length l =? n then Some l else None | [] => None end.
Lemma ex_codec : codec ex_enc ex_dec.
Proof.
  split.
  - intro x. cbn. now rewrite Nat.eqb_refl.
  - intros x [|n] H; [reflexivity|]. cbn [ex_enc firstn ex_dec]. cbn in H. rewrite firstn_length.
    destruct (Nat.eqb_spec (Nat.min n (List.length x)) (List.length x)); [lia|reflexivity].
Qed.
Definition ex_world : world nat nat (list nat) := mkworld 5 0 7 None [] 0 (fun _ => mkproc None Idle).
Lemma ex_first : first_world ex_world.
Proof. repeat split. apply Nat.le_refl. Qed.
Notation ex_hist := (history ex_compute ex_enc ex_dec).
Notation ex_play := (play ex_compute ex_enc ex_dec).
(** A whole call *)
Definition whole_write (p : nat) : list (event nat nat) := [Call p MWrite; Go p; Go p; Put p 3; Go p; Go p].
Definition whole_read (p : nat) : list (event nat nat) := [Call p MRead; Go p; Go p; Go p].
Definition ex_end (w : world nat nat (list nat)) es := match ex_play w es with Some w' => w' | None => w end.
Lemma ex_end_ok w es : (match ex_play w es with Some _ => true | None => false end) = true -> ex_play w es = Some (ex_end w es).
Proof. unfold ex_end. destruct (ex_play w es); [auto|discriminate]. Qed.
Ltac static := let e := fresh "e" in let H := fresh "H" in intros e H; cbn in H;
  repeat (destruct H as [<-|H]; [try (intro; exact I)|]); try destruct H.

(** Two processes that write the same specifications at the same time: a reader may get
    specifications that never were *)
Theorem C68_torn_refuted : exists vis w p x, ex_hist smooth ex_world vis w /\ returns w p x /\ ~ once_current ex_compute vis x.
Proof.
  set (es := ([Tick; Call 0 MWrite; Go 0; Go 0; Put 0 2; Call 1 MWrite; Go 1; Go 1; Put 1 1; Put 0 1] ++ whole_read 2 : list (event nat nat))).
  destruct (play_history ex_compute ex_enc ex_dec smooth ex_world [ex_world] ex_world es (ex_end ex_world es)) as (vis & H).
  - constructor.
  - static.
  - apply ex_end_ok. vm_compute. reflexivity.
  - exists vis, (ex_end ex_world es), 2, [0; 7]. split; auto. split; [vm_compute; reflexivity|].
    intros (v & Hv & E). rewrite (smooth_current _ _ _ _ _ _ H v Hv) in E. vm_compute in E. discriminate.
Qed.
(** A change of the user file is not seen: a new process reads the specifications of the former one *)
Definition user_calm (w : world nat nat (list nat)) (e : event nat nat) : Prop :=
  match e with Edit _ _ => False | EditUser _ => forall p, ~ in_call w p | _ => True end.
Lemma hist_split (ok : world nat nat (list nat) -> event nat nat -> Prop) es1 e es2 : 
  (match ex_play ex_world es1 with Some _ => true | None => false end) = true ->
  (match step ex_compute ex_enc ex_dec (ex_end ex_world es1) e with Some w => match ex_play w es2 with Some _ => true | None => false end | None => false end) = true ->
  (forall x, In x (es1 ++ es2) -> forall v, with0 ok v x) -> with0 ok (ex_end ex_world es1) e ->
  exists vis, ex_hist (both one_writer ok) ex_world vis (ex_end ex_world (es1 ++ e :: es2)).
Proof.
  intros H1 H2 Ha He.
  destruct (play_history ex_compute ex_enc ex_dec (with0 ok) ex_world [ex_world] ex_world es1 (ex_end ex_world es1)) as (vis & H).
  - constructor.
  - intros x Hx v. apply Ha. apply in_or_app. now left.
  - now apply ex_end_ok.
  - destruct (step ex_compute ex_enc ex_dec (ex_end ex_world es1) e) as [w1|] eqn:Es; [|discriminate].
    destruct (ex_play w1 es2) as [w2|] eqn:Ep; [|discriminate].
    destruct (play_history ex_compute ex_enc ex_dec (with0 ok) ex_world (w1 :: vis) w1 es2 w2) as (vis' & H').
    + eapply h_step; eauto.
    + intros x Hx v. apply Ha. apply in_or_app. now right.
    + exact Ep.
    + exists vis'. apply with0_one; [apply ex_first|].
      assert (PA : forall l w, ex_play w (l ++ e :: es2) = match ex_play w l with Some w' => match step ex_compute ex_enc ex_dec w' e with Some w'' => ex_play w'' es2 | None => None end | None => None end).
      { clear. induction l as [|a l IH]; intro w; [reflexivity|]. cbn [play app]. destruct (step ex_compute ex_enc ex_dec w a); auto. }
      unfold ex_end at 1. rewrite PA, (ex_end_ok _ _ H1), Es, Ep. exact H'.
Qed.
Ltac static0 := let e := fresh "e" in let H := fresh "H" in intros e H; cbn in H;
  repeat (destruct H as [<-|H]; [intro; split; [let p := fresh in intro p; intro; (discriminate || congruence)|exact I]|]); try destruct H.
Theorem C68_user_stale_refuted : exists vis w w' p x, ex_hist (both one_writer user_calm) ex_world vis w /\
  p_mem (procs w p) = None /\ step ex_compute ex_enc ex_dec w (Go p) = Some w' /\ p_mem (procs w' p) = Some x /\
  x <> current ex_compute w'.
Proof.
  set (es1 := (Tick :: whole_write 0 : list (event nat nat))). set (es2 := ([Tick; Call 1 MRead; Go 1; Go 1] : list (event nat nat))).
  destruct (hist_split user_calm es1 (EditUser 8) es2) as (vis & H); [vm_compute; reflexivity|vm_compute; reflexivity| | |].
  - static0.
  - split; [intros p Hp; discriminate|]. intro p. destruct p as [|p]; intro Hp; apply Hp; vm_compute; reflexivity.
  - eexists vis, _, _, 1, [5; 7]. split; [exact H|]. repeat (split; [vm_compute; reflexivity|]). vm_compute. discriminate.
Qed.
(** So is an edit of the default file that keeps an old date *)
Definition undated (w : world nat nat (list nat)) (e : event nat nat) : Prop :=
  match e with Edit _ _ => forall p, ~ in_call w p | EditUser _ => False | _ => True end.
Theorem C68_old_date_refuted : exists vis w w' p x, ex_hist (both one_writer undated) ex_world vis w /\
  p_mem (procs w p) = None /\ step ex_compute ex_enc ex_dec w (Go p) = Some w' /\ p_mem (procs w' p) = Some x /\
  x <> current ex_compute w'.
Proof.
  set (es1 := (Tick :: whole_write 0 : list (event nat nat))). set (es2 := ([Tick; Call 1 MRead; Go 1; Go 1] : list (event nat nat))).
  destruct (hist_split undated es1 (Edit 6 0) es2) as (vis & H); [vm_compute; reflexivity|vm_compute; reflexivity| | |].
  - static0.
  - split; [intros p Hp; discriminate|]. intro p. destruct p as [|p]; intro Hp; apply Hp; vm_compute; reflexivity.
  - eexists vis, _, _, 1, [5; 7]. split; [exact H|]. repeat (split; [vm_compute; reflexivity|]). vm_compute. discriminate.
Qed.
(** And an edit that happens while a process computes the specifications it is going to write, even
    if the next process only starts long after *)
Definition dated (w : world nat nat (list nat)) (e : event nat nat) : Prop :=
  match e with Edit _ t => t = now w | EditUser _ => False | _ => True end.
Theorem C68_edit_race_refuted n : exists vis w w' p x, ex_hist (both one_writer dated) ex_world vis w /\ n <= now w /\
  p_mem (procs w p) = None /\ step ex_compute ex_enc ex_dec w (Go p) = Some w' /\ p_mem (procs w' p) = Some x /\
  x <> current ex_compute w'.
Proof.
  set (es1 := ([Tick; Call 0 MWrite; Go 0] : list (event nat nat))). set (e := Edit 6 1 : event nat nat). set (es2 := ([Tick; Go 0; Put 0 3; Go 0; Go 0] : list (event nat nat))).
  destruct (play_history ex_compute ex_enc ex_dec (with0 dated) ex_world [ex_world] ex_world es1 (ex_end ex_world es1)) as (vis & H).
  - constructor.
  - static0.
  - apply ex_end_ok. vm_compute. reflexivity.
  - assert (HT : forall k w1 vis1, ex_hist (with0 dated) ex_world vis1 w1 -> exists vis2,
        ex_hist (with0 dated) ex_world vis2 (mkworld (dflt w1) (dtime w1) (user w1) (link w1) (inodes w1) (k + now w1) (procs w1))).
    { induction k as [|k IH]; intros w1 vis1 Hh; [exists vis1; now destruct w1|]. destruct (IH w1 vis1 Hh) as (vis2 & H2).
      eexists. eapply h_step with (e := Tick); [exact H2| |reflexivity]. split; [intros p Hp; discriminate|exact I]. }
    assert (H1 : ex_hist (with0 dated) ex_world (ex_end (ex_end ex_world es1) [e] :: vis) (ex_end (ex_end ex_world es1) [e])).
    { eapply h_step with (e := e); [exact H| |reflexivity]. split; [intros p Hp; discriminate|vm_compute; reflexivity]. }
    destruct (play_history ex_compute ex_enc ex_dec (with0 dated) ex_world _ _ es2 (ex_end (ex_end (ex_end ex_world es1) [e]) es2) H1) as (vis2 & H2).
    { static0. }
    { apply ex_end_ok. vm_compute. reflexivity. }
    destruct (HT n _ _ H2) as (vis3 & H3).
    match type of H3 with history _ _ _ _ _ _ ?w => set (w3 := w) in H3 end.
    destruct (play_history ex_compute ex_enc ex_dec (with0 dated) ex_world _ w3 [Call 1 MRead; Go 1; Go 1] (ex_end w3 [Call 1 MRead; Go 1; Go 1]) H3) as (vis4 & H4).
    { static0. }
    { apply ex_end_ok. vm_compute. reflexivity. }
    eexists vis4, _, _, 1, [5; 7]. split; [apply with0_one; [apply ex_first|exact H4]|].
    split; [match goal with |- n <= ?t => assert (N : t = n + 2) by (vm_compute; reflexivity) end; rewrite N; lia|]. repeat (split; [vm_compute; reflexivity|]). vm_compute. discriminate.
Qed.
(** A file that is removed at the wrong time makes get_cf_specs fail, in a reader... *)
Theorem C68_vanish_refuted : exists vis w p, ex_hist (both one_writer calm) ex_world vis w /\ fails w p.
Proof.
  set (es := ((Tick :: whole_write 0) ++ [Call 1 MRead; Go 1; Call 2 MClean; Go 2; Go 2; Go 2; Go 1] : list (event nat nat))).
  destruct (play_history ex_compute ex_enc ex_dec (with0 calm) ex_world [ex_world] ex_world es (ex_end ex_world es)) as (vis & H).
  - constructor.
  - static0.
  - apply ex_end_ok. vm_compute. reflexivity.
  - exists vis, (ex_end ex_world es), 1. split; [apply with0_one; [apply ex_first|exact H]|]. vm_compute. reflexivity.
Qed.
(** ... and in another process that cleans *)
Theorem C68_clean_refuted : exists vis w p, ex_hist (both one_writer calm) ex_world vis w /\ fails w p /\ forall q, p_at (procs w q) <> AtStat.
Proof.
  set (es := ((Tick :: whole_write 0) ++ [Call 1 MClean; Go 1; Go 1; Call 2 MClean; Go 2; Go 2; Go 2; Go 1] : list (event nat nat))).
  destruct (play_history ex_compute ex_enc ex_dec (with0 calm) ex_world [ex_world] ex_world es (ex_end ex_world es)) as (vis & H).
  - constructor.
  - static0.
  - apply ex_end_ok. vm_compute. reflexivity.
  - exists vis, (ex_end ex_world es), 1. split; [apply with0_one; [apply ex_first|exact H]|]. split; [vm_compute; reflexivity|].
    intros [|[|[|q]]]; vm_compute; discriminate.
Qed.

(** ** Cases that meet the hypotheses: a writer that is killed after two bytes, then a reader, which
    computes; a writer that ends, then a reader, which reads *)
Example ex68_crash : exists vis w, ex_hist (both one_writer calm) ex_world vis w /\
  file_of w = Some (mkino 1 [2; 5]) /\ p_at (procs w 1) = AtCompute MRead /\ p_mem (procs w 1) = None.
Proof.
  set (es := ([Tick; Call 0 MWrite; Go 0; Go 0; Put 0 2; Crash 0; Call 1 MRead; Go 1; Go 1; Go 1] : list (event nat nat))).
  destruct (play_history ex_compute ex_enc ex_dec (with0 calm) ex_world [ex_world] ex_world es (ex_end ex_world es)) as (vis & H).
  - constructor.
  - static0.
  - apply ex_end_ok. vm_compute. reflexivity.
  - exists vis, (ex_end ex_world es). split; [apply with0_one; [apply ex_first|exact H]|]. repeat split; vm_compute; reflexivity.
Qed.
Example ex68_read : exists vis w, ex_hist (both one_writer calm) ex_world vis w /\ returns w 1 [5; 7] /\
  file_of w = Some (mkino 1 [2; 5; 7]).
Proof.
  set (es := ((Tick :: whole_write 0) ++ whole_read 1 : list (event nat nat))).
  destruct (play_history ex_compute ex_enc ex_dec (with0 calm) ex_world [ex_world] ex_world es (ex_end ex_world es)) as (vis & H).
  - constructor.
  - static0.
  - apply ex_end_ok. vm_compute. reflexivity.
  - exists vis, (ex_end ex_world es). split; [apply with0_one; [apply ex_first|exact H]|]. repeat split; vm_compute; reflexivity.
Qed.
(** Two writers at the same time that end: the file is right *)
Example ex68_two : exists vis w, ex_hist smooth ex_world vis w /\ (forall q, ~ writing w q) /\
  file_of w = Some (mkino 1 [2; 5; 7]).
Proof.
  set (es := ([Tick; Call 0 MWrite; Go 0; Go 0; Put 0 2; Call 1 MWrite; Go 1; Go 1; Put 1 1; Put 0 1; Go 0; Put 1 2; Go 1] : list (event nat nat))).
  destruct (play_history ex_compute ex_enc ex_dec smooth ex_world [ex_world] ex_world es (ex_end ex_world es)) as (vis & H).
  - constructor.
  - static.
  - apply ex_end_ok. vm_compute. reflexivity.
  - exists vis, (ex_end ex_world es). split; auto. split; [|vm_compute; reflexivity].
    intros q (i & rest & off & x & Hq). destruct q as [|[|q]]; vm_compute in Hq; discriminate.
Qed.
