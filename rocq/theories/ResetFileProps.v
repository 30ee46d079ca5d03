(** C55: resetting a configuration file *)
From Verif Require Import ResetFile PyDictFacts PyReFacts.
Open Scope string_scope.

(** The states after a crash: some of the steps were done. *)
Definition crash (f : fs) (l : list step) (f' : fs) : Prop := exists n, f' = run f (firstn n l).

Definition path_of (s : step) : string := match s with Empty p | Put p _ | Remove p => p end.
Lemma dget_ddel {V} (d : dict V) k k' : dget (ddel d k) k' = if (k' =? k)%string then None else dget d k'.
Proof.
  unfold ddel. rewrite (dget_filter (fun x => negb (String.eqb k x))). rewrite (String.eqb_sym k k').
  now destruct (k' =? k)%string.
Qed.
Lemma step_other s f p : path_of s <> p -> dget (do_step f s) p = dget f p.
Proof.
  intro N. destruct s; cbn in *; rewrite ?dget_dset, ?dget_ddel; destruct (String.eqb_spec p path); congruence.
Qed.
Lemma run_other l : forall f p, (forall s, In s l -> path_of s <> p) -> dget (run f l) p = dget f p.
Proof. unfold run. induction l as [|s l IH]; intros f p H; cbn; auto. rewrite IH by (intros; apply H; now right). apply step_other, H. now left. Qed.
Lemma run_puts p c : forall f x, dget f p = Some x -> dget (run f (map (Put p) c)) p = Some (x ++ c)%list.
Proof.
  induction c as [|b c IH]; intros f x H; cbn.
  - now rewrite app_nil_r.
  - unfold run in IH. rewrite (IH _ (x ++ [b])%list); [now rewrite <- app_assoc|]. now rewrite H, dget_dset, String.eqb_refl.
Qed.
Lemma run_write p c f : dget (run f (write p c)) p = Some c.
Proof. unfold write. cbn. apply (run_puts p c _ []). now rewrite dget_dset, String.eqb_refl. Qed.
Lemma run_app f l1 l2 : run f (l1 ++ l2) = run (run f l1) l2.
Proof. apply fold_left_app. Qed.
Lemma write_path p c s : In s (write p c) -> path_of s = p.
Proof. intros [<-|H]; auto. apply in_map_iff in H. destruct H as (b & <- & _). reflexivity. Qed.
Lemma bak_neq p : p ++ ".bak" <> p.
Proof. intro E. apply (f_equal String.length) in E. rewrite slen_app in E. cbn in E. lia. Qed.

(** Afterwards the file holds the default configuration, the backup what the file held, and
    the other files are as they were. *)
Theorem C55_done f file backup d l : reset f file backup (Ok d) = Ok l ->
  let f' := run f l in
  dget f' file = Some d /\
  dget f' (file ++ ".bak") = (match dget f file with Some old => if backup then Some old else dget f (file ++ ".bak") | None => dget f (file ++ ".bak") end) /\
  (forall p, p <> file -> p <> file ++ ".bak" -> dget f' p = dget f p) /\
  (backup_said f file backup = true -> dget f' (file ++ ".bak") = dget f file).
Proof.
  unfold reset. cbn [bind]. intro H. injection H as <-. cbn zeta. assert (N := bak_neq file).
  assert (R : forall p g, p <> file -> dget (run g (write file d)) p = dget g p) by (intros p g Hp; apply run_other; intros s I E; apply write_path in I; congruence).
  assert (Main : dget (run f ((match dget f file with Some old => (if backup then write (file ++ ".bak") old else []) ++ [Remove file] | None => [] end) ++ write file d)%list) (file ++ ".bak")
       = (match dget f file with Some old => if backup then Some old else dget f (file ++ ".bak") | None => dget f (file ++ ".bak") end)).
  { rewrite run_app, R by auto. destruct (dget f file) as [old|]; auto. rewrite run_app. cbn [run fold_left do_step]. rewrite dget_ddel.
    destruct (String.eqb_spec (file ++ ".bak") file); [congruence|]. destruct backup; auto. apply run_write. }
  split; [|split; [|split]].
  - rewrite run_app. apply run_write.
  - exact Main.
  - intros p N1 N2. rewrite run_app, R by auto. destruct (dget f file) as [old|]; auto. apply run_other. intros s I E. apply in_app_iff in I. destruct I as [I|[<-|[]]].
    + destruct backup; [|destruct I]. apply write_path in I. congruence.
    + cbn in E. congruence.
  - unfold backup_said, dmem. destruct (dget f file) eqn:E; cbn [andb]; [|discriminate]. intros ->. exact Main.
Qed.
(** When the default configuration can not be computed, nothing is done. *)
Theorem C55_failed f file backup e : reset f file backup (Raise e) = Raise e.
Proof. reflexivity. Qed.
(** At any crash point the old configuration is in the file or in its backup, and no other file
    is touched. *)
Theorem C55_crash f file old d l f' : dget f file = Some old -> reset f file true (Ok d) = Ok l -> crash f l f' ->
  (dget f' file = Some old \/ dget f' (file ++ ".bak") = Some old) /\
  (forall p, p <> file -> p <> file ++ ".bak" -> dget f' p = dget f p).
Proof.
  intros Hf H [n ->]. unfold reset in H. rewrite Hf in H. cbn [bind] in H. injection H as <-. assert (N := bak_neq file).
  set (w := write (file ++ ".bak") old). set (rest := ([Remove file] ++ write file d)%list).
  assert (E : ((w ++ [Remove file]) ++ write file d)%list = (w ++ rest)%list) by (unfold rest; now rewrite <- app_assoc).
  match goal with |- context [firstn n ?x] => change x with ((w ++ [Remove file]) ++ write file d)%list end.
  rewrite E. clear E. rewrite firstn_app, run_app.
  assert (Pw : forall s, In s (firstn n w) -> path_of s = file ++ ".bak").
  { intros s I. apply (write_path _ old). rewrite <- (firstn_skipn n (write (file ++ ".bak") old)). apply in_app_iff. now left. }
  assert (Pr : forall k s, In s (firstn k rest) -> path_of s = file).
  { intros k s I. assert (I2 : In s rest) by (rewrite <- (firstn_skipn k rest); apply in_app_iff; now left).
    unfold rest in I2. destruct I2 as [<-|I2]; [reflexivity|]. now apply write_path in I2. }
  split.
  - destruct (Nat.le_gt_cases n (List.length w)) as [L|L].
    + left. replace (n - List.length w)%nat with 0%nat by lia. cbn [firstn run fold_left]. rewrite run_other; auto. intros s I E. apply Pw in I. congruence.
    + right. rewrite run_other by (intros s I E; apply Pr in I; congruence). rewrite firstn_all2 by lia. apply run_write.
  - intros p N1 N2. rewrite run_other by (intros s I E; apply Pr in I; congruence). apply run_other. intros s I E. apply Pw in I. congruence.
Qed.
(** False: without a backup either.  A crash after the removal leaves no trace of the file. *)
Theorem C55_nobackup_refuted f file old d l : dget f file = Some old -> reset f file false (Ok d) = Ok l ->
  exists f', crash f l f' /\ dget f' file = None /\ forall p, p <> file -> dget f' p = dget f p.
Proof.
  intros Hf H. unfold reset in H. rewrite Hf in H. cbn [bind List.app] in H. injection H as <-. exists (ddel f file). split; [exists 1%nat; reflexivity|].
  split; [rewrite dget_ddel, String.eqb_refl; reflexivity|]. intros p N. rewrite dget_ddel. destruct (String.eqb_spec p file); congruence.
Qed.
(** False: the backup keeps what the user wrote.  A second reset replaces it with the defaults. *)
Theorem C55_twice_refuted f file old d l1 l2 : dget f file = Some old ->
  reset f file true (Ok d) = Ok l1 -> reset (run f l1) file true (Ok d) = Ok l2 ->
  dget (run (run f l1) l2) file = Some d /\ dget (run (run f l1) l2) (file ++ ".bak") = Some d.
Proof.
  intros Hf H1 H2. destruct (C55_done _ _ _ _ _ H1) as (A & _). destruct (C55_done _ _ _ _ _ H2) as (B & C & _). rewrite A in C. auto.
Qed.
Example ex_reset : exists l, reset [("a.cfg", ["x"; "y"]%char); ("b", [])] "a.cfg" true (Ok ["d"%char]) = Ok l /\
  run [("a.cfg", ["x"; "y"]%char); ("b", [])] l = [("b", []); ("a.cfg.bak", ["x"; "y"]%char); ("a.cfg", ["d"%char])] /\
  crash [("a.cfg", ["x"; "y"]%char); ("b", [])] l [("a.cfg", ["x"; "y"]%char); ("b", []); ("a.cfg.bak", ["x"%char])].
Proof. eexists. split; [reflexivity|]. split; [reflexivity|]. exists 2%nat. reflexivity. Qed.
