(** Lemmas for C68. *)
From Verif Require Export CFDiskSpec.
From Coq Require Import List Arith Lia Bool.
Import ListNotations.
Open Scope nat_scope.

(** ** Files *)
Lemma set_nth_length {A} i (a : A) l : List.length (set_nth i a l) = List.length l.
Proof. revert i. induction l as [|x l IH]; intros [|i]; cbn; auto. Qed.
Lemma set_nth_same {A} i (a : A) l : i < List.length l -> nth_error (set_nth i a l) i = Some a.
Proof. revert i. induction l as [|x l IH]; intros [|i] H; cbn in *; auto; try lia. apply IH. lia. Qed.
Lemma set_nth_other {A} i j (a : A) l : j <> i -> nth_error (set_nth i a l) j = nth_error l j.
Proof. revert i j. induction l as [|x l IH]; intros [|i] [|j] H; cbn; auto; try lia. Qed.
Lemma set_nth_cases {A} i j (a f : A) l : nth_error (set_nth i a l) j = Some f -> (j = i /\ f = a) \/ (j <> i /\ nth_error l j = Some f).
Proof.
  intro H. destruct (Nat.eq_dec j i) as [->|N].
  - left. split; auto. rewrite set_nth_same in H; [congruence|].
    rewrite <- (set_nth_length i a). apply nth_error_Some. congruence.
  - right. split; auto. rewrite set_nth_other in H by auto. exact H.
Qed.
Lemma app1_cases {A} j (a f : A) l : nth_error (l ++ [a]) j = Some f -> (j = List.length l /\ f = a) \/ (j < List.length l /\ nth_error l j = Some f).
Proof.
  intro H. destruct (Nat.lt_ge_cases j (List.length l)) as [L|L].
  - right. split; auto. now rewrite nth_error_app1 in H.
  - left. rewrite nth_error_app2 in H by auto. destruct (j - List.length l) as [|k] eqn:E; cbn in H.
    + split; [lia|congruence].
    + destruct k; discriminate.
Qed.
Lemma firstn_snoc {A} (l : list A) off n : firstn off l ++ firstn n (skipn off l) = firstn (off + n) l.
Proof. revert l. induction off as [|off IH]; intros [|x l]; cbn; auto; [now rewrite firstn_nil|]. now rewrite IH. Qed.
Lemma skipn_skipn' {A} (l : list A) off n : skipn n (skipn off l) = skipn (off + n) l.
Proof. revert l. induction off as [|off IH]; intros [|x l]; cbn; auto; now rewrite skipn_nil. Qed.
(** Writing at the end *)
Lemma write_at_end chunk bytes : write_at (List.length bytes) chunk bytes = bytes ++ chunk.
Proof.
  unfold write_at. rewrite Nat.sub_diag. cbn [repeat]. rewrite app_nil_r, firstn_all.
  rewrite skipn_all2 by lia. now rewrite app_nil_r.
Qed.
Lemma write_at_length off chunk bytes : List.length (write_at off chunk bytes) = Nat.max (off + List.length chunk) (List.length bytes).
Proof.
  unfold write_at. rewrite !app_length, firstn_length, app_length, repeat_length, skipn_length. lia.
Qed.
Lemma write_at_nth off chunk bytes j : off <= List.length bytes \/ off <= j ->
  nth_error (write_at off chunk bytes) j =
    if j <? off then nth_error bytes j else if j <? off + List.length chunk then nth_error chunk (j - off) else nth_error bytes j.
Proof.
  intro H. unfold write_at.
  assert (LF : List.length (firstn off (bytes ++ repeat 0 (off - List.length bytes))) = off).
  { rewrite firstn_length, app_length, repeat_length. lia. }
  destruct (Nat.ltb_spec j off) as [L|L].
  - rewrite nth_error_app1 by lia. destruct H as [H|H]; [|lia].
    replace (off - List.length bytes) with 0 by lia. cbn [repeat]. rewrite app_nil_r.
    rewrite <- (firstn_skipn off bytes) at 2. rewrite nth_error_app1; auto. rewrite firstn_length. lia.
  - rewrite nth_error_app2 by lia. rewrite LF. destruct (Nat.ltb_spec j (off + List.length chunk)) as [L2|L2].
    + rewrite nth_error_app1 by lia. reflexivity.
    + rewrite nth_error_app2 by lia.
      assert (HS : forall k (l : list nat) m, nth_error (skipn k l) m = nth_error l (k + m)).
      { clear. induction k as [|k IH]; intros [|x l] m; cbn; auto. now destruct m. }
      rewrite HS. f_equal. lia.
Qed.

Section Inv.
Context {D U X : Type}.
Variable compute : D -> U -> X.
Variable enc : X -> list nat.
Variable dec : list nat -> option X.
Hypothesis HC : codec enc dec.
Notation W := (world D U X).
Notation cur := (current compute).
Notation stepc := (step compute enc dec).

Lemma once_mono vis (w : W) x : once_current compute vis x -> once_current compute (w :: vis) x.
Proof. intros (v & Hv & E). exists v. split; auto. now right. Qed.
Lemma visited_head ok w0 vis (w : W) : history compute enc dec ok w0 vis w -> exists l, vis = w :: l.
Proof. intro H. destruct H; eauto. Qed.
Lemma pset_same (f : nat -> proc X) p v : pset f p v p = v.
Proof. unfold pset. now rewrite Nat.eqb_refl. Qed.
Lemma pset_cases (f : nat -> proc X) p v q : (q = p /\ pset f p v q = v) \/ (q <> p /\ pset f p v q = f q).
Proof. unfold pset. destruct (Nat.eqb_spec q p); auto. Qed.

Definition phase_has (ph : phase X) : option X :=
  match ph with
  | AtOpen x | AtWrite _ _ _ x | AtCleanExists x | AtCleanRemove x | AtReturn (Returned x) => Some x
  | _ => None
  end.
Record inv (P : X -> Prop) (w : W) : Prop := mkinv {
  v_mem : forall q x, p_mem (procs w q) = Some x -> P x;
  v_phase : forall q x, phase_has (p_at (procs w q)) = Some x -> P x;
  v_file : forall i f y, nth_error (inodes w) i = Some f -> dec (i_bytes f) = Some y -> P y;
  v_write : forall q i rest off x, p_at (procs w q) = AtWrite i rest off x ->
    exists f, nth_error (inodes w) i = Some f /\ i_bytes f = firstn off (enc x) /\ rest = skipn off (enc x) /\ off <= List.length (enc x);
  v_one : forall p q, writing w p -> writing w q -> p = q;
  v_link : forall i, link w = Some i -> i < List.length (inodes w) }.

Lemma inv_mono (P Q : X -> Prop) w : (forall x, P x -> Q x) -> inv P w -> inv Q w.
Proof. intros H [A B C E F G]. constructor; eauto. Qed.
Lemma prefix_ok (P : X -> Prop) x n y : P x -> dec (firstn n (enc x)) = Some y -> P y.
Proof.
  intros Hx H. destruct HC as [H1 H2]. destruct (Nat.lt_ge_cases n (List.length (enc x))) as [L|L].
  - rewrite H2 in H by auto. discriminate.
  - rewrite firstn_all2 in H by auto. rewrite H1 in H. congruence.
Qed.
(** A process moves, the files do not *)
Lemma inv_move P w p mem ph : inv P w -> (forall x, mem = Some x -> P x) -> (forall x, phase_has ph = Some x -> P x) ->
  (forall i rest off x, ph <> AtWrite i rest off x) -> inv P (set_proc w p mem ph).
Proof.
  intros [A B C E F G] Hm Hp Hn. constructor; cbn [procs set_proc inodes].
  - intros q x. destruct (pset_cases (procs w) p (mkproc mem ph) q) as [[-> ->]|[_ ->]]; cbn [p_mem]; eauto.
  - intros q x. destruct (pset_cases (procs w) p (mkproc mem ph) q) as [[-> ->]|[_ ->]]; cbn [p_at]; eauto.
  - exact C.
  - intros q i rest off x. destruct (pset_cases (procs w) p (mkproc mem ph) q) as [[-> ->]|[_ ->]]; cbn [p_at]; [|eauto].
    intro H. now destruct (Hn i rest off x).
  - assert (HW : forall q, writing (set_proc w p mem ph) q -> writing w q).
    { intros q (i & rest & off & x & H). cbn [procs set_proc] in H.
      destruct (pset_cases (procs w) p (mkproc mem ph) q) as [[-> Eq]|[_ Eq]]; rewrite Eq in H; cbn [p_at] in H.
      - now destruct (Hn i rest off x).
      - now exists i, rest, off, x. }
    intros p' q' H1 H2. auto.
  - exact G.
Qed.
(** The link goes *)
Lemma inv_unlink P w : inv P w -> inv P (set_file w None (inodes w)).
Proof. intros [A B C E F G]. constructor; auto. discriminate. Qed.

Lemma file_of_in (w : W) f : file_of w = Some f -> exists i, link w = Some i /\ nth_error (inodes w) i = Some f.
Proof. unfold file_of. destruct (link w) as [i|]; [eauto|discriminate]. Qed.
(** Opening for writing, when nobody writes *)
Lemma inv_open P w p mem x is i f0 : inv P w -> (forall q, ~ writing w q) -> P x -> (forall y, mem = Some y -> P y) ->
  nth_error is i = Some f0 -> i_bytes f0 = [] ->
  (forall j f, nth_error is j = Some f -> j = i \/ nth_error (inodes w) j = Some f) ->
  inv P (set_proc (set_file w (Some i) is) p mem (AtWrite i (enc x) 0 x)).
Proof.
  intros [A B C E F G] Hn Hx Hm Hi Hb Ho. constructor; cbn [procs set_proc set_file inodes].
  - intros q y. destruct (pset_cases (procs w) p (mkproc mem (AtWrite i (enc x) 0 x)) q) as [[-> ->]|[_ ->]]; cbn [p_mem]; eauto.
  - intros q y. destruct (pset_cases (procs w) p (mkproc mem (AtWrite i (enc x) 0 x)) q) as [[-> ->]|[_ ->]]; cbn [p_at phase_has]; [congruence|eauto].
  - intros j f y Hj Hd. destruct (Ho j f Hj) as [->|H]; [|eauto]. rewrite Hj in Hi. injection Hi as ->.
    rewrite Hb in Hd. apply (prefix_ok P x 0); auto.
  - intros q j rest off y H. destruct (pset_cases (procs w) p (mkproc mem (AtWrite i (enc x) 0 x)) q) as [[-> Eq]|[_ Eq]]; rewrite Eq in H; cbn [p_at] in H.
    + injection H as <- <- <- <-. exists f0. repeat split; auto. lia.
    + destruct (Hn q). now exists j, rest, off, y.
  - assert (HW : forall q, writing (set_proc (set_file w (Some i) is) p mem (AtWrite i (enc x) 0 x)) q -> q = p).
    { intros q (j & rest & off & y & H). cbn [procs set_proc set_file] in H.
      destruct (pset_cases (procs w) p (mkproc mem (AtWrite i (enc x) 0 x)) q) as [[-> Eq]|[_ Eq]]; auto. rewrite Eq in H.
      destruct (Hn q). now exists j, rest, off, y. }
    intros p' q' H1 H2. rewrite (HW _ H1), (HW _ H2). reflexivity.
  - cbn [link]. intros j Hj. injection Hj as <-. apply nth_error_Some. congruence.
Qed.
Lemma inv_put P w p i rest off x f n : inv P w -> p_at (procs w p) = AtWrite i rest off x -> nth_error (inodes w) i = Some f ->
  inv P (set_proc (set_file w (link w) (set_nth i (mkino (now w) (write_at off (firstn n rest) (i_bytes f))) (inodes w)))
     p (p_mem (procs w p)) (AtWrite i (skipn n rest) (off + List.length (firstn n rest)) x)).
Proof.
  intros I Hp Hf. assert (I0 := I). destruct I as [A B C E F G].
  destruct (E _ _ _ _ _ Hp) as (f' & Hf' & Hb & Hr & Ho). rewrite Hf in Hf'. injection Hf' as <-.
  assert (Hx : P x) by (apply (B p); now rewrite Hp).
  assert (HL : List.length (i_bytes f) = off) by (rewrite Hb, firstn_length; lia).
  assert (HW : write_at off (firstn n rest) (i_bytes f) = firstn (off + List.length (firstn n rest)) (enc x)).
  { rewrite <- HL at 1. rewrite write_at_end, Hb, Hr, firstn_snoc. rewrite firstn_length, skipn_length.
    destruct (Nat.le_ge_cases n (List.length (enc x) - off)) as [L|L].
    - now rewrite Nat.min_l by auto.
    - rewrite Nat.min_r by auto. rewrite !firstn_all2 by lia. reflexivity. }
  assert (LI : i < List.length (inodes w)) by (apply nth_error_Some; congruence).
  set (ph := AtWrite i (skipn n rest) (off + List.length (firstn n rest)) x).
  constructor; cbn [procs set_proc set_file inodes].
  - intros q y. destruct (pset_cases (procs w) p (mkproc (p_mem (procs w p)) ph) q) as [[-> ->]|[_ ->]]; cbn [p_mem]; eauto.
  - intros q y. destruct (pset_cases (procs w) p (mkproc (p_mem (procs w p)) ph) q) as [[-> ->]|[_ ->]]; cbn [p_at]; [|eauto].
    cbn. congruence.
  - intros j g y Hj Hd. apply set_nth_cases in Hj. destruct Hj as [[_ ->]|[_ Hj]]; [|eauto].
    cbn [i_bytes] in Hd. rewrite HW in Hd. apply (prefix_ok P x) in Hd; auto.
  - intros q j rest' off' y H. destruct (pset_cases (procs w) p (mkproc (p_mem (procs w p)) ph) q) as [[-> Eq]|[N Eq]]; rewrite Eq in H; cbn [p_at] in H.
    + injection H as <- <- <- <-. eexists. split; [apply set_nth_same; auto|]. cbn [i_bytes]. split; auto. split.
      * rewrite Hr at 1. rewrite skipn_skipn', firstn_length. rewrite Hr, skipn_length.
        destruct (Nat.le_ge_cases n (List.length (enc x) - off)) as [L|L].
        -- now rewrite Nat.min_l by auto.
        -- rewrite Nat.min_r by auto. rewrite !skipn_all2 by lia. reflexivity.
      * rewrite firstn_length, Hr, skipn_length. lia.
    + exfalso. apply N. apply F; [now exists j, rest', off', y|now exists i, rest, off, x].
  - assert (HV : forall q, writing (set_proc (set_file w (link w) (set_nth i (mkino (now w) (write_at off (firstn n rest) (i_bytes f))) (inodes w))) p (p_mem (procs w p)) ph) q -> q = p).
    { intros q (j & rest' & off' & y & H). cbn [procs set_proc set_file] in H.
      destruct (pset_cases (procs w) p (mkproc (p_mem (procs w p)) ph) q) as [[-> Eq]|[N Eq]]; auto. rewrite Eq in H.
      apply F; [now exists j, rest', off', y|now exists i, rest, off, x]. }
    intros p' q' H1 H2. rewrite (HV _ H1), (HV _ H2). reflexivity.
  - cbn [link]. intros j Hj. rewrite set_nth_length. now apply G.
Qed.
Lemma finish_has m (x : X) : phase_has (finish m x) = Some x.
Proof. destruct m; reflexivity. Qed.
Lemma finish_not m (x : X) i rest off y : finish m x <> AtWrite i rest off y.
Proof. destruct m; discriminate. Qed.

Lemma inv_step P w e w' : inv P w -> one_writer w e -> P (cur w) -> stepc w e = Some w' -> inv P w'.
Proof.
  intros I Ho Hc H. assert (I0 := I). destruct I as [A B C E F G].
  destruct e as [p m|p|p n|p|p|d t|u|]; cbn [step] in H.
  - destruct (p_at (procs w p)) eqn:Ep; try discriminate. injection H as <-. apply inv_move; auto.
    + intros x Hx. eapply A; eauto.
    + destruct (p_mem (procs w p)) as [x|] eqn:Em.
      * intros y Hy. rewrite finish_has in Hy. injection Hy as <-. eapply A; eauto.
      * destruct m; discriminate.
    + destruct (p_mem (procs w p)) as [x|]; [intros; apply finish_not|]. destruct m; discriminate.
  - unfold go in H. assert (Hm : forall x, p_mem (procs w p) = Some x -> P x) by (intros x Hx; eapply A; eauto).
    assert (Hq : forall x, phase_has (p_at (procs w p)) = Some x -> P x) by (intros x Hx; eapply B; eauto).
    destruct (p_at (procs w p)) as [| | | |m|x|i rest off x|x|x|r] eqn:Ep; try discriminate; cbn [phase_has] in Hq.
    + injection H as <-. destruct (file_of w); (apply inv_move; auto; discriminate).
    + injection H as <-. destruct (file_of w) as [f|]; [destruct (dtime w <? i_time f)|]; (apply inv_move; auto; discriminate).
    + destruct (file_of w) as [f|] eqn:Ef; [|injection H as <-; apply inv_move; auto; discriminate].
      destruct (dec (i_bytes f)) as [x|] eqn:Ed; injection H as <-; (apply inv_move; auto; try discriminate).
      * intros y Hy. injection Hy as <-. destruct (file_of_in w f Ef) as (i & _ & Hi). eapply C; eauto.
      * intros y Hy. injection Hy as <-. destruct (file_of_in w f Ef) as (i & _ & Hi). eapply C; eauto.
    + injection H as <-. apply inv_move; auto.
      * intros y Hy. injection Hy as <-. exact Hc.
      * intros y Hy. assert (EY : y = cur w) by (unfold current; destruct m; cbn in Hy; congruence). now subst.
      * intros. destruct m; discriminate.
    + assert (Hn := Ho p x eq_refl Ep). destruct (link w) as [i|] eqn:El; injection H as <-.
      * destruct (nth_error (inodes w) i) as [f|] eqn:Ei.
        -- eapply inv_open; eauto.
           ++ apply set_nth_same. apply nth_error_Some. congruence.
           ++ reflexivity.
           ++ intros j g Hj. apply set_nth_cases in Hj. destruct Hj as [[-> _]|[_ Hj]]; auto.
        -- exfalso. apply nth_error_None in Ei. specialize (G i eq_refl). lia.
      * eapply inv_open; eauto.
        -- rewrite nth_error_app2 by lia. now rewrite Nat.sub_diag.
        -- reflexivity.
        -- intros j g Hj. apply app1_cases in Hj. destruct Hj as [[-> _]|[_ Hj]]; auto.
    + destruct rest; [|discriminate]. injection H as <-. apply inv_move; auto. discriminate.
    + injection H as <-. destruct (file_of w); (apply inv_move; auto; discriminate).
    + injection H as <-. destruct (file_of w); (apply inv_move; auto; try discriminate). now apply inv_unlink.
    + injection H as <-. apply inv_move; auto; discriminate.
  - destruct (p_at (procs w p)) as [| | | | | |i rest off x| | |] eqn:Ep; try discriminate.
    destruct (nth_error (inodes w) i) as [f|] eqn:Ei; [|discriminate]. injection H as <-. now apply inv_put.
  - destruct (p_at (procs w p)) as [| | | | |x|i rest off x| | |] eqn:Ep; try discriminate; injection H as <-.
    + apply inv_move; auto; try discriminate. intros y Hy. eapply A; eauto.
    + apply inv_move; auto; try discriminate. { intros y Hy. eapply A; eauto. }
      intros y Hy. apply (B p). now rewrite Ep.
    + apply inv_move; auto; try discriminate. { intros y Hy. eapply A; eauto. }
      intros y Hy. apply (B p). now rewrite Ep.
  - injection H as <-. apply inv_move; auto; discriminate.
  - injection H as <-. constructor; auto.
  - injection H as <-. constructor; auto.
  - injection H as <-. constructor; auto.
Qed.
Lemma inv_first P w : first_world w -> inv P w.
Proof.
  intros (H1 & H2 & _ & H3). constructor.
  - intros q x. rewrite H3. discriminate.
  - intros q x. rewrite H3. discriminate.
  - intros i f y. rewrite H2. destruct i; discriminate.
  - intros q i rest off x. rewrite H3. discriminate.
  - intros p q (i & rest & off & x & H). rewrite H3 in H. discriminate.
  - rewrite H1. discriminate.
Qed.
Lemma inv_history (ok : W -> event D U -> Prop) w0 vis w : (forall w e, ok w e -> one_writer w e) -> first_world w0 ->
  history compute enc dec ok w0 vis w -> inv (once_current compute vis) w.
Proof.
  intros Hok H0 H. induction H as [|vis w e w' H IH Ho Hs].
  - now apply inv_first.
  - apply (inv_mono (once_current compute vis)); [intros; now apply once_mono|].
    eapply inv_step; eauto. destruct (visited_head _ _ _ _ H) as (l & ->). exists w. split; auto. now left.
Qed.
(** *** When edits do not overlap calls *)
Record calm_inv (w : W) : Prop := mkcalm {
  c_phase : forall q x, (p_at (procs w q) = AtOpen x \/ exists i rest off, p_at (procs w q) = AtWrite i rest off x) -> x = cur w;
  c_file : forall i f y, nth_error (inodes w) i = Some f -> dtime w < i_time f -> dec (i_bytes f) = Some y -> y = cur w;
  c_now : dtime w <= now w;
  c_times : forall i f, nth_error (inodes w) i = Some f -> i_time f <= now w;
  c_load : forall q, p_at (procs w q) = AtLoad -> dtime w < now w /\ forall f, file_of w = Some f -> dtime w < i_time f }.
Lemma calm_move w p mem ph : calm_inv w -> (forall i rest off x, ph <> AtWrite i rest off x) ->
  (forall x, ph = AtOpen x -> x = cur w) ->
  (ph = AtLoad -> dtime w < now w /\ forall f, file_of w = Some f -> dtime w < i_time f) ->
  calm_inv (set_proc w p mem ph).
Proof.
  intros [A B C E F] H1 H2 H3. constructor; cbn [procs set_proc inodes dtime now]; auto.
  - intros q x. change (cur (set_proc w p mem ph)) with (cur w).
    destruct (pset_cases (procs w) p (mkproc mem ph) q) as [[-> ->]|[_ ->]]; cbn [p_at]; [|eauto].
    intros [H|(i & rest & off & H)]; [now apply H2|now destruct (H1 i rest off x)].
  - intros q. change (file_of (set_proc w p mem ph)) with (file_of w).
    destruct (pset_cases (procs w) p (mkproc mem ph) q) as [[-> ->]|[_ ->]]; cbn [p_at]; [exact H3|exact (F q)].
Qed.
(** The files change: what is new is dated of now *)
Lemma calm_files w p mem i rest off x is l : calm_inv w -> x = cur w ->
  (forall j f, nth_error is j = Some f -> nth_error (inodes w) j = Some f \/ (i_time f = now w /\ forall y, dec (i_bytes f) = Some y -> y = x)) ->
  (forall f, l <> None -> match l with Some j => nth_error is j | None => None end = Some f -> i_time f = now w \/ file_of w = Some f) ->
  calm_inv (set_proc (set_file w l is) p mem (AtWrite i rest off x)).
Proof.
  intros [A B C E F] Hx H1 H2. set (ph := AtWrite i rest off x). constructor; cbn [procs set_proc set_file inodes dtime now]; auto.
  - intros q y. change (cur (set_proc (set_file w l is) p mem ph)) with (cur w).
    destruct (pset_cases (procs w) p (mkproc mem ph) q) as [[-> ->]|[_ ->]]; cbn [p_at]; [|eauto].
    intros [H|(i' & rest' & off' & H)]; [discriminate|]. injection H as _ _ _ <-. exact Hx.
  - intros j f y Hj Ht Hd. change (cur (set_proc (set_file w l is) p mem ph)) with (cur w).
    destruct (H1 j f Hj) as [H|[_ H]]; [eauto|]. rewrite <- Hx. auto.
  - intros j f Hj. destruct (H1 j f Hj) as [H|[H _]]; [eauto|lia].
  - intros q. destruct (pset_cases (procs w) p (mkproc mem ph) q) as [[-> ->]|[_ ->]]; cbn [p_at]; [discriminate|].
    intros Hq. destruct (F q Hq) as [F1 F2]. split; auto. intros f Hf. unfold file_of in Hf. cbn [link set_proc set_file inodes] in Hf.
    destruct l as [j|]; [|discriminate]. destruct (H2 f ltac:(discriminate) Hf) as [H|H]; [lia|auto].
Qed.
Lemma calm_step P w e w' : inv P w -> calm_inv w -> calm w e -> stepc w e = Some w' -> calm_inv w'.
Proof.
  intros I K Hc H. assert (K0 := K). destruct K as [A B C E F].
  assert (TR : forall p mem ph, (forall i rest off x, ph <> AtWrite i rest off x) -> (forall x, ph = AtOpen x -> x = cur w) -> ph <> AtLoad ->
     calm_inv (set_proc w p mem ph)).
  { intros p mem ph T1 T2 T3. apply calm_move; auto. contradiction. }
  destruct e as [p m|p|p n|p|p|d t|u|]; cbn [step] in H; cbn [calm] in Hc; try contradiction.
  - destruct (p_at (procs w p)) eqn:Ep; try discriminate. injection H as <-.
    apply TR; destruct (p_mem (procs w p)); destruct m; discriminate.
  - unfold go in H. destruct (p_at (procs w p)) as [| | | |m|x|i rest off x|x|x|r] eqn:Ep; try discriminate.
    + injection H as <-. apply TR; destruct (file_of w); discriminate.
    + injection H as <-. destruct (file_of w) as [f|] eqn:Ef; [|apply TR; discriminate].
      destruct (Nat.ltb_spec (dtime w) (i_time f)) as [L|L]; [|apply TR; discriminate].
      apply calm_move; auto; try discriminate. intros _. destruct (file_of_in w f Ef) as (i & _ & Hi). split.
      * specialize (E i f Hi). lia.
      * intros g Hg. congruence.
    + destruct (match file_of w with Some f => dec (i_bytes f) | None => None end); injection H as <-; apply TR; discriminate.
    + injection H as <-. apply TR; destruct m; try discriminate. intros x Hx. injection Hx as <-. reflexivity.
    + assert (Hx : x = cur w) by (apply (A p); now left). destruct (link w) as [i|] eqn:El; injection H as <-.
      * apply calm_files; auto.
        -- intros j f Hj. apply set_nth_cases in Hj. destruct Hj as [[-> ->]|[_ Hj]]; auto. right. split; auto.
           cbn [i_bytes]. intros y Hy. apply (prefix_ok (fun y => y = x) x 0 y eq_refl Hy).
        -- intros f _ Hf. apply set_nth_cases in Hf. destruct Hf as [[_ ->]|[N _]]; [now left|congruence].
      * apply calm_files; auto.
        -- intros j f Hj. apply app1_cases in Hj. destruct Hj as [[-> ->]|[_ Hj]]; auto. right. split; auto.
           cbn [i_bytes]. intros y Hy. apply (prefix_ok (fun y => y = x) x 0 y eq_refl Hy).
        -- intros f _ Hf. apply app1_cases in Hf. destruct Hf as [[_ ->]|[N _]]; [now left|lia].
    + destruct rest; [|discriminate]. injection H as <-. apply TR; discriminate.
    + injection H as <-. apply TR; destruct (file_of w); discriminate.
    + injection H as <-. destruct (file_of w); [|apply TR; discriminate]. apply calm_move; try discriminate.
      constructor; auto. intros q Hq. split; [apply (F q Hq)|discriminate].
    + injection H as <-. apply TR; discriminate.
  - destruct (p_at (procs w p)) as [| | | | | |i rest off x| | |] eqn:Ep; try discriminate.
    destruct (nth_error (inodes w) i) as [f|] eqn:Ei; [|discriminate]. injection H as <-.
    assert (I' := inv_put _ w p i rest off x f n (inv_mono P (fun _ => True) w (fun _ _ => Logic.I) I) Ep Ei).
    assert (Hx : x = cur w) by (apply (A p); right; eauto).
    destruct (v_write _ _ I' p i (skipn n rest) (off + List.length (firstn n rest)) x) as (f' & Hf' & Hb & _).
    { cbn [procs set_proc]. now rewrite pset_same. }
    cbn [inodes set_proc set_file] in Hf'.
    assert (LI : i < List.length (inodes w)) by (apply nth_error_Some; congruence).
    rewrite set_nth_same in Hf' by auto. injection Hf' as <-. cbn [i_bytes] in Hb.
    apply calm_files; auto.
    + intros j g Hj. apply set_nth_cases in Hj. destruct Hj as [[-> ->]|[_ Hj]]; auto. right. split; auto.
      cbn [i_bytes]. rewrite Hb. intros y Hy. now apply (prefix_ok (fun y => y = x)) in Hy.
    + intros g _ Hg. unfold file_of. destruct (link w) as [j|]; [|discriminate]. apply set_nth_cases in Hg. destruct Hg as [[_ ->]|[_ Hg]]; auto.
  - destruct (p_at (procs w p)) as [| | | | |x|i rest off x| | |] eqn:Ep; try discriminate; injection H as <-; apply TR; discriminate.
  - injection H as <-. apply TR; discriminate.
  - injection H as <-. destruct Hc as [-> Hc]. constructor; cbn [procs inodes dtime now]; auto.
    + intros q x Hq. exfalso. apply (Hc q). intro Hi. rewrite Hi in Hq. destruct Hq as [Hq|(i & rest & off & Hq)]; discriminate.
    + intros i f y Hi Ht. specialize (E i f Hi). lia.
    + intros q Hq. exfalso. apply (Hc q). intro Hi. congruence.
  - injection H as <-. constructor; cbn [procs inodes dtime now]; auto.
    + intros i f Hi. specialize (E i f Hi). lia.
    + intros q Hq. destruct (F q Hq) as [F1 F2]. split; auto.
Qed.
Lemma calm_history (ok : W -> event D U -> Prop) w0 vis w : (forall w e, ok w e -> one_writer w e /\ calm w e) -> first_world w0 ->
  history compute enc dec ok w0 vis w -> calm_inv w.
Proof.
  intros Hok H0 H. induction H as [|vis w e w' H IH Ho Hs].
  - destruct H0 as (H1 & H2 & H4 & H3). constructor.
    + intros q x. rewrite H3. intros [Hq|(i & rest & off & Hq)]; discriminate.
    + intros i f y. rewrite H2. destruct i; discriminate.
    + exact H4.
    + intros i f. rewrite H2. destruct i; discriminate.
    + intro q. rewrite H3. discriminate.
  - eapply calm_step; eauto; [|apply Hok; auto]. eapply inv_history; [|exact H0|exact H]. intros v e' He. now apply Hok.
Qed.
End Inv.
