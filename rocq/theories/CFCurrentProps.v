(** C31: the current CF specifications. *)
From Verif Require Import CFCurrentSpec PyDictFacts.
From Coq Require Import Lia.
Open Scope string_scope.

Definition keeps (st st' : state) : Prop := exists l, objs st' = (objs st ++ l)%list.
Lemma keeps_refl st : keeps st st. Proof. exists []. now rewrite app_nil_r. Qed.
Lemma keeps_trans a b c : keeps a b -> keeps b c -> keeps a c.
Proof. intros [l E] [m F]. exists (l ++ m)%list. now rewrite F, E, app_assoc. Qed.
Definition valid (st : state) : Prop := forall i, cur st = Some i -> (i < List.length (objs st))%nat.

Lemma ensure_some w m st i : cur st = Some i -> ensure w m st = match m with CClean => set_file st None | _ => st end.
Proof. intro E. unfold ensure. rewrite E. destruct m; reflexivity. Qed.
Lemma ensure_none w m st : cur st = None ->
  exists c, objs (ensure w m st) = (objs st ++ [c])%list /\ cur (ensure w m st) = Some (List.length (objs st)) /\
    ((m = CRead /\ usable w st c) \/ ((m <> CRead \/ forall c', ~ usable w st c') /\ c = fresh w (List.length (objs st)))) /\
    file (ensure w m st) = match m with
      | CWrite | CRw => if writable st then Some (clock st, PSpecs c) else file st
      | CClean => None | _ => file st end /\ writable (ensure w m st) = writable st /\ clock (ensure w m st) = clock st.
Proof.
  intro E. unfold ensure. rewrite E. destruct m; cbn [try_disk].
  - unfold compute. rewrite E. eexists. cbn. repeat split. right. split; auto. left. discriminate.
  - unfold compute. rewrite E. cbn. destruct (writable st) eqn:W; eexists; cbn; repeat split; auto; right; (split; [left; discriminate|reflexivity]).
  - assert (Hn : (forall c', ~ usable w st c') -> compute w CRead st =
        set_cur (fst (new_obj st (fresh w (List.length (objs st))))) (Some (List.length (objs st)))).
    { intros _. unfold compute. rewrite E. reflexivity. }
    destruct (file st) as [[t p]|] eqn:F.
    + destruct (Nat.ltb_spec (cfg_time w) t) as [L|L].
      * destruct p as [c|].
        -- cbn. exists c. repeat split; auto. left. split; auto. exists t. auto.
        -- assert (N : forall c', ~ usable w st c') by (intros c' (t' & X & _); congruence).
           rewrite Hn by auto. eexists. cbn. rewrite F. repeat split. right. auto.
      * assert (N : forall c', ~ usable w st c') by (intros c' (t' & X & Y); rewrite F in X; injection X as <- _; lia).
        rewrite Hn by auto. eexists. cbn. rewrite F. repeat split. right. auto.
    + assert (N : forall c', ~ usable w st c') by (intros c' (t' & X & _); congruence).
      rewrite Hn by auto. eexists. cbn. rewrite F. repeat split. right. auto.
  - unfold compute. rewrite E. cbn. destruct (writable st) eqn:W; eexists; cbn; repeat split; auto; right; (split; [left; discriminate|reflexivity]).
  - unfold compute. rewrite E. eexists. cbn. repeat split. right. split; auto. left. discriminate.
  - unfold compute. rewrite E. eexists. cbn. repeat split. right. split; auto. left. discriminate.
Qed.
Lemma get_state w n c m st : fst (get_cf_specs w n c m st) = match m with CInvalid => st | _ => ensure w m st end.
Proof.
  unfold get_cf_specs. destruct m; auto; (destruct (cur (ensure _ _ _)); reflexivity).
Qed.
Lemma ensure_valid w m st : valid st -> valid (ensure w m st) /\ keeps st (ensure w m st).
Proof.
  intro V. destruct (cur st) as [i|] eqn:E.
  - rewrite (ensure_some w m st i E). destruct m; (split; [exact V|exists []; now rewrite app_nil_r]).
  - destruct (ensure_none w m st E) as (c & Ho & Hc & _). split.
    + intros j. rewrite Hc, Ho, app_length. intro X. injection X as <-. cbn. lia.
    + eexists. exact Ho.
Qed.
Lemma get_valid w n c m st : valid st -> valid (fst (get_cf_specs w n c m st)) /\ keeps st (fst (get_cf_specs w n c m st)).
Proof. intro V. rewrite get_state. destruct m; try (now apply ensure_valid). split; auto using keeps_refl. Qed.
Lemma set_valid s st : valid st -> valid (fst (set_init s st)) /\ keeps st (fst (set_init s st)).
Proof.
  intro V. unfold set_init. destruct s as [c|e|i|]; cbn [fst]; try (split; [exact V|apply keeps_refl]).
  - split; [|eexists; reflexivity]. intros j X. injection X as <-. cbn. rewrite app_length. cbn. lia.
  - destruct (Nat.ltb_spec i (List.length (objs st))); cbn [fst]; (split; [|exists []; cbn; now rewrite app_nil_r]); auto. intros j X. now injection X as <-.
Qed.
Lemma keeps_valid st st' i : keeps st st' -> (i < List.length (objs st))%nat -> (i < List.length (objs st'))%nat.
Proof. intros [l E] H. rewrite E, app_length. lia. Qed.
Lemma set_init_ok s st st1 old i : set_init s st = (st1, Ok (old, i)) -> old = cur st /\ cur st1 = Some i.
Proof.
  unfold set_init. destruct s as [c|e|j|]; cbn [new_obj].
  - intro X. injection X as <- <- <-. auto.
  - discriminate.
  - destruct (_ <? _)%nat; intro X; [injection X as <- <- <-; auto|discriminate].
  - discriminate.
Qed.
Lemma exit_state old st : (old = None -> cur st <> None) -> set_exit old st = (set_cur st old, Ok tt).
Proof. unfold set_exit. destruct old; auto. intro H. destruct (cur st) eqn:E; auto. now destruct (H eq_refl). Qed.
Lemma exit_cur old st : cur (fst (set_exit old st)) = old /\ objs (fst (set_exit old st)) = objs st.
Proof. unfold set_exit. destruct old; auto. destruct (cur st) eqn:E; auto. Qed.
Lemma run_valid w p : forall st, valid st -> valid (fst (run w p st)) /\ keeps st (fst (run w p st)).
Proof.
  induction p as [| e | n c m k IH | s k IH | d m k IH | f wr t k IH | s body IHb k IH]; intros st V; cbn [run].
  - split; auto using keeps_refl.
  - split; auto using keeps_refl.
  - destruct (get_valid w n c m st V) as [V1 K1]. destruct (get_cf_specs w n c m st) as [st1 r]. cbn [fst] in *.
    destruct (IH r st1 V1). split; auto. eapply keeps_trans; eauto.
  - destruct (set_valid s st V) as [V1 K1]. destruct (set_init s st) as [st1 r]. cbn [fst] in *.
    destruct (IH (as_unit r) st1 V1). split; auto. eapply keeps_trans; eauto.
  - assert (V1 : valid (reset_cache d m st)) by (destruct d, m; try exact V; intros i X; discriminate).
    destruct (IH _ V1) as [H1 H2]. split; auto. eapply keeps_trans; [|exact H2]. destruct d, m; exists []; cbn; now rewrite app_nil_r.
  - destruct (IH (mkst (objs st) (cur st) f wr t)) as [H1 H2]; auto.
  - unfold with_specs. destruct (set_valid s st V) as [V1 K1]. destruct (set_init s st) as [st1 [[old i]|e]] eqn:Es; cbn [fst] in *.
    + destruct (set_init_ok _ _ _ _ _ Es) as [-> _]. destruct (IHb i st1 V1) as [V2 K2]. destruct (run w (body i) st1) as [st2 r]. cbn [fst] in *.
      destruct (exit_cur (cur st) st2) as [X1 X2]. destruct (set_exit (cur st) st2) as [st3 r']. cbn [fst] in *.
      assert (K3 : keeps st st3) by (destruct (keeps_trans _ _ _ K1 K2) as [l E]; exists l; now rewrite X2).
      assert (V3 : valid st3) by (intros j Hj; rewrite X1 in Hj; eapply keeps_valid; eauto).
      destruct (IH (match r' with Ok _ => r | Raise e => Raise e end) st3 V3) as [V4 K4]. split; [destruct r'; exact V4|].
      eapply keeps_trans; [exact K3|]. destruct r'; exact K4.
    + destruct (IH (Raise e) st1 V1). split; auto. eapply keeps_trans; eauto.
Qed.
Lemma reachable_valid w st : reachable w st -> valid st.
Proof. intros (p & f & wr & t & <-). apply run_valid. intros i X. discriminate. Qed.
Lemma keeps_content st st' i c : keeps st st' -> content_of st i = Some c -> content_of st' i = Some c.
Proof. intros [l E] H. unfold content_of in *. rewrite E, nth_error_app1; auto. apply nth_error_Some. congruence. Qed.

(** Leaving a [with], whatever its body has done, restores the former specifications. *)
Theorem C31_with w src body st st2 r : reachable w st -> run w (just_with src body) st = (st2, r) ->
  (exists i st1 st' rb,
     (* in the body, the current specifications are the given ones *)
     designates src st st1 i /\ seen w CRw st1 = Ok (ASpecs i) /\ run w (body i) st1 = (st', rb) /\
     (* after: as before, and the exception of the body goes on *)
     cur st2 = cur st /\ (forall j c, content_of st j = Some c -> content_of st2 j = Some c) /\
     (r = rb \/ (cur st = None /\ cur st' = None /\ r = Raise KeyError))) \/
  (st2 = st /\ exists e, r = Raise e).
Proof.
  intros Hr H. assert (V := reachable_valid _ _ Hr). unfold just_with in H. cbn [run] in H. unfold with_specs in H.
  destruct (set_valid src st V) as [V1 K1]. destruct (set_init src st) as [st1 [[old i]|e]] eqn:Es; cbn [fst] in *.
  - left. destruct (set_init_ok _ _ _ _ _ Es) as [-> C1]. destruct (run_valid w (body i) st1 V1) as [V2 K2].
    destruct (run w (body i) st1) as [st' rb] eqn:Eb. cbn [fst] in *. exists i, st1, st', rb.
    assert (D : designates src st st1 i).
    { unfold set_init in Es. destruct src as [c|e|j|]; cbn [new_obj] in Es; try discriminate.
      - injection Es as <- <-. cbn. unfold content_of. split.
        + apply nth_error_None. lia.
        + cbn. rewrite nth_error_app2, Nat.sub_diag by lia. reflexivity.
      - destruct (_ <? _)%nat; [|discriminate]. injection Es as _ <-. reflexivity. }
    assert (S1 : seen w CRw st1 = Ok (ASpecs i)).
    { unfold seen, get_cf_specs. rewrite (ensure_some w CRw st1 i C1), C1. reflexivity. }
    destruct (exit_cur (cur st) st') as [X1 X2]. destruct (set_exit (cur st) st') as [st3 r'] eqn:Ee. cbn [fst] in *.
    assert (st2 = st3 /\ r = match r' with Ok _ => rb | Raise e => Raise e end) as [-> Er].
    { destruct r' as [u|e]; cbn [run] in H.
      - destruct rb as [u'|e]; cbn [run] in H; injection H as <- <-; auto. destruct u'. auto.
      - injection H as <- <-. auto. }
    assert (K3 : keeps st st3) by (destruct (keeps_trans _ _ _ K1 K2) as [l E]; exists l; now rewrite X2).
    split; auto. split; auto. split; auto. split; auto. split.
    { intros j c. now apply keeps_content. }
    destruct (cur st) eqn:Ec; [|destruct (cur st') eqn:Ec'].
    + rewrite exit_state in Ee by discriminate. injection Ee as _ <-. auto.
    + rewrite exit_state in Ee by congruence. injection Ee as _ <-. auto.
    + right. split; auto. split; auto. unfold set_exit in Ee. rewrite Ec' in Ee. injection Ee as _ <-. exact Er.
  - right. cbn [run] in H. injection H as <- <-. split; [|eauto].
    unfold set_init in Es. destruct src as [c|e'|j|]; cbn [new_obj] in Es; try discriminate; try (now injection Es).
    destruct (_ <? _)%nat; [discriminate|]. now injection Es.
Qed.
(** The current specifications do not change until they are set. *)
Theorem C31_stable w p : quiet p -> forall st i, cur st = Some i -> cur (fst (run w p st)) = Some i.
Proof.
  induction 1 as [|e|n c m k Hk IH|d k Hk IH|f wr t k Hk IH|s body k Hk IH]; intros st i Hc; cbn [run]; auto.
  - assert (Hg : cur (fst (get_cf_specs w n c m st)) = Some i).
    { rewrite get_state. destruct m; auto; rewrite (ensure_some w _ st i Hc); auto. }
    destruct (get_cf_specs w n c m st) as [st1 r]. cbn [fst] in Hg. now apply IH.
  - apply IH. destruct d; exact Hc.
  - unfold with_specs. destruct (set_init s st) as [st1 [[old j]|e]] eqn:Es.
    + destruct (set_init_ok _ _ _ _ _ Es) as [-> _]. destruct (run w (body j) st1) as [st2 r].
      destruct (exit_cur (cur st) st2) as [X _]. destruct (set_exit (cur st) st2) as [st3 r']. cbn [fst] in *.
      apply IH. congruence.
    + apply IH. unfold set_init in Es. destruct s as [c|e'|j|]; cbn [new_obj] in Es; try discriminate.
      * injection Es as <- _. auto.
      * destruct (_ <? _)%nat; [discriminate|]. injection Es as <- _. auto.
      * injection Es as <- _. auto.
Qed.
(** Once seen, always seen: a second call returns the same object, whatever its cache mode. *)
Theorem C31_same w m m' p st i : valid_mode m' -> quiet p ->
  let st1 := fst (get_cf_specs w None None m st) in
  seen w m st = Ok (ASpecs i) -> seen w m' (fst (run w p st1)) = Ok (ASpecs i).
Proof.
  intros Hm Hq. cbn zeta. intro H. assert (Hc : cur (fst (get_cf_specs w None None m st)) = Some i).
  { unfold seen in H. rewrite get_state. unfold get_cf_specs in H. destruct m; try discriminate;
    (destruct (cur (ensure _ _ st)) as [j|] eqn:E; cbn in H; [now injection H as <-|discriminate]). }
  apply (C31_stable w p Hq) in Hc. unfold seen, get_cf_specs.
  destruct m'; try (now destruct Hm); rewrite (ensure_some w _ _ i Hc); cbn [set_file cur reset_cache]; try rewrite Hc; try reflexivity.
Qed.
(** get_cf_specs never fails, whatever is in the cache file; what it returns. *)
Theorem C31_get w m st : reachable w st -> valid_mode m -> exists i c,
  seen w m st = Ok (ASpecs i) /\ content_of (fst (get_cf_specs w None None m st)) i = Some c /\
  match cur st with
  | Some j => i = j /\ content_of st i = Some c
  | None => content_of st i = None /\
      ((m = CRead /\ usable w st c) \/
       ((m <> CRead \/ forall c', ~ usable w st c') /\ c = fresh w (List.length (objs st))))
  end.
Proof.
  intros Hr Hm. assert (V := reachable_valid _ _ Hr). assert (Es := get_state w None None m st). unfold seen.
  destruct (cur st) as [j|] eqn:Ec.
  - assert (Hj : (j < List.length (objs st))%nat) by auto. apply nth_error_Some in Hj. destruct (nth_error (objs st) j) as [c|] eqn:En; [|congruence].
    exists j, c. unfold get_cf_specs, content_of. destruct m; try (now destruct Hm); rewrite (ensure_some w _ st j Ec); cbn [set_file reset_cache cur]; rewrite Ec; auto.
  - destruct (ensure_none w m st Ec) as (c & Ho & Hc & Hs & _). exists (List.length (objs st)), c.
    assert (E0 : fst (get_cf_specs w None None m st) = ensure w m st) by (rewrite Es; destruct m; auto; now destruct Hm).
    rewrite E0. unfold content_of. rewrite Ho. split.
    + unfold get_cf_specs. destruct m; try (now destruct Hm); rewrite Hc; reflexivity.
    + split; [rewrite nth_error_app2, Nat.sub_diag by lia; reflexivity|]. split; auto. apply nth_error_None. lia.
Qed.
(** An entry: that of data_vars, else that of coords, else None; or of the given category *)
Theorem C31_entry w m st name cat : reachable w st -> valid_mode m -> exists i c,
  seen w m st = Ok (ASpecs i) /\ content_of (fst (get_cf_specs w None None m st)) i = Some c /\
  snd (get_cf_specs w (Some name) cat m st) = Ok
    match cat with
    | Some DataVars => match dget (k_data_vars c) name with Some n => AEntry n | None => ANone end
    | Some Coords => match dget (k_coords c) name with Some n => AEntry n | None => ANone end
    | None => match dget (k_data_vars c) name with
              | Some n => AEntry n
              | None => match dget (k_coords c) name with Some n => AEntry n | None => ANone end
              end
    end.
Proof.
  intros Hr Hm. destruct (C31_get w m st Hr Hm) as (i & c & H1 & H2 & _). exists i, c. split; auto. split; auto.
  unfold seen in H1. rewrite get_state in H2. unfold get_cf_specs in *.
  destruct m; try (now destruct Hm);
    (destruct (cur (ensure _ _ st)) as [j|] eqn:E; [|discriminate]; cbn [snd] in *; injection H1 as ->;
     unfold content_of in H2; rewrite (nth_error_nth _ _ _ H2); destruct cat as [[|]|]; reflexivity).
Qed.
(** What is written by a session is what a later session reads. *)
Theorem C31_disk w m st : m = CWrite \/ m = CRw -> cur st = None -> writable st = true -> (cfg_time w < clock st)%nat ->
  exists i c, seen w m st = Ok (ASpecs i) /\
    let st1 := fst (get_cf_specs w None None m st) in
    content_of st1 i = Some c /\
    forall wr t, let st2 := session (file st1) wr t in
    exists j, seen w CRead st2 = Ok (ASpecs j) /\ content_of (fst (get_cf_specs w None None CRead st2)) j = Some c.
Proof.
  intros Hm Ec Hw Ht. destruct (ensure_none w m st Ec) as (c & Ho & Hc & _ & Hf & _).
  exists (List.length (objs st)), c. assert (E0 : fst (get_cf_specs w None None m st) = ensure w m st) by (rewrite get_state; destruct Hm as [->| ->]; auto).
  cbn zeta. rewrite E0. split; [|split].
  - unfold seen, get_cf_specs. destruct Hm as [->| ->]; rewrite Hc; reflexivity.
  - unfold content_of. rewrite Ho, nth_error_app2, Nat.sub_diag by lia. reflexivity.
  - intros wr t. assert (Hf' : file (ensure w m st) = Some (clock st, PSpecs c)) by (rewrite Hf; destruct Hm as [->| ->]; now rewrite Hw).
    rewrite Hf'. destruct (ensure_none w CRead (session (Some (clock st, PSpecs c)) wr t) eq_refl) as (c' & Ho' & Hc' & Hs & _).
    assert (c' = c) as ->.
    { destruct Hs as [(_ & t' & X & _)|([X|X] & _)]; [cbn in X; congruence|now destruct X|].
      exfalso. apply (X c). exists (clock st). auto. }
    exists 0%nat. unfold seen. rewrite get_state. unfold get_cf_specs, content_of. rewrite Hc', Ho'. auto.
Qed.
(** cache="clean" removes the file, reset_cache() too; the current specifications stay. *)
Theorem C31_clean w st : file (fst (get_cf_specs w None None CClean st)) = None /\
  file (reset_cache true false st) = None /\ cur (reset_cache true false st) = cur st.
Proof.
  split; [|auto]. rewrite get_state. destruct (cur st) as [i|] eqn:E.
  - now rewrite (ensure_some w _ st i E).
  - destruct (ensure_none w CClean st E) as (c & _ & _ & _ & H & _). exact H.
Qed.
(** The documented default mode "rw" never reads the file: the specifications are computed
    again in every session. *)
Theorem C31_rw_never_reads w st : reachable w st -> cur st = None -> exists i,
  seen w CRw st = Ok (ASpecs i) /\
  content_of (fst (get_cf_specs w None None CRw st)) i = Some (fresh w (List.length (objs st))).
Proof.
  intros Hr Ec. destruct (C31_get w CRw st Hr) as (i & c & H1 & H2 & H3); [discriminate|]. rewrite Ec in H3.
  exists i. split; auto. destruct H3 as (_ & [(X & _)|(_ & ->)]); [discriminate|auto].
Qed.

(** *** Refutations and examples *)
Definition c1 := mkcontent [("temp", 1)] [("lon", 2)]%nat.
Definition c2 := mkcontent [("temp", 3)] []%nat.
Definition w0 := mkworld (fun _ => c1) 5.
Theorem C31_rw_reads_refuted : exists st c i, reachable w0 st /\ usable w0 st c /\ seen w0 CRw st = Ok (ASpecs i) /\
  content_of (fst (get_cf_specs w0 None None CRw st)) i <> Some c.
Proof.
  exists (session (Some (7%nat, PSpecs c2)) true 8), c2, 0%nat. split; [|split; [|split]].
  - exists Stop, (Some (7%nat, PSpecs c2)), true, 8%nat. reflexivity.
  - exists 7%nat. split; [reflexivity|cbn; lia].
  - reflexivity.
  - vm_compute. discriminate.
Qed.
(** Resetting the memory in the first [with] of a session makes its end fail. *)
Theorem C31_reset_in_with_refuted : exists body,
  (forall i st, snd (run w0 (body i) st) = Ok tt) /\
  snd (run w0 (just_with (SDict c2) body) (session None true 8)) = Raise KeyError.
Proof. exists (fun _ => Reset true true Stop). split; reflexivity. Qed.
(** Out of a [with], set_cf_specs stays. *)
Example ex_set : let p := SetSpecs (SDict c2) (fun _ => Stop) in
  seen w0 CRw (fst (run w0 p (session None true 8))) = Ok (ASpecs 0) /\ content_of (fst (run w0 p (session None true 8))) 0 = Some c2.
Proof. split; reflexivity. Qed.
(** Nested contexts, an exception in the inner one that is caught in the outer one *)
Example ex_nested : let st := fst (run w0 (Get None None CRw (fun _ => Stop)) (session None true 8)) in
  let inner := fun _ => Reset true true (Get None None CRead (fun _ => Throw ValueError)) in
  let p := just_with (SDict c2) (fun i => With (SObj 0) inner (fun r => match r with Raise ValueError => Get None None CIgnore (fun r => match r with Ok (ASpecs j) => if Nat.eqb i j then Stop else Throw KeyError | _ => Throw KeyError end) | _ => Throw TypeError end)) in
  cur st = Some 0%nat /\ cur (fst (run w0 p st)) = Some 0%nat /\ snd (run w0 p st) = Ok tt.
Proof. vm_compute. auto. Qed.
