(** C53: the registry of validation functions *)
From Verif Require Import ValRegistrySpec ValidatorsProps PyDictFacts PyReFacts ValScalarProps.
Open Scope string_scope.

(** ** Names *)
Lemma ends_char_iff c : forall k, ends_with_char k c = true <-> exists t, k = t ++ String c "".
Proof.
  induction k as [|a k IH]; cbn [ends_with_char].
  - split; [discriminate|]. intros [t E]. now destruct t.
  - destruct k as [|b k'].
    + split.
      * intro H. apply Ascii.eqb_eq in H. subst. now exists "".
      * intros [[|x t] E]; [injection E as ->; apply Ascii.eqb_refl|]. injection E as _ E. now destruct t.
    + rewrite IH. split.
      * intros [t E]. exists (String a t). cbn. now rewrite E.
      * intros [[|x t] E]; [discriminate E|]. injection E as -> E. eauto.
Qed.
Lemma ends_char_false c k : ends_with_char k c = false -> forall t, k <> t ++ String c "".
Proof. intros H t E. rewrite (proj2 (ends_char_iff c k)) in H; [discriminate|eauto]. Qed.
Lemma substring_prefix a b : substring 0 (String.length a) (a ++ b) = a.
Proof. induction a as [|c a IH]; cbn; [now destruct b|]. now rewrite IH. Qed.
Lemma plural_spec k : plural_of k (plural k).
Proof.
  unfold plural. destruct (ends_with_char k "y") eqn:Y.
  - apply ends_char_iff in Y. destruct Y as [t ->]. rewrite slen_app. cbn [String.length].
    replace (String.length t + 1 - 1)%nat with (String.length t) by lia. rewrite substring_prefix. constructor.
  - destruct (ends_with_char k "x") eqn:X.
    + apply ends_char_iff in X. destruct X as [t ->]. rewrite sapp_assoc. cbn. constructor.
    + apply pl_s; intros t; now apply ends_char_false.
Qed.
Lemma last_differs c d : c <> d -> forall a b, a ++ String c "" <> b ++ String d "".
Proof.
  intros N. induction a as [|x a IH]; intros [|y b] H; cbn in H.
  - injection H as H. contradiction.
  - injection H as _ H. now destruct b.
  - injection H as _ H. now destruct a.
  - injection H as _ H. now apply IH in H.
Qed.
Lemma plural_unique : forall a p, plural_of a p -> p = plural a.
Proof.
  intros a p Hp. destruct (plural_spec a) as [t|t|t Hy Hx]; inversion Hp; subst.
    all: try reflexivity.
    all: try match goal with E : ?a ++ "y" = ?b ++ "y" |- _ => apply sapp_inv_len in E; [destruct E as [-> _]; reflexivity|assert (L := f_equal String.length E); rewrite !slen_app in L; cbn in L; lia] end.
    all: try match goal with E : ?a ++ "x" = ?b ++ "x" |- _ => apply sapp_inv_len in E; [destruct E as [-> _]; reflexivity|assert (L := f_equal String.length E); rewrite !slen_app in L; cbn in L; lia] end.
    all: try match goal with E : ?a ++ "x" = ?b ++ "y" |- _ => exfalso; revert E; now apply last_differs end.
    all: try match goal with E : ?a ++ "y" = ?b ++ "x" |- _ => exfalso; revert E; now apply last_differs end.
    all: exfalso; match goal with X : forall t, _ <> t ++ _ |- _ => now eapply X end.
Qed.
Lemma plural_ends k : exists t, plural k = t ++ "s".
Proof.
  destruct (plural_spec k) as [t|t|t].
  - exists (t ++ "ie"). now rewrite sapp_assoc.
  - exists (t ++ "xe"). now rewrite sapp_assoc.
  - eauto.
Qed.
Lemma list_ends k : exists t, k ++ "_list" = t ++ "t".
Proof. exists (k ++ "_lis"). now rewrite sapp_assoc. Qed.
Lemma plural_not_list k k' : plural k <> k' ++ "_list".
Proof. intro E. destruct (plural_ends k) as [a Ea], (list_ends k') as [b Eb]. rewrite Ea, Eb in E. revert E. now apply last_differs. Qed.
Lemma list_inj k k' : k ++ "_list" = k' ++ "_list" -> k = k'.
Proof.
  intro E. assert (L := f_equal String.length E). rewrite !slen_app in L. cbn in L.
  apply sapp_inv_len in E; [tauto|lia].
Qed.
Lemma s_inj k k' : k ++ "s" = k' ++ "s" -> k = k'.
Proof.
  intro E. assert (L := f_equal String.length E). rewrite !slen_app in L. cbn in L.
  apply sapp_inv_len in E; [tauto|lia].
Qed.

(** ** What an update does *)
Lemma dget_add_absent r k e k' : dget (add_absent r k e) k' = match dget r k' with Some x => Some x | None => if (k' =? k)%string then Some e else None end.
Proof.
  unfold add_absent, dmem. destruct (dget r k) as [x|] eqn:E.
  - destruct (dget r k') eqn:E'; auto. destruct (String.eqb_spec k' k); congruence.
  - rewrite dget_dset. destruct (String.eqb_spec k' k) as [->|]; [now rewrite E|]. now destruct (dget r k').
Qed.
Lemma dget_update_one r k0 e0 k : dget (update_one r (k0, e0)) k =
  if (k =? k0)%string then Some (complete k0 e0) else
  match dget r k with
  | Some x => Some x
  | None => if ((k =? plural k0) || (k =? k0 ++ "_list"))%bool then Some (list_entry (complete k0 e0)) else None
  end.
Proof.
  unfold update_one. rewrite !dget_add_absent, dget_dset. destruct (String.eqb_spec k k0); auto.
  destruct (dget r k); auto. destruct (String.eqb_spec k (plural k0)); auto.
Qed.
Definition source (k : string) (ke : string * entry) : bool := ((k =? plural (fst ke)) || (k =? fst ke ++ "_list"))%bool.
Lemma fold_update l : forall r, NoDup (map fst l) -> (forall k, In k (map fst l) -> dmem r k = true) -> forall k,
  dget (fold_left update_one l r) k =
  match dget l k with
  | Some e => Some (complete k e)
  | None => match dget r k with
            | Some x => Some x
            | None => option_map (fun ke => list_entry (complete (fst ke) (snd ke))) (find (source k) l)
            end
  end.
Proof.
  induction l as [|[k0 e0] l IH]; intros r ND Hin k; cbn [fold_left]; [cbn; now destruct (dget r k)|].
  cbn in ND. apply NoDup_cons_iff in ND. destruct ND as [N0 ND]. rewrite IH; auto.
  - rewrite dget_update_one. cbn [dget find]. unfold source at 2. cbn [fst snd].
    destruct (String.eqb_spec k k0) as [->|N].
    + rewrite (proj2 (dget_none l k0)) by exact N0. reflexivity.
    + destruct (dget l k) eqn:El; auto. destruct (dget r k); auto.
      destruct ((k =? plural k0) || (k =? k0 ++ "_list"))%bool; reflexivity.
  - intros k' Hk'. unfold dmem. rewrite dget_update_one. destruct (k' =? k0)%string; auto.
    assert (X := Hin k' (or_intror Hk')). unfold dmem in X. now destruct (dget r k').
Qed.
Lemma dget_update r k : dict_wf r -> dget (update_registry r) k =
  match dget r k with
  | Some e => Some (complete k e)
  | None => option_map (fun ke => list_entry (complete (fst ke) (snd ke))) (find (source k) r)
  end.
Proof.
  intro W. unfold update_registry. rewrite fold_update; auto.
  - now destruct (dget r k).
  - intros k' H. now apply dmem_in.
Qed.
Lemma update_one_wf r ke : dict_wf r -> dict_wf (update_one r ke).
Proof.
  destruct ke as [k e]. intro W. unfold update_one, add_absent.
  repeat match goal with |- context [if dmem ?d ?x then _ else _] => destruct (dmem d x) end; repeat apply dset_wf; auto.
Qed.
Lemma fold_update_wf l : forall r, dict_wf r -> dict_wf (fold_left update_one l r).
Proof. induction l as [|ke l IH]; intros r W; cbn; auto. now apply IH, update_one_wf. Qed.
Lemma update_wf r : dict_wf r -> dict_wf (update_registry r).
Proof. intro W. now apply fold_update_wf. Qed.
Lemma register_wf r kw : dict_wf r -> dict_wf (register r kw).
Proof. intro W. now apply update_wf, dupdate_wf. Qed.
Lemma registered_wf h : forall r, dict_wf r -> dict_wf (registered r h).
Proof. induction h as [|kw h IH]; intros r W; cbn; auto. now apply IH, register_wf. Qed.

Lemma dget_register r kw k : dict_wf r -> dict_wf kw -> dget (register r kw) k =
  match dget kw k with
  | Some e => Some (complete k e)
  | None => match dget r k with
            | Some e => Some (complete k e)
            | None => option_map (fun ke => list_entry (complete (fst ke) (snd ke))) (find (source k) (dupdate r kw))
            end
  end.
Proof.
  intros W W'. unfold register. rewrite dget_update by now apply dupdate_wf.
  rewrite dget_dupdate, last_bound_wf by auto. destruct (dget kw k); auto.
Qed.

(** ** Theorems *)
(** The function that is registered under a name validates the options of that type. *)
Theorem C53_register r kw k n : dict_wf r -> dict_wf kw -> dget kw k = Some (of_func (Base n)) ->
  dget (register r kw) k = Some (mkentry (Some (Wrap (Base n))) (Some (Base n)) (Some false) (Some k) (Some (Wrap (Base n)))).
Proof. intros W W' H. rewrite dget_register, H by auto. reflexivity. Qed.

(** Lists of a new type are validated by k_list and by its plural, unless these names are taken. *)
Lemma find_source r k k0 e0 : dict_wf r -> dget r k0 = Some e0 -> source k (k0, e0) = true ->
  (forall k', In k' (dkeys r) -> k' <> k0 -> forall e, source k (k', e) = false) -> find (source k) r = Some (k0, e0).
Proof.
  intros W. induction r as [|[k1 e1] r IH]; cbn; [discriminate|]. intros H S O. unfold dict_wf in W. cbn in W. apply NoDup_cons_iff in W. destruct W as [N1 W].
  destruct (String.eqb_spec k0 k1) as [->|N].
  - injection H as ->. now rewrite S.
  - rewrite (O k1) by (auto; congruence). apply IH; auto.
Qed.
Theorem C53_lists r kw k n : dict_wf r -> dict_wf kw -> dget kw k = Some (of_func (Base n)) ->
  let list_of := mkentry (Some (WrapList (Wrap (Base n)))) (Some (Base n)) (Some true) (Some k) (Some (Wrap (Base n))) in
  let free k' := dmem r k' = false /\ dmem kw k' = false in
  (free (k ++ "_list") -> dget (register r kw) (k ++ "_list") = Some list_of) /\
  (forall p, plural_of k p -> free p -> (forall k', dmem r k' = true \/ dmem kw k' = true -> plural_of k' p -> k' = k) ->
    dget (register r kw) p = Some list_of).
Proof.
  intros W W' H list_of free.
  assert (F : forall k', free k' -> dget kw k' = None /\ dget r k' = None).
  { unfold free, dmem. intros k' [F1 F2]. destruct (dget kw k'), (dget r k'); auto; discriminate. }
  assert (D : dget (dupdate r kw) k = Some (of_func (Base n))) by (rewrite dget_dupdate, last_bound_wf, H; auto).
  assert (P := plural_unique).
  split.
  - intro Hf. destruct (F _ Hf) as [F1 F2]. rewrite dget_register, F1, F2 by auto.
    rewrite (find_source _ _ k (of_func (Base n))); auto; [now apply dupdate_wf| |].
    + unfold source. cbn. now rewrite String.eqb_refl, orb_true_r.
    + intros k' _ N e. unfold source. cbn. apply orb_false_iff. split; apply String.eqb_neq.
      * intro E. symmetry in E. now apply plural_not_list in E.
      * intro E. apply list_inj in E. congruence.
  - intros p Hp Hf U. destruct (F _ Hf) as [F1 F2]. rewrite dget_register, F1, F2 by auto.
    rewrite (find_source _ _ k (of_func (Base n))); auto; [now apply dupdate_wf| |].
    + unfold source. cbn. now rewrite (P _ _ Hp), String.eqb_refl.
    + intros k' I N e. unfold source. cbn. apply orb_false_iff. split; apply String.eqb_neq.
      * intro E. apply N, U; [|rewrite E; apply plural_spec]. apply dmem_in in I. unfold dmem in *.
        rewrite dget_dupdate, last_bound_wf in I by auto. destruct (dget kw k'), (dget r k'); auto.
      * rewrite (P _ _ Hp). apply plural_not_list.
Qed.

(** Nothing is lost: other names keep their entry once it is complete, whatever is registered. *)
Lemma valwrap_idem f : valwrap (valwrap f) = valwrap f.
Proof. now destruct f. Qed.
Lemma complete_idem k e : complete k (complete k e) = complete k e.
Proof. unfold complete. cbn. now rewrite valwrap_idem. Qed.
Lemma wrap_valwraplist f : valwrap (valwraplist f) = valwraplist f.
Proof. now destruct f. Qed.
Lemma complete_list k k0 e : complete k (list_entry (complete k0 e)) = list_entry (complete k0 e).
Proof. unfold complete, list_entry. cbn. now rewrite wrap_valwraplist. Qed.
Definition settled (r : registry) : Prop := forall k e, dget r k = Some e -> complete k e = e.
Lemma update_settled r : dict_wf r -> settled (update_registry r).
Proof.
  intros W k e. rewrite dget_update by auto. destruct (dget r k) as [e1|] eqn:E1.
  - intro H. injection H as <-. apply complete_idem.
  - destruct (find (source k) r) as [[k0 e0]|]; [|discriminate]. intro H. injection H as <-. apply complete_list.
Qed.
Lemma settled_registered h : forall r, dict_wf r -> settled r -> settled (registered r h).
Proof. induction h as [|kw h IH]; intros r W S; cbn; auto. apply IH; [now apply register_wf|]. now apply update_settled, dupdate_wf. Qed.
Theorem C53_kept r0 h1 h2 k e : dict_wf r0 -> Forall dict_wf h2 ->
  (forall kw, In kw h2 -> dmem kw k = false) ->
  let r := registered (update_registry r0) h1 in dget r k = Some e -> dget (registered r h2) k = Some e.
Proof.
  intros W F N. cbn zeta. intro H.
  assert (S : settled (registered (update_registry r0) h1)) by (apply settled_registered; [now apply update_wf|now apply update_settled]).
  assert (Wr : dict_wf (registered (update_registry r0) h1)) by now apply registered_wf, update_wf.
  revert H S Wr N. generalize (registered (update_registry r0) h1). induction F as [|kw h Wk F IH]; intros r H S Wr N; cbn; auto.
  apply IH; [| |now apply register_wf|intros; apply N; now right].
  - rewrite dget_register by auto. assert (X := N kw (or_introl eq_refl)). unfold dmem in X. destruct (dget kw k); [discriminate|].
    rewrite H. f_equal. now apply S.
  - now apply update_settled, dupdate_wf.
Qed.
(** False: registering a function again replaces it.  The lists are still validated by the
    first one. *)
Theorem C53_replace_refuted r k n n' : dict_wf r -> dmem r k = false -> dmem r (k ++ "_list") = false -> n <> n' ->
  let r1 := register r [(k, of_func (Base n))] in let r2 := register r1 [(k, of_func (Base n'))] in
  func_at r2 k (Wrap (Base n')) /\ func_at r2 (k ++ "_list") (WrapList (Wrap (Base n))).
Proof.
  intros W N1 N2 Nn r1 r2.
  assert (W1 : forall m, dict_wf [(k, of_func (Base m))]) by (intro; repeat constructor; auto).
  assert (Wr1 : dict_wf r1) by now apply register_wf.
  assert (G : forall m, dget [(k, of_func (Base m))] k = Some (of_func (Base m))) by (intro; cbn; now rewrite String.eqb_refl).
  assert (D : forall m, dmem [(k, of_func (Base m))] (k ++ "_list") = false).
  { intro m. unfold dmem. cbn. destruct (String.eqb_spec (k ++ "_list") k) as [E|]; auto. exfalso.
    apply (f_equal String.length) in E. rewrite slen_app in E. cbn in E. lia. }
  split.
  - eexists. split; [apply C53_register; auto|reflexivity].
  - destruct (C53_lists r [(k, of_func (Base n))] k n W (W1 n) (G n)) as [HL _]. specialize (HL (conj N2 (D n))).
    eexists. split; [unfold r2; rewrite dget_register by auto|].
    + assert (X := D n'). unfold dmem in X. destruct (dget [(k, of_func (Base n'))] (k ++ "_list")); [discriminate|].
      fold r1 in HL. rewrite HL. reflexivity.
    + reflexivity.
Qed.

(** Whatever was registered, functions are wrapped once: the scalar ones, and the list ones made
    from a scalar one. *)
Definition clean_entry (e : entry) : Prop :=
  (exists n, e = of_func (Base n)) \/ exists n, e_base e = Some (Base n) /\ e_argtype e = Some (Wrap (Base n)) /\ e_opttype e <> None /\
    ((e_func e = Some (Wrap (Base n)) /\ e_iter e = Some false) \/ (e_func e = Some (WrapList (Wrap (Base n))) /\ e_iter e = Some true)).
Lemma clean_complete k e : clean_entry e -> exists n, e_base (complete k e) = Some (Base n) /\ e_argtype (complete k e) = Some (Wrap (Base n)) /\ e_opttype (complete k e) <> None /\
  ((e_func (complete k e) = Some (Wrap (Base n)) /\ e_iter (complete k e) = Some false) \/ (e_func (complete k e) = Some (WrapList (Wrap (Base n))) /\ e_iter (complete k e) = Some true)).
Proof.
  intros [[n ->]|(n & B & A & O & [[Fu I]|[Fu I]])]; exists n; unfold complete; cbn; [repeat split; auto; discriminate| |];
    rewrite B, A, Fu, I; cbn; repeat split; auto; discriminate.
Qed.
Definition clean_registry (r : registry) : Prop := forall k e, dget r k = Some e -> exists n, e_base e = Some (Base n) /\ e_argtype e = Some (Wrap (Base n)) /\ e_opttype e <> None /\
  ((e_func e = Some (Wrap (Base n)) /\ e_iter e = Some false) \/ (e_func e = Some (WrapList (Wrap (Base n))) /\ e_iter e = Some true)).
Lemma update_clean r : dict_wf r -> (forall k e, dget r k = Some e -> clean_entry e) -> clean_registry (update_registry r).
Proof.
  intros W C k e. rewrite dget_update by auto. destruct (dget r k) as [e1|] eqn:E1.
  - intro H. injection H as <-. apply clean_complete. eauto.
  - destruct (find (source k) r) as [[k0 e0]|] eqn:Ef; [|discriminate]. intro H. injection H as <-.
    apply find_some in Ef. destruct Ef as [I _]. apply dget_in in I; auto.
    destruct (clean_complete k0 e0 (C _ _ I)) as (n & B & A & O & Fu). exists n. cbn [list_entry e_base e_argtype e_opttype e_func e_iter fst snd].
    repeat split; auto. right. split; auto. destruct Fu as [[-> _]|[-> _]]; reflexivity.
Qed.
Lemma plain_clean r : plain_functions r -> forall k e, dget r k = Some e -> clean_entry e.
Proof. intros P k e H. apply dget_some_in in H. unfold plain_functions in P. rewrite Forall_forall in P. specialize (P _ H). now left. Qed.
Lemma registered_clean h : Forall dict_wf h -> Forall plain_functions h -> forall r, dict_wf r -> clean_registry r -> clean_registry (registered r h).
Proof.
  induction h as [|kw h IH]; intros Fw Fp r W C; cbn; auto. inversion Fw; inversion Fp; subst. apply IH; auto; [now apply register_wf|].
  apply update_clean; [now apply dupdate_wf|]. intros k e. rewrite dget_dupdate, last_bound_wf by auto.
  destruct (dget kw k) as [e1|] eqn:E1; [intro H; injection H as <-; eapply plain_clean; eauto|]. intro H. right. now apply C in H.
Qed.
Theorem C53_wrapped_once r0 h : dict_wf r0 -> plain_functions r0 -> Forall dict_wf h -> Forall plain_functions h ->
  forall k e, dget (registered (update_registry r0) h) k = Some e ->
  exists n t, e = mkentry (Some (Wrap (Base n))) (Some (Base n)) (Some false) (Some t) (Some (Wrap (Base n))) \/
              e = mkentry (Some (WrapList (Wrap (Base n)))) (Some (Base n)) (Some true) (Some t) (Some (Wrap (Base n))).
Proof.
  intros W P Fw Fp k e H.
  assert (C : clean_registry (registered (update_registry r0) h)).
  { apply registered_clean; auto; [now apply update_wf|]. apply update_clean; auto. now apply plain_clean. }
  destruct (C _ _ H) as (n & B & A & O & Fu). destruct e as [ef eb ei eo ea]. cbn in *. subst. destruct eo as [t|]; [|congruence]. exists n, t.
  destruct Fu as [[-> ->]|[-> ->]]; auto.
Qed.

(** False: registering a function only adds the names of its own forms.  Each call adds the forms
    of the forms that are there: their number doubles. *)
Lemma suffix_plural k w : w <> [] -> plural (k ++ suffix w) = k ++ suffix (true :: w).
Proof.
  intro N. cbn [suffix]. rewrite <- sapp_assoc.
  assert (H : ends_with_char (k ++ suffix w) "y" = false /\ ends_with_char (k ++ suffix w) "x" = false).
  { destruct w as [|[] w]; [congruence| |]; cbn [suffix]; rewrite <- sapp_assoc.
    - split; apply not_true_is_false; intro H; apply ends_char_iff in H; destruct H as [t H]; revert H; now apply last_differs.
    - destruct (list_ends (k ++ suffix w)) as [t ->].
      split; apply not_true_is_false; intro H; apply ends_char_iff in H; destruct H as [u H]; revert H; now apply last_differs. }
  unfold plural. destruct H as [-> ->]. reflexivity.
Qed.
Lemma suffix_inj : forall w w', suffix w = suffix w' -> w = w'.
Proof.
  induction w as [|b w IH]; intros [|b' w'] E; auto.
  - exfalso. apply (f_equal String.length) in E. destruct b'; cbn in E; rewrite slen_app in E; cbn in E; lia.
  - exfalso. apply (f_equal String.length) in E. destruct b; cbn in E; rewrite slen_app in E; cbn in E; lia.
  - destruct b, b'; cbn [suffix] in E.
    + f_equal. apply IH. now apply s_inj.
    + exfalso. destruct (list_ends (suffix w')) as [t Et]. rewrite Et in E. revert E. now apply last_differs.
    + exfalso. destruct (list_ends (suffix w)) as [t Et]. rewrite Et in E. revert E. now apply last_differs.
    + f_equal. apply IH. now apply list_inj.
Qed.
Lemma sapp_cancel k : forall a b, k ++ a = k ++ b -> a = b.
Proof. induction k as [|c k IH]; cbn; auto. intros a b E. injection E as E. auto. Qed.
(** All words of at most [n] letters *)
Fixpoint bwords (n : nat) : list (list bool) := match n with O => [[]] | S n' => [] :: flat_map (fun w => [true :: w; false :: w]) (bwords n') end.
Lemma bwords_in n : forall w, In w (bwords n) <-> (List.length w <= n)%nat.
Proof.
  induction n as [|n IH]; intro w; cbn [bwords].
  - split; [intros [<-|[]]; cbn; lia|]. destruct w; cbn; [auto|lia].
  - split.
    + intros [<-|H]; cbn; [lia|]. apply in_flat_map in H. destruct H as (w' & H & [<-|[<-|[]]]); apply IH in H; cbn; lia.
    + destruct w as [|b w]; [now left|]. cbn. intro H. right. apply in_flat_map. exists w. split; [apply IH; lia|destruct b; cbn; auto].
Qed.
Lemma bwords_length n : (List.length (bwords n) = 2 ^ S n - 1)%nat.
Proof.
  induction n as [|n IH]; [reflexivity|]. cbn [bwords List.length].
  assert (L : forall l : list (list bool), List.length (flat_map (fun w => [true :: w; false :: w]) l) = (2 * List.length l)%nat).
  { induction l as [|w l IHl]; cbn; [reflexivity|]. rewrite IHl. lia. }
  rewrite L, IH. assert (X := Nat.pow_nonzero 2 n). cbn. lia.
Qed.
Lemma bwords_nodup n : NoDup (bwords n).
Proof.
  induction n as [|n IH]; [repeat constructor; auto|]. cbn [bwords]. constructor.
  - intro H. apply in_flat_map in H. destruct H as (w & _ & [H|[H|[]]]); discriminate H.
  - revert IH. generalize (bwords n). induction l as [|w l IHl]; cbn; intro N; [constructor|]. apply NoDup_cons_iff in N. destruct N as [N1 N2].
    assert (X : forall b, ~ In (b :: w) (flat_map (fun w => [true :: w; false :: w]) l)).
    { intros b H. apply in_flat_map in H. destruct H as (w' & H & [E|[E|[]]]); injection E as _ <-; contradiction. }
    repeat constructor; auto. intros [E|H]; [discriminate E|]. now apply (X true).
Qed.
Lemma update_forms r k : dict_wf r -> dmem r k = true -> dmem (update_registry r) k = true /\
  dmem (update_registry r) (plural k) = true /\ dmem (update_registry r) (k ++ "_list") = true.
Proof.
  intros W H. assert (G : forall k', source k' (k, of_func (Base 0)) = true -> dmem (update_registry r) k' = true).
  { intros k' S. unfold dmem. rewrite dget_update by auto. destruct (dget r k'); auto.
    destruct (find (source k') r) eqn:Ef; auto. exfalso. apply dmem_in in H. apply in_map_iff in H. destruct H as ([k1 e1] & E & I). cbn in E. subst.
    apply (find_none _ _ Ef) in I. unfold source in *. cbn in *. congruence. }
  split; [|split]; [|apply G; unfold source; cbn; now rewrite String.eqb_refl|apply G; unfold source; cbn; now rewrite String.eqb_refl, orb_true_r].
  unfold dmem in *. rewrite dget_update by auto. now destruct (dget r k).
Qed.
Lemma register_keeps (r kw : registry) k : dmem r k = true -> dmem (dupdate r kw) k = true.
Proof. unfold dmem. rewrite dget_dupdate. destruct (last_bound kw k), (dget r k); auto. Qed.
Lemma registered_words h : forall r k w0, dict_wf r -> w0 <> [] -> dmem r (k ++ suffix w0) = true ->
  forall w, (List.length w <= List.length h)%nat -> dmem (registered r h) (k ++ suffix (w ++ w0)%list) = true.
Proof.
  intros r k w0 W N H. revert h. intro h. rewrite <- (rev_involutive h). induction (rev h) as [|kw h' IH]; cbn [rev]; intros w L.
  - cbn in L. destruct w; [exact H|cbn in L; lia].
  - unfold registered. rewrite fold_left_app. cbn [fold_left]. fold (registered r (rev h')).
    rewrite app_length in L. cbn in L. assert (Wr : dict_wf (registered r (rev h'))) by now apply registered_wf.
    unfold register. destruct w as [|b w].
    + cbn [List.app]. apply update_forms; [now apply dupdate_wf|]. apply register_keeps. apply (IH []). cbn. lia.
    + cbn [List.length] in L. assert (X := register_keeps _ kw _ (IH w ltac:(lia))).
      destruct (update_forms _ _ (dupdate_wf _ kw Wr) X) as (_ & X2 & X3). destruct b; cbn [List.app].
      * rewrite suffix_plural in X2; auto. now destruct w.
      * cbn [suffix]. now rewrite <- sapp_assoc.
Qed.
Theorem C53_growth_refuted r k h : dict_wf r -> dmem r (k ++ "_list") = true -> 
  (forall w, (List.length w <= List.length h)%nat -> dmem (registered r h) (k ++ suffix (w ++ [false])%list) = true) /\
  (2 ^ S (List.length h) - 1 <= List.length (registered r h))%nat.
Proof.
  intros W H. assert (A : forall w, (List.length w <= List.length h)%nat -> dmem (registered r h) (k ++ suffix (w ++ [false])%list) = true).
  { apply registered_words; auto. discriminate. }
  split; [exact A|]. rewrite <- bwords_length. rewrite <- (map_length (fun w => k ++ suffix (w ++ [false])%list)). 
  replace (List.length (registered r h)) with (List.length (dkeys (registered r h))) by apply map_length.
  apply NoDup_incl_length.
  - apply FinFun.Injective_map_NoDup; [|apply bwords_nodup]. intros w w' E. apply sapp_cancel, suffix_inj in E. now apply app_inv_tail in E.
  - intros x Hx. apply in_map_iff in Hx. destruct Hx as (w & <- & Hw). apply dmem_in, A. now apply bwords_in.
Qed.

(** ** Calls *)
(** A scalar validator gets its own keywords, the others are dropped... *)
Theorem C53_call params run to_int n v args kw : call params run to_int (Wrap (Base n)) v args kw =
  run n v args (filter (fun kv => existsb (String.eqb (fst kv)) (params n)) kw).
Proof. reflexivity. Qed.
Theorem C53_extra_keywords params run to_int n v args kw k x : ~ In k (params n) ->
  call params run to_int (Wrap (Base n)) v args (dset kw k x) = call params run to_int (Wrap (Base n)) v args (ddel kw k).
Proof.
  intro N. rewrite !C53_call. f_equal.
  assert (B : forall k', existsb (String.eqb k') (params n) = true -> k' <> k).
  { intros k' H E. subst. apply existsb_exists in H. destruct H as (y & Hy & E). apply String.eqb_eq in E. now subst. }
  assert (Bk : existsb (String.eqb k) (params n) = false).
  { destruct (existsb (String.eqb k) (params n)) eqn:E; auto. now apply B in E. }
  assert (D : forall d : dict yval, filter (fun kv => existsb (String.eqb (fst kv)) (params n)) (ddel d k) = filter (fun kv => existsb (String.eqb (fst kv)) (params n)) d).
  { unfold ddel. induction d as [|[k' y] d IH]; cbn; auto. destruct (String.eqb_spec k k') as [->|]; cbn; [now rewrite Bk|]. now rewrite IH. }
  rewrite D. clear D. induction kw as [|[k' y] kw IH]; cbn; [now rewrite Bk|].
  destruct (String.eqb_spec k k') as [->|]; cbn; [now rewrite Bk|]. now rewrite IH.
Qed.
(** ... and a list validator applies it to the elements, in order. *)
Theorem C53_list_call params run to_int n v args kw sz smin smax out :
  ~ none_like v -> int_arg to_int (dget kw "n") = Ok sz -> int_arg to_int (dget kw "nmin") = Ok smin -> int_arg to_int (dget kw "nmax") = Ok smax ->
  dget kw "shape" = None ->
  let o := mklopts sz smin smax (dget kw "odd") (dget kw "even") false in flags_given o ->
  let w := effective args (dget kw "default") v in
  call params run to_int (WrapList (Wrap (Base n))) v args kw = Ok out <->
  allowed o (List.length (elements w)) /\
  exists l, Forall2 (fun x y => run n x args (filter (fun kv => existsb (String.eqb (fst kv)) (params n)) (filter (fun kv => negb (existsb (String.eqb (fst kv)) ["n"; "nmin"; "nmax"; "odd"; "even"; "shape"])) kw)) = Ok y) (elements w) l /\ out = rebuilt w l.
Proof.
  intros Nn En Emin Emax Es o Fo w. cbn [call].
  assert (Np : prints_none v = false).
  { destruct v; cbn; auto; [exfalso; apply Nn; now left|]. destruct (String.eqb_spec s "None"); auto. subst. exfalso. apply Nn. now right. }
  rewrite Np, En, Emin, Emax, Es. cbn [bind]. fold o. rewrite C32_accepts by auto. fold w. cbn [o_shape o argspec]. tauto.
Qed.
(** ** Validators *)
Lemma functions_get r k : dict_wf r -> dget (functions r) k = match dget r k with Some e => e_func e | None => None end.
Proof.
  induction r as [|[k' [f b i o a]] r IH]; intro W2; [reflexivity|]. unfold dict_wf in W2. cbn in W2. apply NoDup_cons_iff in W2. destruct W2 as [N W2].
  cbn [functions flat_map]. cbn [dget]. destruct (String.eqb_spec k k') as [->|Nk].
  - destruct f; cbn; [now rewrite String.eqb_refl|]. fold (functions r). rewrite IH; auto. now rewrite (proj2 (dget_none r k') N).
  - destruct f; cbn; [destruct (String.eqb_spec k k'); [congruence|]|]; fold (functions r); now apply IH.
Qed.
Theorem C53_validator own r user k : dict_wf own -> dict_wf r -> dict_wf user ->
  dget (get_validator own r user) k = option_map valwrap
    match dget user k with
    | Some f => Some f
    | None => match dget r k with
              | Some (mkentry (Some f) _ _ _ _) => Some f
              | _ => dget own k
              end
    end.
Proof.
  intros W1 W2 W3. unfold get_validator.
  assert (M : forall (d : dict func), dget (map (fun kf => (fst kf, valwrap (snd kf))) d) k = option_map valwrap (dget d k)).
  { induction d as [|[k' f] d IH]; cbn; auto. now destruct (String.eqb_spec k k'). }
  assert (K : forall x, ~ In x (dkeys r) -> ~ In x (dkeys (functions r))).
  { intros x. clear W2. induction r as [|[k' [f b i o a]] r IH]; cbn; auto. destruct f; cbn; tauto. }
  assert (Wf : dict_wf (functions r)).
  { clear M. revert K. induction r as [|[k' [f b i o a]] r IH]; intro K; [constructor|]. unfold dict_wf in W2. cbn in W2. apply NoDup_cons_iff in W2. destruct W2 as [N W2].
    assert (K' : forall x, ~ In x (dkeys r) -> ~ In x (dkeys (functions r))).
    { intros x. clear. induction r as [|[k'' [f b i o a]] r IH]; cbn; auto. destruct f; cbn; tauto. }
    destruct f; cbn; [|now apply IH]. unfold dict_wf. cbn. constructor; [now apply K'|]. now apply IH. }
  rewrite M, dget_dupdate, last_bound_wf, dget_dupdate, last_bound_wf by auto. f_equal. destruct (dget user k); auto.
  rewrite functions_get by auto. destruct (dget r k) as [[[]]|]; reflexivity.
Qed.
Lemma import_wf fo : dict_wf (map (fun k => (k, of_func (Base (fo k)))) names0).
Proof. unfold dict_wf, dkeys. rewrite map_map. cbn. repeat constructor; cbn; intuition discriminate. Qed.
(** Types of the module, and lists of them *)
Definition documented_types : list string := ["boolean"; "float"; "integer"; "string"; "option"; "numerics"; "minmax"; "interval"; "dict"; "eval";
  "date"; "datetime"; "datetime64"; "pydatetime"; "cdtime"; "timestamp"; "daterange"; "file"; "path"; "directory"; "figsize"; "bbox"; "cmap"; "color"].
Theorem C53_import fo k p : In k documented_types -> plural_of k p ->
  func_at (import_registry fo) k (Wrap (Base (fo k))) /\
  func_at (import_registry fo) (k ++ "_list") (WrapList (Wrap (Base (fo k)))) /\
  func_at (import_registry fo) p (WrapList (Wrap (Base (fo k)))).
Proof.
  intros Hk Hp. rewrite (plural_unique _ _ Hp). clear Hp p.
  assert (A : forall k, In k documented_types -> dget (functions (import_registry fo)) k = Some (Wrap (Base (fo k))) /\
     dget (functions (import_registry fo)) (k ++ "_list") = Some (WrapList (Wrap (Base (fo k)))) /\
     dget (functions (import_registry fo)) (plural k) = Some (WrapList (Wrap (Base (fo k))))).
  { intros k0 H. cbn [documented_types In] in H. repeat (destruct H as [<-|H]; [repeat split; reflexivity|]). destruct H. }
  destruct (A _ Hk) as (A1 & A2 & A3).
  assert (W : dict_wf (import_registry fo)) by apply update_wf, import_wf.
  assert (F : forall k f, dget (functions (import_registry fo)) k = Some f -> func_at (import_registry fo) k f).
  { intros k0 f H. rewrite functions_get in H by exact W. unfold func_at. destruct (dget (import_registry fo) k0) as [e|]; [|discriminate]. eauto. }
  auto.
Qed.
Example ex_plurals : plural_of "box" "boxes" /\ plural_of "directory" "directories" /\ plural_of "date" "dates".
Proof.
  split; [exact (pl_x "bo")|]. split; [exact (pl_y "director")|]. apply pl_s; intros t H.
  all: revert H; change "date" with ("dat" ++ "e"); now apply last_differs.
Qed.
Example ex_registry : let r := registered (import_registry (fun k => String.length k)) [[("box", of_func (Base 40))]; [("box", of_func (Base 41))]] in
  func_at r "box" (Wrap (Base 41)) /\ func_at r "boxes" (WrapList (Wrap (Base 40))) /\
  List.length (import_registry (fun k => String.length k)) = 72%nat /\ List.length r = 367%nat.
Proof. cbn zeta. split; [eexists; split; [vm_compute; reflexivity|reflexivity]|]. split; [eexists; split; [vm_compute; reflexivity|reflexivity]|]. split; vm_compute; reflexivity. Qed.
(** A validator that adds the keyword "by" and does not know the keyword "info" *)
Definition run_ex (n : nat) (v : yval) (args : list yval) (kw : dict yval) : res yval :=
  match v, kw with
  | YNum (Some q), [("by", YNum (Some b))] => Ok (YNum (Some (q + b)%Q))
  | _, _ => Raise VdtTypeError
  end.
Example ex_call : let kw := [("info", YStr "x"); ("n", YNum (Some 2%Q)); ("by", YNum (Some 1%Q))] in
  let toi v := match v with YNum (Some q) => Ok (Qnum q) | _ => Raise TypeError end in
  call (fun _ => ["value"; "by"]) run_ex toi (WrapList (Wrap (Base 7))) (YTuple [YNum (Some 1%Q); YNum (Some 5%Q)]) [] kw
  = Ok (YTuple [YNum (Some 2%Q); YNum (Some 6%Q)]).
Proof. reflexivity. Qed.
