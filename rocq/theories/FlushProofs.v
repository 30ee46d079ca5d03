(** Facts for C24: DimFlusher1D. *)
From Verif Require Export CoordsProofs.
Open Scope nat_scope.

(** *** Row-major order *)
Lemma prod_app s1 s2 : prod (s1 ++ s2) = prod s1 * prod s2.
Proof. induction s1 as [|n s IH]; simpl; [lia|]. rewrite IH. lia. Qed.
Lemma ravel_app s1 i1 s2 i2 : List.length s1 = List.length i1 ->
  ravel (s1 ++ s2) (i1 ++ i2) = ravel s1 i1 * prod s2 + ravel s2 i2.
Proof.
  revert i1; induction s1 as [|n s IH]; intros [|i i1]; simpl; intro H; try discriminate; auto.
  rewrite IH by lia. rewrite prod_app. nia.
Qed.
Lemma ravel_lt s : forall i, Forall2 lt i s -> ravel s i < prod s.
Proof.
  induction s as [|n s IH]; intros i H; inversion H; subst; simpl; [lia|].
  match goal with H1 : _ < n, H2 : Forall2 lt _ s |- _ => specialize (IH _ H2); nia end.
Qed.
Lemma unravel_ravel s : forall i, Forall2 lt i s -> unravel s (ravel s i) = i.
Proof.
  induction s as [|n s IH]; intros i H; inversion H; subst; simpl; auto.
  match goal with H1 : ?x < n, H2 : Forall2 lt ?l s |- _ =>
    assert (Hr := ravel_lt s l H2); rewrite (IH _ H2) || idtac;
    rewrite Nat.div_add_l by lia; rewrite (Nat.div_small _ _ Hr), Nat.add_0_r; f_equal;
    rewrite (Nat.add_comm (x * _)), Nat.mod_add by lia; rewrite (Nat.mod_small _ _ Hr); auto
  end.
Qed.
(** Rows of an array with less leading dimensions *)
Lemma ravel_mod s1 i1 s2 i2 : List.length s1 = List.length i1 -> Forall2 lt i2 s2 ->
  ravel (s1 ++ s2) (i1 ++ i2) mod prod s2 = ravel s2 i2.
Proof.
  intros H1 H2. assert (Hr := ravel_lt _ _ H2). rewrite ravel_app by auto.
  rewrite Nat.add_comm, Nat.mod_add by lia. now apply Nat.mod_small.
Qed.

Lemma last_snoc {A} (l : list A) x d : List.last (l ++ [x]) d = x.
Proof. apply last_last. Qed.

(** *** Flattening *)
Definition row {A} (a : da A) (L : list string) (env : string -> nat) : nat :=
  ravel (map (size a) L) (map env L).
Lemma range_forall2 {A} (a : da A) L (env : string -> nat) :
  (forall x, In x L -> env x < size a x) -> Forall2 lt (map env L) (map (size a) L).
Proof.
  induction L as [|d L IH]; simpl; intro H; constructor; auto.
Qed.
Lemma reshape2_ok {A} (a : da A) L d : wf a -> dims a = (L ++ [d])%list -> 0 < size a d ->
  exists x, reshape2 a = Ok x /\ List.length x = prod (map (size a) L) /\
    Forall (fun r => List.length r = size a d) x /\
    forall env, in_range a env d ->
      nth_error x (row a L env) = Some (column a env d).
Proof.
  intros Hwf Hd Hs. assert (Hsh := wf_shape a Hwf).
  assert (HdL : ~ In d L).
  { destruct Hwf as [_ HN]. rewrite Hd in HN. apply NoDup_remove_2 in HN. now rewrite app_nil_r in HN. }
  rewrite Hd, map_app in Hsh. cbn [map] in Hsh.
  eexists. split.
  { unfold reshape2. rewrite Hsh. destruct (map (size a) L ++ [size a d])%list eqn:E.
    - destruct (map (size a) L); discriminate.
    - rewrite <- E. rewrite last_last, removelast_last.
      destruct (Nat.eqb_spec (size a d) 0); [lia|reflexivity]. }
  split; [now rewrite map_length, seq_length|]. split.
  { apply Forall_forall. intros r Hr. apply in_map_iff in Hr. destruct Hr as (k & <- & _).
    now rewrite map_length, seq_length. }
  intros env Hr.
  assert (HF : Forall2 lt (map env L) (map (size a) L)).
  { apply range_forall2. intros x Hx. apply Hr; [rewrite Hd; apply in_or_app; auto|]. intros ->. contradiction. }
  unfold row. rewrite nth_error_map.
  rewrite (nth_error_nth' _ 0) by (rewrite seq_length; now apply ravel_lt).
  rewrite seq_nth by now apply ravel_lt. cbn [option_map plus]. f_equal.
  unfold column. apply map_ext. intro k. rewrite unravel_ravel by auto. unfold look.
  f_equal. rewrite Hd, map_app. cbn [map]. f_equal.
  - apply map_ext_in. intros y Hy. unfold setpos. destruct (String.eqb_spec y d) as [->|]; auto. contradiction.
  - unfold setpos. now rewrite String.eqb_refl.
Qed.

(** *** Broadcasting *)
Lemma set_dims_facts {A} (a : da A) nd : NoDup (map fst nd) -> incl (dims a) (map fst nd) ->
  wf (set_dims a nd) /\ dims (set_dims a nd) = map fst nd /\
  (forall env, look (set_dims a nd) env = look a env) /\
  (forall d k, In (d, k) nd -> size (set_dims a nd) d = k).
Proof.
  intros HN Hi. split; [|split; [reflexivity|split]].
  - split; cbn [set_dims dims shape]; [now rewrite !map_length|auto].
  - intro env. unfold look. cbn [set_dims dims value]. now rewrite map_pos.
  - intros d k Hin. unfold size, pos. cbn [set_dims dims shape].
    replace (combine (map fst nd) (map snd nd)) with nd.
    + rewrite (proj2 (dget_in nd d k HN) Hin). reflexivity.
    + clear. induction nd as [|[x y] nd IH]; simpl; congruence.
Qed.
Lemma nodup_app_intro {A} (l1 l2 : list A) : NoDup l1 -> NoDup l2 ->
  (forall x, In x l1 -> ~ In x l2) -> NoDup (l1 ++ l2).
Proof.
  intros H1 H2 H. induction l1 as [|x l1 IH]; simpl; auto. inversion H1; subst. constructor.
  - rewrite in_app_iff. intros [Hx|Hx]; auto. apply (H x); simpl; auto.
  - apply IH; auto. intros y Hy. apply H. simpl; auto.
Qed.
Lemma filter_all {A} (p : A -> bool) l : (forall x, In x l -> p x = true) -> List.filter p l = l.
Proof.
  induction l as [|x l IH]; simpl; intro H; auto. rewrite (H x) by auto. f_equal. apply IH. auto.
Qed.
Lemma filter_none {A} (p : A -> bool) l : (forall x, In x l -> p x = false) -> List.filter p l = [].
Proof.
  induction l as [|x l IH]; simpl; intro H; auto. rewrite (H x) by auto. apply IH. auto.
Qed.
Definition minus (l m : list string) : list string := List.filter (fun d => negb (mem d m)) l.
Lemma in_minus d l m : In d (minus l m) <-> In d l /\ ~ In d m.
Proof. unfold minus. rewrite filter_In, negb_true_iff, mem_nIn. tauto. Qed.
Lemma minus_nodup l m : NoDup l -> NoDup (minus l m).
Proof. apply NoDup_filter. Qed.
Lemma minus_nil l m : incl l m -> minus l m = [].
Proof. intro H. apply filter_none. intros x Hx. apply negb_false_iff, mem_In, H, Hx. Qed.

(** [a] of dimensions [La ++ [wa]] broadcast like [o] of dimensions [Lo ++ [wo]] *)
Lemma broadcast_facts {A B} (a : da A) (o : da B) La Lo wa wo d0 d1 :
  wf a -> wf o -> dims a = (La ++ [wa])%list -> dims o = (Lo ++ [wo])%list ->
  ~ In wa Lo -> ~ In wo La -> (d0 = wa /\ d1 = wo) \/ (d0 = wo /\ d1 = wa) ->
  (forall d, In d La -> In d Lo -> size a d = size o d) ->
  let r := broadcast_like a o [d0; d1] in
  wf r /\ dims r = (Lo ++ minus La Lo ++ [wa])%list /\
  (forall env, look r env = look a env) /\
  (forall d, In d (dims a) -> size r d = size a d) /\
  (forall d, In d Lo -> size r d = size o d).
Proof.
  intros Wa Wo Da Do HaL HoL Hd Hsz. cbn zeta. unfold broadcast_like.
  assert (HwoLo : ~ In wo Lo).
  { destruct Wo as [_ HN]. rewrite Do in HN. apply NoDup_remove_2 in HN. now rewrite app_nil_r in HN. }
  assert (HwaLa : ~ In wa La).
  { destruct Wa as [_ HN]. rewrite Da in HN. apply NoDup_remove_2 in HN. now rewrite app_nil_r in HN. }
  assert (NLo : NoDup Lo).
  { destruct Wo as [_ HN]. rewrite Do in HN. apply NoDup_remove_1 in HN. now rewrite app_nil_r in HN. }
  assert (NLa : NoDup La).
  { destruct Wa as [_ HN]. rewrite Da in HN. apply NoDup_remove_1 in HN. now rewrite app_nil_r in HN. }
  assert (Hm : forall d, mem d [d0; d1] = true <-> d = wa \/ d = wo).
  { intro d. rewrite mem_In. simpl. intuition (subst; auto). }
  assert (Hkwa : mem wa [d0; d1] = true) by (apply Hm; auto).
  assert (Hkwo : mem wo [d0; d1] = true) by (apply Hm; auto).
  assert (Hk : forall d, d <> wa -> d <> wo -> mem d [d0; d1] = false).
  { intros d H1 H2. destruct (mem d [d0; d1]) eqn:E; auto. apply Hm in E. tauto. }
  assert (Fo : List.filter (fun d => negb (mem d [d0; d1])) (dims o) = Lo).
  { rewrite Do, filter_app. cbn [List.filter]. rewrite Hkwo. cbn [negb]. rewrite app_nil_r.
    apply filter_all. intros x Hx. rewrite Hk; auto; intros ->; contradiction. }
  rewrite Fo.
  assert (Fa : List.filter (fun d => negb (mem d [d0; d1]) && negb (mem d Lo)) (dims a) = minus La Lo).
  { rewrite Da, filter_app. cbn [List.filter]. rewrite Hkwa. cbn [negb andb]. rewrite app_nil_r.
    unfold minus. apply filter_ext_in. intros x Hx. rewrite Hk; auto; intros ->; contradiction. }
  rewrite Fa.
  assert (Fe : List.filter (fun d => mem d (dims a)) (nodup string_dec [d0; d1]) = [wa]).
  { assert (M1 : mem wa (dims a) = true) by (apply mem_In; rewrite Da; apply in_or_app; simpl; auto).
    assert (M2 : wa <> wo -> mem wo (dims a) = false).
    { intro H. apply mem_nIn. rewrite Da. intro H'. apply in_app_or in H'. simpl in H'. intuition. }
    unfold nodup. destruct Hd as [[-> ->]|[-> ->]].
    - destruct (in_dec string_dec wa [wo]) as [[<-|[]]|Hn]; cbn [In in_dec] in *.
      + destruct (in_dec string_dec wo []) as [[]|]. cbn [List.filter]. now rewrite M1.
      + destruct (in_dec string_dec wo []) as [[]|]. cbn [List.filter]. rewrite M1, M2; [reflexivity|].
        intro Hq. apply Hn. simpl. auto.
    - destruct (in_dec string_dec wo [wa]) as [[->|[]]|Hn].
      + destruct (in_dec string_dec wo []) as [[]|]. cbn [List.filter]. now rewrite M1.
      + destruct (in_dec string_dec wa []) as [[]|]. cbn [List.filter]. rewrite M1, M2; [reflexivity|].
        intro Hq. apply Hn. simpl. auto. }
  rewrite Fe. set (nd := (_ ++ _ ++ _)%list).
  assert (Hfst : map fst nd = (Lo ++ minus La Lo ++ [wa])%list).
  { unfold nd. rewrite !map_app, !map_map. cbn [fst map]. now rewrite !map_id. }
  assert (HN : NoDup (map fst nd)).
  { rewrite Hfst. apply nodup_app_intro; auto.
    - apply nodup_app_intro; [now apply minus_nodup|repeat constructor; simpl; auto|].
      intros x Hx [<-|[]]. apply in_minus in Hx. tauto.
    - intros x Hx H. apply in_app_or in H. rewrite in_minus in H. simpl in H. intuition (subst; auto). }
  assert (Hi : incl (dims a) (map fst nd)).
  { rewrite Hfst, Da. intros x Hx. apply in_app_or in Hx. rewrite !in_app_iff, in_minus.
    destruct (mem_dec x Lo); tauto. }
  destruct (set_dims_facts a nd HN Hi) as (H1 & H2 & H3 & H4). split; auto. split; [congruence|].
  split; auto.
  assert (HLo : forall d, In d Lo -> size (set_dims a nd) d = size o d).
  { intros d H. apply H4. unfold nd. apply in_or_app. left. apply in_map_iff. eauto. }
  split; auto. intros d H. destruct (mem_dec d Lo) as [HL|HL].
  - rewrite HLo by auto. symmetry. apply Hsz; auto. rewrite Da in H. apply in_app_or in H. simpl in H.
    intuition (subst; contradiction).
  - apply H4. unfold nd. apply in_or_app. right. rewrite Da in H. apply in_app_or in H. apply in_or_app. destruct H as [H|[<-|[]]].
    + left. apply in_map_iff. exists d. split; auto. now apply in_minus.
    + right. simpl. auto.
Qed.
