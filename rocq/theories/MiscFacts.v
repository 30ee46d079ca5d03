(** Links between the boolean helpers and the plain specification of C18, C21. *)
From Verif Require Export MiscProofs.
Open Scope nat_scope.

Lemma ends_us f : ends_with_char f "_"%char = true <-> exists g, f = (g ++ "_")%string.
Proof.
  split.
  - induction f as [|c f IH]; [discriminate|]. destruct f as [|c' f].
    + simpl. intro H. apply Ascii.eqb_eq in H. subst. exists ""%string. reflexivity.
    + intro H. destruct IH as [g Hg]; [exact H|]. exists (String c g). simpl. congruence.
  - intros [g ->]. induction g as [|c g IH]; [reflexivity|].
    change (String c g ++ "_")%string with (String c (g ++ "_"))%string.
    destruct (g ++ "_")%string eqn:E; [destruct g; discriminate|]. exact IH.
Qed.
Lemma ends_us_false f : ends_with_char f "_"%char = false <-> ~ exists g, f = (g ++ "_")%string.
Proof. rewrite <- ends_us. destruct (ends_with_char f "_"%char); split; congruence. Qed.

Lemma prefix_of_iff short f p : prefix_of short f p <-> p = filter_prefix short f.
Proof.
  unfold prefix_of, filter_prefix. rewrite <- ends_us_false, <- ends_us.
  destruct short, (ends_with_char f "_"%char); simpl; intuition congruence.
Qed.

Lemma str_app_inv p a b : (p ++ a)%string = (p ++ b)%string -> a = b.
Proof. induction p as [|c p IH]; simpl; auto. intro H. injection H as H. auto. Qed.

Lemma with_prefix_iff short f k : with_prefix short f k = true <->
  exists o, by_prefix short f k o.
Proof.
  unfold with_prefix, by_prefix. rewrite andb_true_iff, startswith_app. split.
  - intros [[t ->] H]. exists t, (filter_prefix short f). rewrite prefix_of_iff.
    split; [auto|]. split; [auto|]. intros ->. rewrite string_app_nil, String.eqb_refl in H.
    discriminate.
  - intros (o & p & Hp & -> & Ho). apply prefix_of_iff in Hp. subst p. split; [eauto|].
    apply negb_true_iff. apply String.eqb_neq. intro H. apply Ho.
    apply (str_app_inv (filter_prefix short f)). now rewrite string_app_nil.
Qed.
Lemma by_prefix_sdrop short f k o : by_prefix short f k o ->
  sdrop (String.length (filter_prefix short f)) k = o.
Proof.
  intros (p & Hp & -> & _). apply prefix_of_iff in Hp. subst p. apply sdrop_app.
Qed.
Lemma exact_key_iff f k : exact_key f k = true <-> by_name f k.
Proof.
  unfold exact_key, by_name. rewrite andb_true_iff, negb_true_iff, ends_us_false, String.eqb_eq.
  tauto.
Qed.
Lemma selects_iff short f k : selects short f k = true <->
  by_name f k \/ exists o, by_prefix short f k o.
Proof. unfold selects. rewrite orb_true_iff, exact_key_iff, with_prefix_iff. tauto. Qed.
Lemma picked_iff short fs k :
  existsb (fun f => selects short f k) fs = true <-> picked short fs k.
Proof.
  unfold picked. rewrite existsb_exists. split; intros (f & Hf & H); exists f; split; auto;
    now apply selects_iff.
Qed.

Lemma emitted_iff short keep f kw o v : dict_wf kw ->
  In (o, v) (emitted short keep f kw) <->
  exists k w, In (k, w) kw /\ comes_from short keep f k w o v.
Proof.
  intro Hwf. unfold emitted, comes_from. rewrite in_app_iff. split.
  - intros [H|H].
    + destruct (ends_with_char f "_"%char) eqn:Ee; [destruct H|].
      destruct (dget kw f) as [w|] eqn:Eg; [|destruct H].
      exists f, w. split; [now apply dget_some_in|]. left. split.
      { split; auto. now apply ends_us_false. }
      destruct w; try (right; destruct H as [H|[]]; injection H as <- <-;
         split; [intros d Hd; discriminate|auto]).
      left. eauto.
    + apply in_map_iff in H. destruct H as ([k w] & E & Hk). apply filter_In in Hk.
      destruct Hk as [Hk Hp]. cbn [fst snd] in *. injection E as <- <-.
      exists k, w. split; auto. right. apply with_prefix_iff in Hp. destruct Hp as [r Hr].
      exists r. split; auto. split; auto. destruct keep; auto. eapply by_prefix_sdrop; eauto.
  - intros (k & w & Hk & [[[-> Hn] Hc]|(r & Hr & -> & Ho)]).
    + left. apply ends_us_false in Hn. rewrite Hn. apply (dget_in kw f w Hwf) in Hk. rewrite Hk.
      destruct Hc as [(d & -> & Hd)|(Hd & -> & ->)]; auto.
      destruct w; try (simpl; now left). exfalso. now apply (Hd d).
    + right. apply in_map_iff. exists (k, w). cbn [fst snd]. split.
      * f_equal. subst o. destruct keep; auto. eapply by_prefix_sdrop; eauto.
      * apply filter_In. split; auto. apply with_prefix_iff. eauto.
Qed.

(** strip *)
Lemma str_app_assoc a b c : ((a ++ b) ++ c = a ++ b ++ c)%string.
Proof. symmetry. apply string_app_assoc. Qed.

Lemma lstrip_spec s : exists a, s = (a ++ lstrip s)%string /\
  (forall c, In c (list_ascii_of_string a) -> is_space c = true) /\
  match lstrip s with EmptyString => True | String c _ => is_space c = false end.
Proof.
  induction s as [|c s (a & E & Ha & Hl)]; simpl.
  - exists ""%string. simpl. tauto.
  - destruct (is_space c) eqn:Ec.
    + exists (String c a). simpl. split; [congruence|]. split; auto.
      intros x [<-|Hx]; auto.
    + exists ""%string. simpl. rewrite Ec. tauto.
Qed.
Lemma rstrip_spec s : exists b, s = (rstrip s ++ b)%string /\
  (forall c, In c (list_ascii_of_string b) -> is_space c = true) /\
  (rstrip s <> ""%string -> forall d, is_space (List.last (list_ascii_of_string (rstrip s)) d) = false).
Proof.
  induction s as [|c s (b & E & Hb & Hl)]; simpl.
  - exists ""%string. simpl. repeat split; [tauto|]. congruence.
  - destruct (rstrip s) as [|c' r] eqn:Er.
    + simpl in E. subst b. destruct (is_space c) eqn:Ec.
      * exists (String c s). simpl. split; auto. split; [intros x [<-|Hx]; auto|congruence].
      * exists s. simpl. auto.
    + exists b. split; [simpl in *; congruence|]. split; auto. intros _ d.
      specialize (Hl ltac:(discriminate) d). simpl in *. exact Hl.
Qed.
Lemma rstrip_head c s : is_space c = false ->
  exists r, rstrip (String c s) = String c r.
Proof. intro H. simpl. destruct (rstrip s); [rewrite H|]; eauto. Qed.

Lemma strip_ok s : stripped s (strip s).
Proof.
  unfold strip, stripped. destruct (lstrip_spec s) as (a & E & Ha & Hl).
  destruct (rstrip_spec (lstrip s)) as (b & E2 & Hb & Hl2).
  exists a, b. split; [congruence|]. split.
  { intros c [H|H]; auto. }
  destruct (lstrip s) as [|c t] eqn:El.
  - simpl. exact I.
  - destruct (rstrip_head c t Hl) as [r Hr]. rewrite Hr in *. cbn [list_ascii_of_string].
    split; auto. apply (Hl2 ltac:(discriminate) c).
Qed.
Lemma list_app_str a b : list_ascii_of_string (a ++ b)%string =
  (list_ascii_of_string a ++ list_ascii_of_string b)%list.
Proof. induction a as [|c a IH]; simpl; congruence. Qed.
Lemma list_str_inj a b : list_ascii_of_string a = list_ascii_of_string b -> a = b.
Proof.
  intro H. rewrite <- (string_of_list_ascii_of_string a), <- (string_of_list_ascii_of_string b).
  now rewrite H.
Qed.
Lemma lstrip_sp a s : (forall c, In c (list_ascii_of_string a) -> is_space c = true) ->
  lstrip (a ++ s)%string = lstrip s.
Proof.
  induction a as [|c a IH]; simpl; auto. intro H. rewrite (H c) by auto. apply IH. auto.
Qed.
Lemma rstrip_sp b : (forall c, In c (list_ascii_of_string b) -> is_space c = true) ->
  rstrip b = ""%string.
Proof.
  induction b as [|c b IH]; simpl; auto. intro H. rewrite IH by auto. now rewrite (H c) by auto.
Qed.
Lemma rstrip_app t b : (forall c, In c (list_ascii_of_string b) -> is_space c = true) ->
  rstrip (t ++ b)%string = rstrip t.
Proof.
  intro H. induction t as [|c t IH]; simpl; [now apply rstrip_sp|]. now rewrite IH.
Qed.
Lemma rstrip_id t : (t = ""%string \/ exists d, is_space (List.last (list_ascii_of_string t) d) = false) ->
  rstrip t = t.
Proof.
  induction t as [|c t IH]; simpl; auto. intros [H|[d H]]; [discriminate|].
  destruct t as [|c' t].
  - simpl in *. now rewrite H.
  - rewrite IH; auto. right. exists d. exact H.
Qed.
Lemma strip_unique s t : stripped s t -> t = strip s.
Proof.
  intros (a & b & -> & Hab & Ht). unfold strip. rewrite lstrip_sp by auto.
  destruct t as [|c t].
  - simpl. rewrite <- (string_app_nil b), lstrip_sp by auto. reflexivity.
  - cbn [list_ascii_of_string] in Ht. destruct Ht as [Hc Hl].
    assert (El : lstrip (String c t ++ b) = (String c t ++ b)%string) by (simpl; now rewrite Hc).
    rewrite El. rewrite rstrip_app by auto. symmetry. apply rstrip_id. right. exists c. exact Hl.
Qed.
