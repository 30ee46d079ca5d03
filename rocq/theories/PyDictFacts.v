From Verif Require Export PyDict PyBaseFacts.
From Coq Require Export Permutation.
Open Scope nat_scope.

Section Dict.
  Context {V : Type}.
  Implicit Types d e : dict V.

  Lemma dget_dset d k v k' :
    dget (dset d k v) k' = if String.eqb k' k then Some v else dget d k'.
  Proof.
    induction d as [|[k0 v0] d IH]; simpl.
    - destruct (String.eqb_spec k' k); reflexivity.
    - destruct (String.eqb_spec k k0) as [->|Hne]; simpl.
      + destruct (String.eqb_spec k' k0); reflexivity.
      + destruct (String.eqb_spec k' k0) as [->|Hne'].
        * destruct (String.eqb_spec k0 k); [congruence|reflexivity].
        * apply IH.
  Qed.

  Lemma dget_in d k v : dict_wf d -> (dget d k = Some v <-> In (k, v) d).
  Proof.
    unfold dict_wf, dkeys. induction d as [|[k0 v0] d IH]; simpl; intro H.
    - split; [discriminate|tauto].
    - inversion H as [|? ? Hn Hd]; subst. destruct (String.eqb_spec k k0) as [->|Hne].
      + split.
        * intro E; inversion E; subst. auto.
        * intros [E|E]; [inversion E; reflexivity|]. exfalso. apply Hn.
          change k0 with (fst (k0, v)). now apply in_map.
      + rewrite IH by auto. split; [auto|]. intros [E|E]; [congruence|auto].
  Qed.

  Lemma dget_some_in d k v : dget d k = Some v -> In (k, v) d.
  Proof.
    induction d as [|[k0 v0] d IH]; simpl; [discriminate|].
    destruct (String.eqb_spec k k0) as [->|Hne]; intro H; [inversion H; auto|auto].
  Qed.

  Lemma dget_none d k : dget d k = None <-> ~ In k (dkeys d).
  Proof.
    unfold dkeys. induction d as [|[k0 v0] d IH]; simpl.
    - tauto.
    - destruct (String.eqb_spec k k0) as [->|Hne].
      + split; [discriminate|]. intro H. exfalso. apply H. auto.
      + rewrite IH. split; [|tauto]. intros H [E|E]; [congruence|tauto].
  Qed.

  Lemma dmem_in d k : dmem d k = true <-> In k (dkeys d).
  Proof.
    unfold dmem. destruct (dget d k) eqn:E.
    - split; auto. intros _. destruct (in_dec string_dec k (dkeys d)); auto.
      apply dget_none in n. congruence.
    - apply dget_none in E. split; [discriminate|tauto].
  Qed.
  Lemma dmem_not d k : dmem d k = false <-> ~ In k (dkeys d).
  Proof. rewrite <- dmem_in. destruct (dmem d k); split; congruence. Qed.

  Lemma dkeys_dset d k v :
    dkeys (dset d k v) = if dmem d k then dkeys d else dkeys d ++ [k].
  Proof.
    unfold dkeys, dmem. induction d as [|[k0 v0] d IH]; simpl; auto.
    destruct (String.eqb_spec k k0) as [->|Hne]; simpl; auto.
    rewrite IH. destruct (dget d k); reflexivity.
  Qed.

  Lemma NoDup_snoc {A} (l : list A) x : NoDup l -> ~ In x l -> NoDup (l ++ [x]).
  Proof.
    induction l as [|y l IH]; simpl; intros H Hx.
    - constructor; [tauto|constructor].
    - inversion H as [|? ? Hn Hd]; subst. constructor.
      + rewrite in_app_iff. simpl. intros [E|[E|[]]]; [tauto|]. subst; tauto.
      + apply IH; tauto.
  Qed.

  Lemma dset_wf d k v : dict_wf d -> dict_wf (dset d k v).
  Proof.
    unfold dict_wf. intro H. rewrite dkeys_dset. destruct (dmem d k) eqn:E; auto.
    apply NoDup_snoc; auto. now apply dmem_not.
  Qed.

  Lemma dset_same d k v : dget d k = Some v -> dset d k v = d.
  Proof.
    induction d as [|[k0 v0] d IH]; simpl; [discriminate|].
    destruct (String.eqb_spec k k0) as [->|Hne]; intro H.
    - inversion H; subst. reflexivity.
    - now rewrite IH.
  Qed.

  Lemma dset_new d k v : ~ In k (dkeys d) -> dset d k v = d ++ [(k, v)].
  Proof.
    unfold dkeys. induction d as [|[k0 v0] d IH]; simpl; auto. intro H.
    destruct (String.eqb_spec k k0) as [->|Hne]; [tauto|]. rewrite IH; tauto.
  Qed.

  Lemma dict_ext d e : dict_wf d -> dkeys d = dkeys e ->
    (forall k, In k (dkeys d) -> dget d k = dget e k) -> d = e.
  Proof.
    unfold dict_wf. revert e; induction d as [|[k v] d IH]; intros [|[k' v'] e] Hd Hk Hg;
      simpl in *; try discriminate; auto.
    injection Hk as -> Hk.
    assert (v = v') as ->.
    { specialize (Hg k' (or_introl eq_refl)). rewrite String.eqb_refl in Hg. congruence. }
    f_equal. inversion Hd as [|? ? Hn Hd']; subst. apply IH; auto.
    intros k0 Hk0. specialize (Hg k0 (or_intror Hk0)).
    destruct (String.eqb_spec k0 k') as [E|Hne]; [subst; contradiction|auto].
  Qed.

  (** Last value bound to [k] in a list of updates *)
  Fixpoint last_bound (l : list (string * V)) (k : string) : option V :=
    match l with
    | [] => None
    | (k', v) :: l' =>
      match last_bound l' k with
      | Some w => Some w
      | None => if String.eqb k k' then Some v else None
      end
    end.

  Lemma dget_dupdate d e k :
    dget (dupdate d e) k = match last_bound e k with Some v => Some v | None => dget d k end.
  Proof.
    unfold dupdate. revert d; induction e as [|[k0 v0] e IH]; simpl; intro d; auto.
    rewrite IH. destruct (last_bound e k); auto.
    rewrite dget_dset. destruct (String.eqb k k0); auto.
  Qed.

  Lemma last_bound_app l1 l2 k :
    last_bound (l1 ++ l2) k = match last_bound l2 k with Some v => Some v | None => last_bound l1 k end.
  Proof.
    induction l1 as [|[k0 v0] l1 IH]; simpl.
    - destruct (last_bound l2 k); auto.
    - rewrite IH. destruct (last_bound l2 k); auto.
  Qed.

  Lemma last_bound_in l k v : last_bound l k = Some v -> In (k, v) l.
  Proof.
    induction l as [|[k0 v0] l IH]; simpl; [discriminate|].
    destruct (last_bound l k) eqn:E.
    - intro H; inversion H; subst. auto.
    - destruct (String.eqb_spec k k0) as [->|]; [|discriminate]. intro H; inversion H; auto.
  Qed.
  Lemma last_bound_none l k : last_bound l k = None <-> ~ In k (map fst l).
  Proof.
    induction l as [|[k0 v0] l IH]; simpl; [tauto|].
    destruct (last_bound l k) eqn:E.
    - split; [discriminate|]. intro H. exfalso. apply H. right.
      destruct (in_dec string_dec k (map fst l)); auto. apply IH in n. congruence.
    - destruct (String.eqb_spec k k0) as [->|Hne].
      + split; [discriminate|]. tauto.
      + split; auto. intros _ [H|H]; [congruence|]. now apply (proj1 IH eq_refl).
  Qed.
  Lemma last_bound_wf d k : dict_wf d -> last_bound d k = dget d k.
  Proof.
    unfold dict_wf, dkeys. induction d as [|[k0 v0] d IH]; simpl; intro H; auto.
    inversion H as [|? ? Hn Hd]; subst. rewrite IH by auto.
    destruct (String.eqb_spec k k0) as [->|Hne].
    - destruct (dget d k0) eqn:E; auto. apply dget_some_in in E. exfalso. apply Hn.
      change k0 with (fst (k0, v)). now apply in_map.
    - now destruct (dget d k).
  Qed.

  Lemma dupdate_app d e1 e2 : dupdate d (e1 ++ e2) = dupdate (dupdate d e1) e2.
  Proof. apply fold_left_app. Qed.
  Lemma dupdate_wf d e : dict_wf d -> dict_wf (dupdate d e).
  Proof.
    unfold dupdate. revert d; induction e as [|[k v] e IH]; simpl; intros d H; auto.
    apply IH. now apply dset_wf.
  Qed.

  Lemma dget_filter (p : string -> bool) d k :
    dget (List.filter (fun kv => p (fst kv)) d) k = if p k then dget d k else None.
  Proof.
    induction d as [|[k0 v0] d IH]; simpl; [now destruct (p k)|].
    destruct (p k0) eqn:E; simpl; rewrite IH; destruct (String.eqb_spec k k0) as [->|];
      rewrite ?E; auto.
  Qed.
  Lemma filter_wf (p : string * V -> bool) d : dict_wf d -> dict_wf (List.filter p d).
  Proof.
    unfold dict_wf, dkeys. induction d as [|kv d IH]; simpl; intro H; auto.
    inversion H as [|? ? Hn Hd]; subst. destruct (p kv); simpl; auto.
    constructor; auto. rewrite in_map_iff. intros [x [Ex Hx]]. apply filter_In in Hx.
    apply Hn. rewrite in_map_iff. exists x. tauto.
  Qed.
  Lemma filter_filter {A} (p q : A -> bool) (l : list A) :
    List.filter p (List.filter q l) = List.filter (fun x => q x && p x) l.
  Proof.
    induction l as [|x l IH]; simpl; auto.
    destruct (q x); simpl; [destruct (p x)|]; rewrite ?IH; auto.
  Qed.
End Dict.

(** ** Strings *)
Lemma startswith_refl s : startswith s s = true.
Proof. unfold startswith. induction s as [|c s IH]; simpl; auto. destruct (ascii_dec c c); congruence. Qed.

Lemma startswith_app s p : startswith s p = true <-> exists t, s = (p ++ t)%string.
Proof.
  unfold startswith. revert s; induction p as [|c p IH]; intros s; simpl.
  - destruct s; split; eauto.
  - destruct s as [|c' s]; [split; [discriminate|intros [t H]; discriminate]|].
    simpl. destruct (ascii_dec c c') as [->|Hne].
    + rewrite IH. split; intros [t H]; exists t; congruence.
    + split; [discriminate|]. intros [t H]. congruence.
Qed.

Lemma sdrop_app p t : sdrop (String.length p) (p ++ t)%string = t.
Proof. induction p as [|c p IH]; simpl; auto. Qed.

Lemma string_app_nil s : (s ++ "")%string = s.
Proof. induction s as [|c s IH]; simpl; congruence. Qed.
Lemma string_app_assoc a b c : (a ++ (b ++ c) = (a ++ b) ++ c)%string.
Proof. induction a as [|x a IH]; simpl; congruence. Qed.

Lemma lower_ascii_idem c : lower_ascii (lower_ascii c) = lower_ascii c.
Proof. destruct c as [[] [] [] [] [] [] [] []]; reflexivity. Qed.
Lemma lower_idem s : lower (lower s) = lower s.
Proof. induction s as [|c s IH]; simpl; auto. now rewrite lower_ascii_idem, IH. Qed.
