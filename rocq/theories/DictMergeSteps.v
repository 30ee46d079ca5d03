(** C16: merging in several steps, whatever the options. *)
From Verif Require Import DictMergeProofs PyDictFacts.
Open Scope nat_scope.

Lemma rec_dict fuel o a b m : dict_merge fuel o [VDict a; VDict b] = Ok m -> is_none m = false.
Proof.
  destruct fuel as [|fuel]; [discriminate|]. intro E. change [VDict a; VDict b] with (map VDict [a; b]) in E. rewrite dict_merge_list in E.
  destruct (merge_list _ _ _ _); cbn [bind] in E; [injection E as <-; reflexivity|discriminate].
Qed.
Lemma item_inv fuel o k v d d' : merge_item o (dict_merge fuel o) k v d = Ok d' ->
  dict_wf d -> (skipnones o = true -> forall k x, In (k, x) d -> is_none x = false) ->
  dict_wf d' /\ (skipnones o = true -> forall k x, In (k, x) d' -> is_none x = false).
Proof.
  intros E W N. unfold merge_item in E. destruct (skipnones o && is_none v)%bool eqn:Sk; [injection E as <-; auto|].
  assert (P : forall y, (skipnones o = true -> is_none y = false) -> dict_wf (dset d k y) /\ (skipnones o = true -> forall k' x, In (k', x) (dset d k y) -> is_none x = false)).
  { intros y Hy. split; [now apply dset_wf|]. intros Hs k' x Hin. apply dget_in in Hin; [|now apply dset_wf]. rewrite dget_dset in Hin.
    match type of Hin with (if ?b then _ else _) = _ => destruct b end; [injection Hin as <-; auto|]. apply (N Hs k'). now apply dget_some_in. }
  assert (V : skipnones o = true -> is_none v = false) by (intro Hs; rewrite Hs in Sk; exact Sk).
  destruct (dget d k) as [old|]; [|injection E as <-; exact (P v V)].
  destruct (overwriteempty o && is_empty old)%bool; [injection E as <-; exact (P v V)|].
  destruct old, v; try (injection E as <-; auto; fail).
  - destruct (mergelists o); injection E as <-; auto. apply P. intros _. now destruct (uniquify o).
  - destruct (mergetuples o); [|injection E as <-; auto]. destruct (uniquify o); [destruct (forallb hashable _); [|discriminate]|]; injection E as <-; apply P; auto.
  - destruct (mergesubdicts o); [|injection E as <-; auto]. destruct (dict_merge fuel o _) as [m|] eqn:Em; cbn [bind] in E; [|discriminate].
    injection E as <-. apply P. intros _. exact (rec_dict _ _ _ _ _ Em).
Qed.
Lemma list_inv fuel o l : forall d d', merge_list o (dict_merge fuel o) l d = Ok d' ->
  dict_wf d -> (skipnones o = true -> forall k x, In (k, x) d -> is_none x = false) ->
  dict_wf d' /\ (skipnones o = true -> forall k x, In (k, x) d' -> is_none x = false).
Proof.
  unfold merge_list. induction l as [|[k v] l IH]; intros d d' E W N; cbn [for_each fst snd] in E; [injection E as <-; auto|].
  destruct (merge_item o _ k v d) as [d1|] eqn:E1; cbn [next_of] in E; [|discriminate].
  destruct (item_inv _ _ _ _ _ _ E1 W N) as [W1 N1]. exact (IH _ _ E W1 N1).
Qed.
(** A merged dictionary is merged to itself *)
Lemma list_self fuel o l : forall d, dict_wf (d ++ l) -> (skipnones o = true -> forall k x, In (k, x) l -> is_none x = false) ->
  merge_list o (dict_merge fuel o) l d = Ok (d ++ l).
Proof.
  unfold merge_list. induction l as [|[k v] l IH]; intros d W N; cbn [for_each fst snd]; [now rewrite app_nil_r|].
  assert (Sk : (skipnones o && is_none v)%bool = false) by (destruct (skipnones o); cbn; [apply (N eq_refl k); now left|reflexivity]).
  assert (K : ~ In k (dkeys d)).
  { unfold dict_wf, dkeys in *. rewrite map_app in W. cbn in W. apply NoDup_remove_2 in W. intro H. apply W. apply in_or_app. now left. }
  unfold merge_item. rewrite Sk, (proj2 (dget_none d k) K), (dset_new d k v K). cbn [next_of].
  replace (d ++ (k, v) :: l) with ((d ++ [(k, v)]) ++ l) by now rewrite <- app_assoc. apply IH; [now rewrite <- app_assoc|].
  intros Hs k' x H. apply (N Hs k'). now right.
Qed.
(** Merging some dictionaries, and the result with the next ones, is merging them all at once:
    same result or same error, for all the options. *)
Theorem C16_in_steps_all : forall o fuel (ds cs : list (dict pyval)) m,
  dict_merge (S fuel) o (map VDict ds) = Ok (VDict m) ->
  dict_merge (S fuel) o (map VDict (m :: cs)) = dict_merge (S fuel) o (map VDict (ds ++ cs)).
Proof.
  intros o fuel ds cs m E. rewrite !dict_merge_list in *. cbn [List.concat]. rewrite concat_app. unfold merge_list in *.
  rewrite !(for_each_app _ _ (fun kv outd => merge_item o (dict_merge fuel o) (fst kv) (snd kv) outd)).
  match type of E with (let* _ := ?t in _) = _ => destruct t as [m'|] eqn:Em end; cbn [bind] in E; [|discriminate]. injection E as ->.
  destruct (list_inv fuel o _ _ _ Em) as [W N]; [constructor|intros _ ? ? []|].
  assert (X := list_self fuel o m [] W N). unfold merge_list in X. rewrite X. reflexivity.
Qed.
Print Assumptions C16_in_steps_all.
Local Open Scope string_scope. Local Open Scope list_scope.
(** False: the last ones can be merged first.  A value between two sections is lost in one order
    and hides the last section in the other. *)
Theorem C16_last_first_refuted : exists a b c m,
  dict_merge 5 default_opts [VDict b; VDict c] = Ok (VDict m) /\
  dict_merge 5 default_opts [VDict a; VDict m] <> dict_merge 5 default_opts [VDict a; VDict b; VDict c].
Proof.
  exists [("s", VDict [("x", VInt 1)])], [("s", VInt 0)], [("s", VDict [("y", VInt 2)])]. eexists.
  split; [reflexivity|]. vm_compute. discriminate.
Qed.
(** Case with the default options, a None and three sections *)
Example C16_in_steps_all_met : let ds := [[("s", VDict [("x", VNone); ("y", VInt 1)]); ("n", VNone)]; [("s", VDict [("x", VInt 2)])]] in
  dict_merge 5 default_opts (map VDict ds) = Ok (VDict [("s", VDict [("y", VInt 1); ("x", VInt 2)])]) /\
  dict_merge 5 default_opts (map VDict (ds ++ [[("n", VInt 3); ("s", VInt 4)]])) = Ok (VDict [("s", VDict [("y", VInt 1); ("x", VInt 2)]); ("n", VInt 3)]).
Proof. split; reflexivity. Qed.
