(** Lemmas for C28. *)
From Verif Require Export CFInheritSpec DictMergeProofs.
From Coq Require Import Lia.
Open Scope string_scope.

(** ** The merge of CF specifications *)
Lemma cf_combine1 rec a b : (forall x y, a = VDict x -> b = VDict y -> truthy a = true ->
    exists c, rec [a; b] = Ok (VDict c) /\ wf (VDict c) /\ dkeys c = gunique String.eqb (dkeys x ++ dkeys y) /\
      forall k, over_opt (dget x k) (dget y k) (dget c k)) ->
  wf a -> wf b ->
  exists c, combine1 cf_opts rec a b = Ok c /\ over a b c /\ wf c.
Proof.
  intros Hrec Wa Wb. unfold combine1. cbn [overwriteempty mergesubdicts mergelists mergetuples uniquify cf_opts andb].
  unfold is_empty. destruct (truthy a) eqn:T; cbn [negb].
  - destruct a, b;
      try (eexists; split; [reflexivity|split; [apply over_other; [exact T|..]; intros ? ? [? ?]; discriminate|exact Wa]]).
    + eexists; split; [reflexivity|]. split; [now apply over_lists|exact Logic.I].
    + eexists; split; [reflexivity|]. split; [now apply over_tuples|exact Logic.I].
    + destruct (Hrec _ _ eq_refl eq_refl eq_refl) as (c & E & Wc & Kc & Hc). exists (VDict c).
      split; [exact E|]. split; [|exact Wc]. now apply over_dicts.
  - exists b. repeat split; auto. now apply over_empty.
Qed.

Lemma cf_dict_merge fuel : forall a b, wf (VDict a) -> wf (VDict b) -> depth (VDict b) <= fuel ->
  exists c, dict_merge (S fuel) cf_opts [VDict a; VDict b] = Ok (VDict c) /\ wf (VDict c) /\
    dkeys c = gunique String.eqb (dkeys a ++ dkeys b) /\
    forall k, over_opt (dget a k) (dget b k) (dget c k).
Proof.
  induction fuel as [|fuel IH]; intros a b Wa Wb Hd; [cbn [depth] in Hd; lia|].
  apply wf_dict in Wa. apply wf_dict in Wb. destruct Wa as [Wa Va], Wb as [Wb Vb].
  change [VDict a; VDict b] with (map VDict [a; b]). rewrite dict_merge_list.
  cbn [List.concat]. rewrite app_nil_r.
  assert (Hk : forall k, exists c,
    fold1 cf_opts (dict_merge (S fuel) cf_opts) None (vals false (a ++ b) k) = Ok c /\
    over_opt (dget a k) (dget b k) c /\ match c with Some v => wf v | None => True end).
  { intro k. rewrite vals_app, !vals_dict by auto. cbn [andb].
    destruct (dget a k) as [x|] eqn:Ea, (dget b k) as [y|] eqn:Eb; cbn [app fold1 fold_vals bind].
    - destruct (cf_combine1 (dict_merge (S fuel) cf_opts) x y) as (c & E & Hc & Wc).
      + intros x' y' -> -> _. destruct (IH x' y') as (c & E & Wc & Kc & Hc).
        * eapply Va; eauto.
        * eapply Vb; eauto.
        * apply depth_get in Eb. lia.
        * exists c. auto.
      + eapply Va; eauto.
      + eapply Vb; eauto.
      + rewrite E. cbn [bind]. exists (Some c). repeat split; auto. now constructor.
    - exists (Some x). repeat split; [constructor|]. eapply Va; eauto.
    - exists (Some y). repeat split; [constructor|]. eapply Vb; eauto.
    - exists None. repeat split. constructor. }
  destruct (merge_list_ok cf_opts (dict_merge (S fuel) cf_opts) (a ++ b) []) as (out & E & Wo & Ho & Hkeys).
  - constructor.
  - intro k. destruct (Hk k) as (c & E & _). exists c. exact E.
  - rewrite E. cbn [bind]. exists out. split; [reflexivity|].
    assert (Hall : forall k, over_opt (dget a k) (dget b k) (dget out k) /\
      match dget out k with Some v => wf v | None => True end).
    { intro k. destruct (Hk k) as (c & E1 & H1 & H2). specialize (Ho k).
      cbn [skipnones cf_opts dget] in Ho. rewrite E1 in Ho. injection Ho as ->. auto. }
    assert (Hkk : dkeys out = gunique String.eqb (dkeys a ++ dkeys b)).
    { rewrite Hkeys. cbn [dkeys map app]. unfold gunique. f_equal. unfold ikeys. cbn [skipnones cf_opts].
      rewrite (filter_ext (keep false) (fun _ => true)) by (intros [? ?]; reflexivity).
      rewrite filter_true. unfold dkeys. now rewrite map_app. }
    split; [|split; [exact Hkk|apply Hall]]. apply wf_dict. split; auto. intros k v Hv. specialize (Hall k).
    rewrite Hv in Hall. apply Hall.
Qed.

Lemma cf_merge_ok a b : wf (VDict a) -> wf (VDict b) ->
  exists c, cf_merge a b = Ok c /\ wf (VDict c) /\ forall k, over_opt (dget a k) (dget b k) (dget c k).
Proof.
  intros Wa Wb. destruct (cf_dict_merge (depth (VDict b)) a b Wa Wb) as (c & E & W & _ & H); [lia|].
  exists c. unfold cf_merge. rewrite E. auto.
Qed.

(** ** References *)
Lemma split_colon_none s : no_colon s -> split_colon s = (s, None).
Proof.
  induction s as [|c s IH]; cbn [no_colon split_colon]; auto. intros [H1 H2].
  destruct (Ascii.eqb_spec c ":"); [contradiction|]. now rewrite (IH H2).
Qed.
Lemma split_colon_app a b : no_colon a -> split_colon (a ++ ":" ++ b) = (a, Some b).
Proof.
  induction a as [|c a IH]; cbn [no_colon split_colon append]; auto. intros [H1 H2].
  destruct (Ascii.eqb_spec c ":"); [contradiction|]. cbn [append] in IH. now rewrite (IH H2).
Qed.
Lemma split_colon_inv s : exists a, no_colon a /\
  ((s = a /\ split_colon s = (a, None)) \/ (exists b, s = a ++ ":" ++ b /\ split_colon s = (a, Some b))).
Proof.
  induction s as [|c s IH].
  - exists "". split; [exact Logic.I|]. left. auto.
  - cbn [split_colon]. destruct (Ascii.eqb_spec c ":") as [->|Hn].
    + exists "". split; [exact Logic.I|]. right. exists s. auto.
    + destruct IH as (a & Ha & [[-> E]|(b & -> & E)]).
      * exists (String c a). split; [split; auto|]. left. rewrite E. auto.
      * exists (String c a). split; [split; auto|]. right. exists b. rewrite E. auto.
Qed.
Lemma refers_parent cat s pc pn : refers cat s pc pn -> parent_of cat s = (pc, pn).
Proof.
  intro H. destruct H as [H|pc pn -> H1 H2|pc pn rest -> H1 H2]; unfold parent_of.
  - now rewrite split_colon_none.
  - rewrite split_colon_app by auto. now rewrite split_colon_none.
  - rewrite split_colon_app by auto. now rewrite split_colon_app.
Qed.
Lemma parent_refers cat s : refers cat s (fst (parent_of cat s)) (snd (parent_of cat s)).
Proof.
  unfold parent_of. destruct (split_colon_inv s) as (a & Ha & [[-> E]|(b & -> & E)]); rewrite E; cbn [fst snd].
  - now constructor.
  - destruct (split_colon_inv b) as (a' & Ha' & [[-> E']|(b' & -> & E')]); rewrite E'; cbn [fst].
    + now apply refers_other.
    + now apply (refers_more _ _ _ _ b').
Qed.
