From Verif Require Export DictMergeSpec MiscProofs.
Open Scope nat_scope.

(** Treatment of one more value of a key that is already set *)
Definition combine1 (o : mopts) (rec : list pyval -> res pyval) (old val : pyval) : res pyval :=
  if overwriteempty o && is_empty old then Ok val
  else match old, val with
       | VDict _, VDict _ => if mergesubdicts o then rec [old; val] else Ok old
       | VList a, VList b =>
         if mergelists o then
           Ok (if uniquify o then VGen (gunique py_eqb (a ++ b)) else VList (a ++ b))
         else Ok old
       | VTuple a, VTuple b =>
         if mergetuples o then
           if uniquify o then
             if forallb hashable (a ++ b) then Ok (VTuple (gunique py_eqb (a ++ b)))
             else Raise TypeError
           else Ok (VTuple (a ++ b))
         else Ok old
       | _, _ => Ok old
       end.
Fixpoint fold_vals (o : mopts) rec (acc : pyval) (l : list pyval) : res pyval :=
  match l with
  | [] => Ok acc
  | v :: r => let* a := combine1 o rec acc v in fold_vals o rec a r
  end.
Definition fold1 (o : mopts) rec (acc : option pyval) (l : list pyval) : res (option pyval) :=
  match acc, l with
  | None, [] => Ok None
  | None, v :: r => let* a := fold_vals o rec v r in Ok (Some a)
  | Some x, _ => let* a := fold_vals o rec x l in Ok (Some a)
  end.

(** Values and keys in a list of items *)
Definition keep (skip : bool) (kv : string * pyval) : bool := negb (skip && is_none (snd kv)).
Fixpoint vals (skip : bool) (l : list (string * pyval)) (k : string) : list pyval :=
  match l with
  | [] => []
  | (k', v) :: r =>
    if keep skip (k', v) && String.eqb k k' then v :: vals skip r k else vals skip r k
  end.
Definition ikeys (skip : bool) (l : list (string * pyval)) : list string :=
  map fst (List.filter (keep skip) l).

Lemma vals_app skip l1 l2 k : vals skip (l1 ++ l2) k = vals skip l1 k ++ vals skip l2 k.
Proof.
  induction l1 as [|[k0 v0] l1 IH]; simpl; auto. destruct (_ && _); simpl; congruence.
Qed.
Lemma vals_notin skip d k : ~ In k (dkeys d) -> vals skip d k = [].
Proof.
  unfold dkeys. induction d as [|[k0 v0] d IH]; simpl; auto. intro H.
  destruct (String.eqb_spec k k0) as [->|]; [tauto|]. rewrite andb_false_r. tauto.
Qed.
Lemma vals_dict skip d k : dict_wf d -> vals skip d k =
  match dget d k with Some v => if skip && is_none v then [] else [v] | None => [] end.
Proof.
  unfold dict_wf, dkeys. induction d as [|[k0 v0] d IH]; simpl; auto. intro H.
  inversion H as [|? ? Hn Hd]; subst. destruct (String.eqb_spec k k0) as [->|Hne].
  - rewrite andb_true_r, vals_notin by auto. unfold keep. simpl.
    destruct (skip && is_none v0); reflexivity.
  - rewrite andb_false_r. auto.
Qed.
Lemma values_vals skip ds k : Forall dict_wf ds -> values skip ds k = vals skip (List.concat ds) k.
Proof.
  induction ds as [|d ds IH]; simpl; auto. intro H. inversion H as [|? ? Hd Hds]; subst.
  rewrite vals_app, vals_dict by auto. rewrite IH by auto.
  destruct (dget d k) as [v|]; auto. destruct (skip && is_none v); reflexivity.
Qed.

Definition merge_list (o : mopts) rec (l : list (string * pyval)) (outd : dict pyval) :=
  for_each l (fun kv outd => next_of (merge_item o rec (fst kv) (snd kv) outd)) outd.
Lemma for_each_app {A S} (l1 l2 : list A) (f : A -> S -> res S) s :
  for_each (l1 ++ l2) (fun x s => next_of (f x s)) s =
  let* s' := for_each l1 (fun x s => next_of (f x s)) s in
  for_each l2 (fun x s => next_of (f x s)) s'.
Proof.
  revert s; induction l1 as [|x l1 IH]; intro s; simpl; auto.
  destruct (f x s); simpl; auto.
Qed.
Lemma merge_dicts_list o rec ds outd :
  merge_dicts o rec ds outd = merge_list o rec (List.concat ds) outd.
Proof.
  unfold merge_dicts, merge_list, merge_items. revert outd.
  induction ds as [|d ds IH]; intro outd; simpl; auto.
  rewrite (for_each_app d (List.concat ds)
     (fun kv outd => merge_item o rec (fst kv) (snd kv) outd)).
  destruct (for_each d _ outd); simpl; auto.
Qed.

Lemma merge_item_eq o rec k v outd : merge_item o rec k v outd =
  if skipnones o && is_none v then Ok outd
  else match dget outd k with
       | None => Ok (dset outd k v)
       | Some old => let* m := combine1 o rec old v in Ok (dset outd k m)
       end.
Proof.
  unfold merge_item, combine1. destruct (skipnones o && is_none v); auto.
  destruct (dget outd k) as [old|] eqn:E; auto.
  destruct (overwriteempty o && is_empty old); auto.
  assert (Hs := dset_same outd k old E).
  destruct old, v; cbn [bind]; rewrite ?Hs; auto;
    try (destruct (mergelists o); [reflexivity|cbn [bind]; now rewrite Hs]);
    try (destruct (mergesubdicts o); [reflexivity|cbn [bind]; now rewrite Hs]).
  destruct (mergetuples o); [|cbn [bind]; now rewrite Hs].
  destruct (uniquify o); auto. destruct (forallb _ _); auto.
Qed.

Lemma gunique_loop_seen {A} (eqb : A -> A -> bool) s1 s2 l :
  (forall x, existsb (eqb x) s1 = existsb (eqb x) s2) ->
  gunique_loop eqb s1 l = gunique_loop eqb s2 l.
Proof.
  revert s1 s2; induction l as [|x l IH]; intros s1 s2 H; simpl; auto.
  rewrite (H x). destruct (existsb (eqb x) s2); [auto|]. f_equal. apply IH.
  intro y. simpl. now rewrite H.
Qed.

(** Merging a list of items into a dictionary: each key is processed on its own. *)
Lemma merge_list_ok o rec l : forall outd, dict_wf outd ->
  (forall k, exists r, fold1 o rec (dget outd k) (vals (skipnones o) l k) = Ok r) ->
  exists out, merge_list o rec l outd = Ok out /\ dict_wf out /\
    (forall k, fold1 o rec (dget outd k) (vals (skipnones o) l k) = Ok (dget out k)) /\
    dkeys out = dkeys outd ++ gunique_loop String.eqb (dkeys outd) (ikeys (skipnones o) l).
Proof.
  induction l as [|[k0 v0] l IH]; intros outd Hwf H.
  - exists outd. split; [reflexivity|]. split; auto. split.
    + intro k. cbn [vals]. unfold fold1. destruct (dget outd k); reflexivity.
    + simpl. now rewrite app_nil_r.
  - unfold merge_list. cbn [for_each fst snd]. rewrite merge_item_eq.
    unfold ikeys in *. cbn [List.filter vals]. unfold keep at 1. unfold keep in *. cbn [snd] in *.
    destruct (skipnones o && is_none v0) eqn:Esk; cbn [negb andb].
    + cbn [next_of]. apply IH; auto. intro k. specialize (H k). cbn [vals keep snd] in H.
      unfold keep in H. cbn [snd] in H. rewrite Esk in H. exact H.
    + cbn [map fst gunique_loop].
      assert (Hk0 := H k0). cbn [vals] in Hk0. unfold keep in Hk0. cbn [snd] in Hk0.
      rewrite Esk in Hk0. cbn [negb andb] in Hk0. rewrite String.eqb_refl in Hk0.
      assert (Hsame : forall k, String.eqb k k0 = false -> forall d',
         dget (dset outd k0 d') k = dget outd k).
      { intros k Hk d'. rewrite dget_dset, Hk. reflexivity. }
      assert (Hseen : existsb (String.eqb k0) (dkeys outd) = dmem outd k0).
      { destruct (dmem outd k0) eqn:Em.
        - apply existsb_exists. exists k0. split; [now apply dmem_in|apply String.eqb_refl].
        - destruct (existsb (String.eqb k0) (dkeys outd)) eqn:Ex; auto.
          apply existsb_exists in Ex. destruct Ex as (x & Hx & Ex). apply String.eqb_eq in Ex. subst.
          apply dmem_not in Em. contradiction. }
      destruct (dget outd k0) as [old|] eqn:Eold.
      * destruct Hk0 as [r Hr]. cbn [fold1 fold_vals] in Hr.
        destruct (combine1 o rec old v0) as [m|e] eqn:Ec; [|discriminate].
        cbn [bind next_of]. destruct (IH (dset outd k0 m)) as (out & E & Hw & Hf & Hk).
        { now apply dset_wf. }
        { intro k. specialize (H k). cbn [vals] in H. unfold keep in H. cbn [snd] in H.
          rewrite Esk in H. cbn [negb andb] in H. rewrite dget_dset.
          destruct (String.eqb_spec k k0) as [Ek|Hne]; [|exact H]. rewrite Ek.
          exists r. cbn [bind] in Hr. exact Hr. }
        exists out. split; [exact E|]. split; auto. split.
        -- intro k. specialize (Hf k). rewrite dget_dset in Hf.
           destruct (String.eqb_spec k k0) as [Ek|Hne]; [|exact Hf]. rewrite Ek in *.
           rewrite Eold. cbn [fold1 fold_vals]. rewrite Ec. cbn [bind]. exact Hf.
        -- rewrite Hk, dkeys_dset. unfold dmem in *. rewrite Eold in *.
           rewrite Hseen. reflexivity.
      * cbn [next_of]. destruct (IH (dset outd k0 v0)) as (out & E & Hw & Hf & Hk).
        { now apply dset_wf. }
        { intro k. specialize (H k). cbn [vals] in H. unfold keep in H. cbn [snd] in H.
          rewrite Esk in H. cbn [negb andb] in H. rewrite dget_dset.
          destruct (String.eqb_spec k k0) as [Ek|Hne]; [|exact H].
          rewrite Ek, Eold in H. rewrite Ek. exact H. }
        exists out. split; [exact E|]. split; auto. split.
        -- intro k. specialize (Hf k). rewrite dget_dset in Hf.
           destruct (String.eqb_spec k k0) as [Ek|Hne]; [|exact Hf]. rewrite Ek in *.
           rewrite Eold. exact Hf.
        -- rewrite Hk, dkeys_dset. unfold dmem in *. rewrite Eold in *.
           rewrite Hseen. rewrite <- app_assoc. simpl. f_equal. f_equal.
           apply gunique_loop_seen. intro x. rewrite existsb_app. simpl.
           rewrite orb_false_r. apply orb_comm.
Qed.

(** The converse direction: a successful merge gives the folds. *)
Lemma merge_list_inv o rec l : forall outd out,
  merge_list o rec l outd = Ok out ->
  forall k, exists r, fold1 o rec (dget outd k) (vals (skipnones o) l k) = Ok r.
Proof.
  induction l as [|[k0 v0] l IH]; intros outd out E k.
  - cbn [vals]. unfold fold1. destruct (dget outd k); eexists; reflexivity.
  - unfold merge_list in E. cbn [for_each fst snd] in E. rewrite merge_item_eq in E.
    cbn [vals]. unfold keep. cbn [snd].
    destruct (skipnones o && is_none v0) eqn:Esk; cbn [negb andb] in *.
    + cbn [next_of] in E. now apply IH with out.
    + destruct (dget outd k0) as [old|] eqn:Eold.
      * destruct (combine1 o rec old v0) as [m|e] eqn:Ec; [|discriminate].
        cbn [bind next_of] in E. destruct (IH _ _ E k) as [r Hr]. rewrite dget_dset in Hr.
        destruct (String.eqb_spec k k0) as [->|Hne]; [|eauto].
        rewrite Eold. exists r. cbn [fold1 fold_vals]. rewrite Ec. exact Hr.
      * cbn [next_of] in E. destruct (IH _ _ E k) as [r Hr]. rewrite dget_dset in Hr.
        destruct (String.eqb_spec k k0) as [->|Hne]; [|eauto].
        rewrite Eold. exists r. exact Hr.
Qed.

Lemma filter_dicts ds : List.filter truthy (map VDict ds) =
  map VDict (List.filter (fun d : dict pyval => match d with [] => false | _ => true end) ds).
Proof.
  induction ds as [|d ds IH]; [reflexivity|]. destruct d; cbn [map List.filter truthy]; [exact IH|].
  cbn [map]. now rewrite IH.
Qed.
Lemma all_dicts ds : forallb is_dict (map VDict ds) = true.
Proof. induction ds; simpl; auto. Qed.
Lemma dicts_of_map ds : dicts_of (map VDict ds) = ds.
Proof. induction ds as [|d ds IH]; [reflexivity|]. cbn [map dicts_of]. f_equal. exact IH. Qed.
Lemma concat_filter (ds : list (dict pyval)) :
  List.concat (List.filter (fun d => match d with [] => false | _ => true end) ds) = List.concat ds.
Proof.
  induction ds as [|d ds IH]; [reflexivity|]. destruct d; cbn [List.filter List.concat app]; [exact IH|].
  now rewrite IH.
Qed.

Lemma dict_merge_list fuel o ds : dict_merge (S fuel) o (map VDict ds) =
  let* out := merge_list o (dict_merge fuel o) (List.concat ds) [] in Ok (VDict out).
Proof.
  cbn [dict_merge]. rewrite filter_dicts, all_dicts, dicts_of_map, merge_dicts_list, concat_filter.
  reflexivity.
Qed.

(** General characterisation, for all the options *)
Lemma dict_merge_fold fuel o ds r : Forall dict_wf ds ->
  dict_merge (S fuel) o (map VDict ds) = Ok r ->
  exists out, r = VDict out /\ dict_wf out /\
    dkeys out = gunique String.eqb (item_keys (skipnones o) ds) /\
    forall k, fold1 o (dict_merge fuel o) None (values (skipnones o) ds k) = Ok (dget out k).
Proof.
  intros Hwf E. rewrite dict_merge_list in E.
  destruct (merge_list _ _ _ _) as [out|e] eqn:Em; [|discriminate].
  cbn [bind] in E. injection E as <-. exists out. split; auto.
  assert (Hf := merge_list_inv _ _ _ _ _ Em).
  destruct (merge_list_ok o (dict_merge fuel o) (List.concat ds) []) as (out' & E' & Hw & Hg & Hk).
  { constructor. }
  { exact Hf. }
  rewrite Em in E'. injection E' as <-. split; auto. split; auto.
  intro k. rewrite values_vals by auto. exact (Hg k).
Qed.

(** ** Nested well-formedness *)
Lemma wf_dict d : wf (VDict d) <-> dict_wf d /\ forall k v, dget d k = Some v -> wf v.
Proof.
  unfold dict_wf, dkeys. simpl. split; intros [Hn H]; split; auto.
  - intros k v Hv. apply dget_some_in in Hv. clear Hn. induction d as [|[k0 v0] d IH]; [destruct Hv|].
    destruct H as [H0 H]. destruct Hv as [E|Hv]; [injection E as -> ->; auto|auto].
  - assert (H' : forall k v, In (k, v) d -> wf v).
    { intros k v Hv. apply (H k v). now apply dget_in. }
    clear H Hn. induction d as [|[k0 v0] d IH]; auto. split.
    + apply (H' k0 v0). simpl; auto.
    + apply IH. intros k v Hv. apply (H' k v). simpl; auto.
Qed.
Lemma depth_get d k v : dget d k = Some v -> depth v < depth (VDict d).
Proof.
  intro H. apply dget_some_in in H. simpl. apply Nat.lt_succ_r.
  induction d as [|[k0 v0] d IH]; [destruct H|]. destruct H as [E|H].
  - injection E as -> ->. lia.
  - specialize (IH H). lia.
Qed.
Lemma no_none_dict d : dict_wf d -> (no_none (VDict d) <-> forall k v, dget d k = Some v -> no_none v).
Proof.
  intro Hwf. simpl. split; intro H.
  - intros k v Hv. apply dget_some_in in Hv. clear Hwf. induction d as [|[k0 v0] d IH]; [destruct Hv|].
    destruct H as [H0 H]. destruct Hv as [E|Hv]; [injection E as -> ->; auto|auto].
  - assert (H' : forall k v, In (k, v) d -> no_none v).
    { intros k v Hv. apply (H k v). now apply dget_in. }
    clear H Hwf. induction d as [|[k0 v0] d IH]; auto. split.
    + apply (H' k0 v0). simpl; auto.
    + apply IH. intros k v Hv. apply (H' k v). simpl; auto.
Qed.

Lemma values_in skip ds k v : In v (values skip ds k) ->
  exists d, In d ds /\ dget d k = Some v /\ (skip && is_none v = false).
Proof.
  induction ds as [|d ds IH]; simpl; [tauto|]. destruct (dget d k) as [w|] eqn:E.
  - destruct (skip && is_none w) eqn:Es; [|intros [<-|H]; [eauto|]]; firstorder eauto.
  - firstorder eauto.
Qed.
Lemma values_filter skip ds k : values skip
   (List.filter (fun d : dict pyval => match d with [] => false | _ => true end) ds) k = values skip ds k.
Proof.
  induction ds as [|d ds IH]; [reflexivity|]. destruct d as [|x d]; [exact IH|].
  cbn [List.filter values]. rewrite IH. reflexivity.
Qed.
Lemma dicts_of_app l1 l2 : dicts_of (l1 ++ l2) = dicts_of l1 ++ dicts_of l2.
Proof.
  induction l1 as [|v l1 IH]; [reflexivity|].
  destruct v; cbn [app dicts_of]; rewrite ?IH; reflexivity.
Qed.
Lemma dicts_of_in l d : In d (dicts_of l) <-> In (VDict d) l.
Proof.
  induction l as [|v l IH]; [simpl; tauto|].
  destruct v; cbn [dicts_of In]; rewrite IH; try (split; [auto|intros [H|H]; [discriminate|auto]]).
  split; intros [H|H]; auto; left; congruence.
Qed.

(** ** Merging sub-dictionaries only *)
Definition plain (o : mopts) : Prop :=
  overwriteempty o = false /\ mergelists o = false /\ mergetuples o = false.

Lemma combine1_plain o rec old v : plain o ->
  combine1 o rec old v =
  if mergesubdicts o && is_dict old && is_dict v then rec [old; v] else Ok old.
Proof.
  intros (H1 & H2 & H3). unfold combine1. rewrite H1, H2, H3. cbn [andb].
  destruct old, v; cbn [is_dict]; rewrite ?andb_false_r, ?andb_true_r; auto.
Qed.

Lemma fold_plain o rec : plain o -> forall l acc,
  fold_vals o rec acc l =
  if mergesubdicts o && is_dict acc then
    (fix go acc l := match l with
       | [] => Ok acc
       | d :: r => if is_dict acc then let* a := rec [acc; VDict d] in go a r else Ok acc end)
      acc (dicts_of l)
  else Ok acc.
Proof.
  intro Ho. induction l as [|v l IH]; intro acc; cbn [fold_vals].
  - cbn [dicts_of]. destruct (_ && _); reflexivity.
  - rewrite combine1_plain by auto. destruct (mergesubdicts o) eqn:Em; cbn [andb].
    2:{ cbn [bind]. rewrite IH. reflexivity. }
    destruct (is_dict acc) eqn:Ea; cbn [andb].
    2:{ cbn [bind]. rewrite IH. cbn [andb]. now rewrite Ea. }
    destruct (is_dict v) eqn:Ev.
    + destruct v; try discriminate. cbn [dicts_of]. rewrite Ea.
      destruct (rec [acc; VDict d]) as [a|e]; [|reflexivity]. cbn [bind]. rewrite IH. cbn [andb].
      destruct (is_dict a) eqn:Eb; auto. destruct (dicts_of l); auto. now rewrite Eb.
    + cbn [bind]. rewrite IH, Ea. cbn [andb]. destruct v; try discriminate; reflexivity.
Qed.

Lemma gunique_str_nodup l : NoDup (gunique String.eqb l).
Proof.
  assert (H := proj1 (gunique_loop_nodup String.eqb [] l)). fold (gunique String.eqb l) in H.
  induction H as [|x l' Hx Hl IH]; constructor; auto. intro Hin.
  rewrite Forall_forall in Hx. specialize (Hx x Hin). rewrite String.eqb_refl in Hx. discriminate.
Qed.
Lemma existsb_str x l : existsb (String.eqb x) l = true <-> In x l.
Proof.
  rewrite existsb_exists. split.
  - intros (y & Hy & E). apply String.eqb_eq in E. now subst.
  - intro H. exists x. split; auto. apply String.eqb_refl.
Qed.
Lemma gunique_loop_app (s A B : list string) :
  gunique_loop String.eqb s (A ++ B) =
  gunique_loop String.eqb s A ++ gunique_loop String.eqb (A ++ s) B.
Proof.
  revert s; induction A as [|x A IH]; intro s; cbn [app gunique_loop]; [reflexivity|].
  destruct (existsb (String.eqb x) s) eqn:E.
  - rewrite IH. f_equal. apply gunique_loop_seen. intro y. cbn [existsb].
    destruct (String.eqb_spec y x) as [->|]; [|reflexivity]. cbn [orb].
    rewrite existsb_app, E. apply orb_true_r.
  - cbn [app]. f_equal. rewrite IH. f_equal. apply gunique_loop_seen. intro y.
    cbn [existsb]. rewrite !existsb_app. cbn [existsb].
    destruct (String.eqb y x), (existsb (String.eqb y) A), (existsb (String.eqb y) s); reflexivity.
Qed.
Lemma gunique_str_in l x : In x (gunique String.eqb l) <-> In x l.
Proof.
  split; intro H.
  - now apply gunique_loop_nodup in H.
  - destruct (gunique_loop_all String.eqb String.eqb_refl [] l x H) as [(y & Hy & E)|H'];
      [|discriminate]. apply String.eqb_eq in E. subst y. exact Hy.
Qed.
Lemma gunique_app_l A B : gunique String.eqb (gunique String.eqb A ++ B) = gunique String.eqb (A ++ B).
Proof.
  unfold gunique at 1 3. rewrite !gunique_loop_app. f_equal.
  - fold (gunique String.eqb A). fold (gunique String.eqb (gunique String.eqb A)).
    apply gunique_idem.
  - apply gunique_loop_seen. intro x. rewrite !app_nil_r.
    destruct (existsb (String.eqb x) A) eqn:E.
    + apply existsb_str. apply gunique_str_in. now apply existsb_str.
    + destruct (existsb (String.eqb x) (gunique String.eqb A)) eqn:E2; auto.
      exfalso. apply existsb_str in E2. apply (proj1 (gunique_str_in _ _)) in E2. assert (E3 : existsb (String.eqb x) A = true) by (apply existsb_str; exact E2). rewrite E in E3. discriminate.
Qed.
Lemma item_keys_app skip d1 d2 : item_keys skip (d1 ++ d2) = item_keys skip d1 ++ item_keys skip d2.
Proof. unfold item_keys. now rewrite concat_app, filter_app, map_app. Qed.
Lemma filter_true {A} (l : list A) : List.filter (fun _ => true) l = l.
Proof. induction l as [|x l IH]; simpl; congruence. Qed.

(** Merging the merge of the first ones with the others is merging all. *)
Lemma values_app skip d1 d2 k : values skip (d1 ++ d2) k = values skip d1 k ++ values skip d2 k.
Proof.
  induction d1 as [|d d1 IH]; [reflexivity|]. cbn [app values]. rewrite IH.
  destruct (dget d k) as [v|]; auto. destruct (skip && is_none v); auto.
Qed.
Lemma merged_assoc skip sub : forall n ds m cs out,
  (forall d, In d ds -> depth (VDict d) <= n) ->
  merged skip sub ds m -> merged skip sub (m :: cs) out -> merged skip sub (ds ++ cs) out.
Proof.
  induction n as [|n IH]; intros ds m cs out Hn Hm Ho.
  { destruct ds as [|d ds].
    - inversion Hm as [? ? M0 M1 M2 M3]; subst. inversion Ho as [? ? O0 O1 O2 O3]; subst.
      assert (Hv : forall k, values skip (m :: cs) k = values skip cs k).
      { intro k. cbn [values]. now rewrite (M1 k eq_refl). }
      cbn [app]. constructor; intros; [|apply O1|eapply O2|eapply O3]; rewrite ?Hv; eauto.
      rewrite O0. destruct m; [reflexivity|discriminate].
    - specialize (Hn d (or_introl eq_refl)). simpl in Hn. lia. }
  inversion Hm as [? ? M0 M1 M2 M3]; subst. inversion Ho as [? ? O0 O1 O2 O3]; subst.
  assert (Hsplit := fun k => values_app skip ds cs k).
  assert (Hget : forall k r, values skip ds k <> [] -> dget m k = Some r ->
     values skip (m :: cs) k = r :: values skip cs k).
  { intros k r Hne Hr. cbn [values]. rewrite Hr.
    destruct (skip && is_none r) eqn:Es; auto. exfalso.
    destruct (values skip ds k) as [|v rest] eqn:Ev; [congruence|].
    assert (Hv : skip && is_none v = false).
    { destruct (values_in skip ds k v) as (d & _ & _ & H); [rewrite Ev; simpl; auto|exact H]. }
    destruct sub, (is_dict v) eqn:Ed.
    - destruct (dicts_of rest) as [|b' bs] eqn:Eb.
      + rewrite (M2 k v rest) in Hr; auto. congruence.
      + destruct v; try discriminate.
        destruct (M3 k d rest b' bs) as (c & Hc & _); auto. rewrite Hc in Hr. injection Hr as <-.
        simpl in Es. rewrite andb_false_r in Es. discriminate.
    - rewrite (M2 k v rest) in Hr; auto; congruence.
    - rewrite (M2 k v rest) in Hr; auto; congruence.
    - rewrite (M2 k v rest) in Hr; auto; congruence. }
  assert (Hnone : forall k, values skip ds k = [] -> values skip (m :: cs) k = values skip cs k).
  { intros k Hk. cbn [values]. now rewrite (M1 k Hk). }
  constructor.
  - rewrite O0, item_keys_app.
    assert (Hwm : dict_wf m).
    { unfold dict_wf, dkeys. rewrite M0. apply gunique_str_nodup. }
    replace (item_keys skip (m :: cs)) with (map fst m ++ item_keys skip cs).
    { rewrite M0. apply gunique_app_l. }
    change (m :: cs) with ([m] ++ cs). rewrite item_keys_app. f_equal.
    unfold item_keys. cbn [List.concat]. rewrite app_nil_r. f_equal. symmetry.
    rewrite <- (filter_true m) at 2. apply filter_ext_in. intros [k r] Hkr. cbn [snd].
    apply negb_true_iff. apply (dget_in m k r Hwm) in Hkr.
    destruct (values skip ds k) as [|v rest] eqn:Ev.
    { rewrite (M1 k Ev) in Hkr. discriminate. }
    assert (Hne : values skip ds k <> []) by congruence.
    specialize (Hget k r). rewrite Ev in Hget. specialize (Hget ltac:(discriminate) Hkr).
    cbn [values] in Hget. rewrite Hkr in Hget. destruct (skip && is_none r) eqn:Es; auto.
    exfalso. assert (Hl := f_equal (@List.length pyval) Hget). simpl in Hl. lia.
  - intros k Hk. rewrite Hsplit in Hk. apply app_eq_nil in Hk. destruct Hk as [K1 K2].
    apply O1. rewrite Hnone; auto.
  - intros k v rest Hk Hd. rewrite Hsplit in Hk.
    destruct (values skip ds k) as [|v' rest'] eqn:Ev.
    + cbn [app] in Hk. apply (O2 k v rest); auto. rewrite Hnone; auto.
    + cbn [app] in Hk. injection Hk as -> <-.
      assert (Hd' : sub = true -> is_dict v = true -> dicts_of rest' = [] /\ dicts_of (values skip cs k) = []).
      { intros S1 S2. specialize (Hd S1 S2). rewrite dicts_of_app in Hd. now apply app_eq_nil in Hd. }
      assert (Hmk : dget m k = Some v). { apply (M2 k v rest'); auto. intros S1 S2. now apply Hd'. }
      apply (O2 k v (values skip cs k)).
      * apply Hget; congruence.
      * intros S1 S2. now apply Hd'.
  - intros k a' rest b' bs Hsub Hk Hd. rewrite Hsplit in Hk.
    destruct (values skip ds k) as [|v' rest'] eqn:Ev.
    + cbn [app] in Hk. apply (O3 k a' rest b' bs); auto. rewrite Hnone; auto.
    + cbn [app] in Hk. injection Hk as -> <-. rewrite dicts_of_app in Hd.
      destruct (dicts_of rest') as [|b1 bs1] eqn:Er.
      * cbn [app] in Hd. apply (O3 k a' (values skip cs k) b' bs); auto.
        apply Hget; [congruence|]. apply (M2 k (VDict a') rest'); auto.
      * cbn [app] in Hd. injection Hd as -> <-.
        destruct (M3 k a' rest' b' bs1 Hsub Ev Er) as (c & Hc & Hmc).
        assert (Hvs : values skip (m :: cs) k = VDict c :: values skip cs k) by (apply Hget; congruence).
        destruct (dicts_of (values skip cs k)) as [|c1 cs1] eqn:Ecs.
        -- exists c. split; [|rewrite app_nil_r; exact Hmc].
           apply (O2 k (VDict c) (values skip cs k)); auto.
        -- destruct (O3 k c (values skip cs k) c1 cs1 Hsub Hvs Ecs) as (e & He & Hme).
           exists e. split; auto.
           apply (IH (a' :: b' :: bs1) c (c1 :: cs1) e); auto.
           intros d Hd. assert (Hdv : In (VDict d) (values skip ds k)).
           { rewrite Ev. destruct Hd as [<-|Hd]; [simpl; auto|]. right. apply dicts_of_in.
             rewrite Er. exact Hd. }
           destruct (values_in _ _ _ _ Hdv) as (d0 & Hin & Hg & _).
           apply depth_get in Hg. specialize (Hn d0 Hin). lia.
Qed.

Lemma merged_nil_head skip sub ds out : merged skip sub ([] :: ds) out <-> merged skip sub ds out.
Proof.
  split; intro H; inversion H as [? ? H0 H1 H2 H3]; subst; constructor; auto.
Qed.

(** Main lemma.  Only the dictionaries after the first one bound the recursion. *)
Lemma dict_merge_plain o : plain o -> forall fuel ds,
  Forall (fun d => wf (VDict d)) ds ->
  (forall d, In d (tl ds) -> depth (VDict d) <= fuel) ->
  exists out, dict_merge (S fuel) o (map VDict ds) = Ok (VDict out) /\
    merged (skipnones o) (mergesubdicts o) ds out /\ wf (VDict out) /\
    dkeys out = gunique String.eqb (item_keys (skipnones o) ds).
Proof.
  intro Ho. induction fuel as [|fuel IH]; intros ds Hwf Hdep.
  - (* all the next dictionaries are scalars: impossible unless there is none *)
    assert (Htl : tl ds = []).
    { destruct (tl ds) as [|d r] eqn:E; auto. specialize (Hdep d (or_introl eq_refl)).
      simpl in Hdep. lia. }
    assert (Hd : Forall dict_wf ds).
    { rewrite Forall_forall in *. intros d Hd. exact (proj1 (proj1 (wf_dict d) (Hwf d Hd))). }
    assert (Hfold : forall k, exists r, fold1 o (dict_merge 0 o) None (values (skipnones o) ds k) = Ok r /\
       r = hd_error (values (skipnones o) ds k) /\ List.length (values (skipnones o) ds k) <= 1).
    { intro k. destruct ds as [|d [|d' r]]; try discriminate.
      - exists None. simpl. auto.
      - cbn [values]. destruct (dget d k) as [v|]; [destruct (skipnones o && is_none v)|];
          eexists; split; try reflexivity; simpl; auto. }
    destruct (merge_list_ok o (dict_merge 0 o) (List.concat ds) []) as (out & E & Hw & Hf & Hk).
    { constructor. }
    { intro k. destruct (Hfold k) as (r & Hr & _). exists r. cbn [dget].
      now rewrite <- values_vals. }
    exists out. rewrite dict_merge_list, E. split; [reflexivity|].
    assert (Hg : forall k, dget out k = hd_error (values (skipnones o) ds k)).
    { intro k. destruct (Hfold k) as (r & Hr & Er & _). specialize (Hf k). cbn [dget] in Hf.
      rewrite <- values_vals in Hf by auto. rewrite Hr in Hf. congruence. }
    split; [|split; [|exact Hk]].
    + constructor; [exact Hk| | |].
      * intros k Hv. now rewrite Hg, Hv.
      * intros k v rest Hv _. now rewrite Hg, Hv.
      * intros k a rest b bs _ Hv Hr. destruct (Hfold k) as (_ & _ & _ & Hl). rewrite Hv in Hl.
        destruct rest; [discriminate|simpl in Hl; lia].
    + apply wf_dict. split; auto. intros k v Hv. rewrite Hg in Hv.
      destruct (values (skipnones o) ds k) as [|w rest] eqn:Ev; [discriminate|].
      injection Hv as <-. destruct (values_in (skipnones o) ds k w) as (d & Hin & Hget & _);
        [rewrite Ev; simpl; auto|].
      rewrite Forall_forall in Hwf. apply Hwf, wf_dict in Hin. now apply (proj2 Hin k).
  - assert (Hd : Forall dict_wf ds).
    { rewrite Forall_forall in *. intros d Hd. exact (proj1 (proj1 (wf_dict d) (Hwf d Hd))). }
    set (rec := dict_merge (S fuel) o).
    set (skip := skipnones o).
    (* values after the first one come from the next dictionaries *)
    assert (Hrest : forall k v rest, values skip ds k = v :: rest ->
       wf v /\ forall w, In w rest -> wf w /\ depth w <= fuel).
    { intros k v rest Hv. split.
      - destruct (values_in skip ds k v) as (d & Hin & Hget & _); [rewrite Hv; simpl; auto|].
        rewrite Forall_forall in Hwf. apply Hwf, wf_dict in Hin. now apply (proj2 Hin k).
      - intros w Hw.
        assert (Hw' : In w (values skip (tl ds) k)).
        { destruct ds as [|d0 r]; [discriminate|]. cbn [tl values] in *.
          destruct (dget d0 k) as [x|]; [destruct (skip && is_none x)|].
          - rewrite Hv. simpl; auto.
          - injection Hv as _ ->. auto.
          - rewrite Hv. simpl; auto. }
        destruct (values_in skip (tl ds) k w Hw') as (d & Hin & Hget & _). split.
        + assert (Hin' : In d ds) by (destruct ds; simpl in *; auto).
          rewrite Forall_forall in Hwf. apply Hwf, wf_dict in Hin'. now apply (proj2 Hin' k).
        + apply depth_get in Hget. specialize (Hdep d Hin). lia. }
    (* the sequential merge of dictionaries *)
    assert (Hseq : forall bs done a c, wf (VDict a) -> wf (VDict c) ->
       (forall d, In d bs -> wf (VDict d) /\ depth (VDict d) <= fuel) ->
       (c = a /\ done = [] \/ done <> [] /\ merged skip (mergesubdicts o) (a :: done) c) ->
       exists e, (fix go acc l := match l with
           | [] => Ok acc
           | d :: r => if is_dict acc then let* a := rec [acc; VDict d] in go a r else Ok acc end)
         (VDict c) bs = Ok (VDict e) /\ wf (VDict e) /\
         (done ++ bs = [] /\ e = a \/ merged skip (mergesubdicts o) (a :: done ++ bs) e)).
    { induction bs as [|b bs IHb]; intros done a c Hwa Hwc Hbs Hdone.
      - exists c. split; [reflexivity|]. split; auto. rewrite app_nil_r. tauto.
      - cbn [is_dict]. destruct (Hbs b (or_introl eq_refl)) as [Hwb Hdb].
        destruct (IH [c; b]) as (m & Em & Hm & Hwm & _).
        { apply Forall_cons; [exact Hwc|apply Forall_cons; [exact Hwb|apply Forall_nil]]. }
        { intros d [<-|[]]. exact Hdb. }
        unfold rec at 1. change (map VDict [c; b]) with [VDict c; VDict b] in Em. rewrite Em.
        cbn [bind].
        assert (Hm' : merged skip (mergesubdicts o) (a :: done ++ [b]) m).
        { destruct Hdone as [[-> ->]|[Hne Hmc]]; [exact Hm|].
          assert (Hn : exists n, forall d, In d (a :: done) -> depth (VDict d) <= n).
          { clear. induction (a :: done) as [|x l [n Hn]].
            - exists 0. intros d [].
            - exists (Nat.max n (depth (VDict x))). intros d [<-|Hd]; [lia|]. specialize (Hn d Hd). lia. }
          destruct Hn as [n Hn].
          exact (merged_assoc _ _ n (a :: done) c [b] m Hn Hmc Hm). }
        destruct (IHb (done ++ [b]) a m) as (e & Ee & Hwe & He); auto.
        { intros d Hd'. apply Hbs. simpl; auto. }
        { right. split; [destruct done; discriminate|exact Hm']. }
        exists e. split; [exact Ee|]. split; auto. rewrite <- app_assoc in He. exact He. }
    (* the fold of each key *)
    assert (Hfold : forall k v rest, values skip ds k = v :: rest ->
       exists r, fold_vals o rec v rest = Ok r /\ wf r /\
         ((mergesubdicts o = true -> is_dict v = true -> dicts_of rest = []) -> r = v) /\
         (forall a b bs, mergesubdicts o = true -> v = VDict a -> dicts_of rest = b :: bs ->
            exists c, r = VDict c /\ merged skip (mergesubdicts o) (a :: b :: bs) c)).
    { intros k v rest Hv. destruct (Hrest k v rest Hv) as [Hwv Hwr].
      rewrite (fold_plain o rec Ho). destruct (mergesubdicts o && is_dict v) eqn:Eb.
      - apply andb_true_iff in Eb. destruct Eb as [Eb1 Eb2]. destruct v; try discriminate.
        destruct (Hseq (dicts_of rest) [] d d) as (e & Ee & Hwe & He); auto.
        { intros d' Hd'. apply Hwr. now apply dicts_of_in. }
        exists (VDict e). split; [exact Ee|]. split; auto. cbn [app] in He. split.
        + intro Hn. rewrite (Hn Eb1 eq_refl) in He. destruct He as [[_ ->]|Hm]; auto.
          rewrite (Hn Eb1 eq_refl) in Ee. congruence.
        + intros a b bs _ Ea Er. injection Ea as <-. rewrite Er in He.
          destruct He as [[He _]|He]; [discriminate|]. eauto.
      - exists v. split; auto. split; auto. split; auto.
        intros a b bs Hs -> _. rewrite Hs in Eb. discriminate. }
    destruct (merge_list_ok o rec (List.concat ds) []) as (out & E & Hw & Hf & Hk).
    { constructor. }
    { intro k. cbn [dget]. rewrite <- values_vals by auto. fold skip.
      destruct (values skip ds k) as [|v rest] eqn:Ev; [eexists; reflexivity|].
      destruct (Hfold k v rest Ev) as (r & Hr & _). exists (Some r). cbn [fold1]. now rewrite Hr. }
    assert (Hg : forall k, match values skip ds k with
        | [] => dget out k = None
        | v :: rest => exists r, fold_vals o rec v rest = Ok r /\ dget out k = Some r end).
    { intro k. specialize (Hf k). cbn [dget] in Hf. rewrite <- values_vals in Hf by auto.
      fold skip in Hf. destruct (values skip ds k) as [|v rest] eqn:Ev.
      - cbn [fold1] in Hf. congruence.
      - cbn [fold1] in Hf. destruct (fold_vals o rec v rest) as [r|]; [|discriminate].
        cbn [bind] in Hf. exists r. split; congruence. }
    exists out. rewrite dict_merge_list. fold rec. rewrite E. split; [reflexivity|].
    split; [|split; [|exact Hk]].
    + constructor; [exact Hk| | |].
      * intros k Hv. specialize (Hg k). fold skip in Hv. now rewrite Hv in Hg.
      * intros k v rest Hv Hn. specialize (Hg k). fold skip in Hv. rewrite Hv in Hg.
        destruct Hg as (r & Hr & ->). destruct (Hfold k v rest Hv) as (r' & Hr' & _ & H1 & _).
        rewrite Hr in Hr'. injection Hr' as <-. f_equal. now apply H1.
      * intros k a rest b bs Hs Hv Hd'. specialize (Hg k). fold skip in Hv. rewrite Hv in Hg.
        destruct Hg as (r & Hr & ->). destruct (Hfold k _ rest Hv) as (r' & Hr' & _ & _ & H2).
        rewrite Hr in Hr'. injection Hr' as <-.
        destruct (H2 a b bs Hs eq_refl Hd') as (c & -> & Hc). eauto.
    + apply wf_dict. split; auto. intros k v Hv. specialize (Hg k).
      destruct (values skip ds k) as [|w rest] eqn:Ev; [congruence|].
      destruct Hg as (r & Hr & Hr2). destruct (Hfold k w rest Ev) as (r' & Hr' & Hwr & _). congruence.
Qed.

(** The relation [merged] determines the result. *)
Lemma merged_unique skip sub : forall n ds o1 o2,
  (forall d, In d ds -> depth (VDict d) <= n) ->
  merged skip sub ds o1 -> merged skip sub ds o2 -> o1 = o2.
Proof.
  induction n as [|n IH]; intros ds o1 o2 Hn H1 H2;
    inversion H1 as [? ? A0 A1 A2 A3]; subst; inversion H2 as [? ? B0 B1 B2 B3]; subst;
    (apply dict_ext;
     [unfold dict_wf, dkeys; rewrite A0; apply gunique_str_nodup
     |unfold dkeys; congruence|]); intros k _.
  - destruct ds as [|d ds]; [|specialize (Hn d (or_introl eq_refl)); simpl in Hn; lia].
    rewrite A1, B1; reflexivity.
  - destruct (values skip ds k) as [|v rest] eqn:Ev.
    + now rewrite A1, B1.
    + assert (Hc : (sub = true -> is_dict v = true -> dicts_of rest = []) \/
         (sub = true /\ exists a b bs, v = VDict a /\ dicts_of rest = b :: bs)).
      { destruct sub; [|left; discriminate]. destruct v as [| | | | | |a| |]; try (left; discriminate).
        destruct (dicts_of rest) as [|b bs]; [left; auto|]. right. eauto 6. }
      destruct Hc as [Hc|(Hs & a & b & bs & -> & Hr)].
      * now rewrite (A2 k v rest Ev Hc), (B2 k v rest Ev Hc).
      * destruct (A3 k a rest b bs Hs Ev Hr) as (c1 & -> & C1).
        destruct (B3 k a rest b bs Hs Ev Hr) as (c2 & -> & C2).
        do 2 f_equal. apply (IH (a :: b :: bs)); auto.
        intros d Hd. assert (Hdv : In (VDict d) (values skip ds k)).
        { rewrite Ev. destruct Hd as [<-|Hd]; [simpl; auto|]. right. apply dicts_of_in.
          rewrite Hr. exact Hd. }
        destruct (values_in _ _ _ _ Hdv) as (d0 & Hin & Hg & _).
        apply depth_get in Hg. specialize (Hn d0 Hin). lia.
Qed.

(** Merging any number of copies of a dictionary without None gives this dictionary. *)
Lemma values_rep skip d k m : no_none (VDict d) -> dict_wf d ->
  values skip (List.repeat d m) k = match dget d k with Some v => List.repeat v m | None => [] end.
Proof.
  intros Hn Hw. induction m as [|m IH]; cbn [List.repeat values].
  - destruct (dget d k); reflexivity.
  - rewrite IH. destruct (dget d k) as [v|] eqn:E; auto.
    replace (is_none v) with false; [now rewrite andb_false_r|].
    apply (no_none_dict d Hw) with k v in Hn; [|assumption]. destruct v; try reflexivity; destruct Hn.
Qed.
Lemma item_keys_rep skip d m : no_none (VDict d) -> dict_wf d ->
  gunique String.eqb (item_keys skip (List.repeat d (S m))) = map fst d.
Proof.
  intros Hn Hw.
  assert (Hk : item_keys skip [d] = map fst d).
  { unfold item_keys. cbn [List.concat]. rewrite app_nil_r. f_equal.
    rewrite <- (filter_true d) at 2. apply filter_ext_in. intros [k v] Hin. cbn [snd].
    apply (dget_in d k v Hw) in Hin. apply (no_none_dict d Hw) with k v in Hn; auto.
    destruct v; cbn; rewrite ?andb_false_r; try reflexivity; destruct Hn. }
  assert (Hg : gunique String.eqb (map fst d) = map fst d).
  { apply gunique_loop_id; [|reflexivity]. unfold dict_wf, dkeys in Hw.
    clear Hk Hn. induction Hw as [|x l Hx Hl IH]; constructor; auto.
    apply Forall_forall. intros y Hy. apply String.eqb_neq. intros ->. contradiction. }
  induction m as [|m IH]; cbn [List.repeat].
  - now rewrite Hk.
  - change (d :: d :: List.repeat d m) with ([d] ++ List.repeat d (S m)).
    rewrite item_keys_app, Hk. unfold gunique. rewrite gunique_loop_app. rewrite app_nil_r.
    fold (gunique String.eqb (map fst d)). rewrite Hg.
    replace (gunique_loop String.eqb (map fst d) (item_keys skip (List.repeat d (S m)))) with (@nil string);
      [apply app_nil_r|].
    symmetry. assert (Hall : forall x, In x (item_keys skip (List.repeat d (S m))) -> In x (map fst d)).
    { intros x Hx. rewrite <- IH. now apply gunique_str_in. }
    clear -Hall. induction (item_keys skip (List.repeat d (S m))) as [|x l IHl]; [reflexivity|].
    cbn [gunique_loop]. replace (existsb (String.eqb x) (map fst d)) with true.
    + apply IHl. intros y Hy. apply Hall. simpl; auto.
    + symmetry. apply existsb_str. apply Hall. simpl; auto.
Qed.
Lemma dicts_of_repeat d m : dicts_of (List.repeat (VDict d) m) = List.repeat d m.
Proof. induction m as [|m IH]; [reflexivity|]. cbn [List.repeat dicts_of]. now rewrite IH. Qed.

Lemma merged_self skip sub : forall n d m, depth (VDict d) <= n -> wf (VDict d) ->
  no_none (VDict d) -> merged skip sub (List.repeat d (S m)) d.
Proof.
  induction n as [|n IH]; intros d m Hd Hw Hn; [simpl in Hd; lia|].
  assert (Hw' := Hw). apply wf_dict in Hw. destruct Hw as [Hwd Hwv].
  constructor.
  - symmetry. now apply item_keys_rep.
  - intros k Hk. rewrite values_rep in Hk by auto. destruct (dget d k); [discriminate|auto].
  - intros k v rest Hk _. rewrite values_rep in Hk by auto.
    destruct (dget d k) as [w|]; [|discriminate]. cbn [List.repeat] in Hk. congruence.
  - intros k a rest b bs Hs Hk Hr. rewrite values_rep in Hk by auto.
    destruct (dget d k) as [w|] eqn:E; [|discriminate]. cbn [List.repeat] in Hk.
    injection Hk as -> <-. rewrite dicts_of_repeat in Hr. exists a. split; auto.
    rewrite <- Hr. change (a :: List.repeat a m) with (List.repeat a (S m)). apply IH.
    + apply depth_get in E. lia.
    + now apply (Hwv k).
    + apply (no_none_dict d Hwd) with k (VDict a) in Hn; auto.
Qed.

(** ** Lists and tuples *)
Fixpoint lists_of (l : list pyval) : list (list pyval) :=
  match l with [] => [] | VList a :: r => a :: lists_of r | _ :: r => lists_of r end.
Fixpoint tuples_of (l : list pyval) : list (list pyval) :=
  match l with [] => [] | VTuple a :: r => a :: tuples_of r | _ :: r => tuples_of r end.
Lemma fold_lists o rec l : forall a, mergelists o = true -> uniquify o = false ->
  overwriteempty o = false ->
  fold_vals o rec (VList a) l = Ok (VList (a ++ List.concat (lists_of l))).
Proof.
  induction l as [|v l IH]; intros a H1 H2 H3; cbn [fold_vals].
  - simpl. now rewrite app_nil_r.
  - unfold combine1. rewrite H1, H2, H3. cbn [andb].
    destruct v; cbn [bind lists_of]; rewrite IH by auto; auto.
    cbn [List.concat]. now rewrite app_assoc.
Qed.
Lemma fold_tuples o rec l : forall a, mergetuples o = true -> uniquify o = false ->
  overwriteempty o = false ->
  fold_vals o rec (VTuple a) l = Ok (VTuple (a ++ List.concat (tuples_of l))).
Proof.
  induction l as [|v l IH]; intros a H1 H2 H3; cbn [fold_vals].
  - simpl. now rewrite app_nil_r.
  - unfold combine1. rewrite H1, H2, H3. cbn [andb].
    destruct v; cbn [bind tuples_of]; rewrite IH by auto; auto.
    cbn [List.concat]. now rewrite app_assoc.
Qed.
(** ** Empty values overwritten *)
Lemma fold_overwrite o rec l : overwriteempty o = true -> mergesubdicts o = false ->
  mergelists o = false -> mergetuples o = false -> forall v,
  exists r, fold_vals o rec v l = Ok r /\
    (truthy r = true -> exists l1 l2, v :: l = l1 ++ r :: l2 /\ forallb is_empty l1 = true) /\
    (truthy r = false -> forallb is_empty (v :: l) = true /\ r = List.last (v :: l) v).
Proof.
  intros H1 H2 H3 H4. induction l as [|w l IH]; intro v; cbn [fold_vals].
  - exists v. split; auto. split.
    + intros _. exists [], []. auto.
    + intro Hv. cbn [forallb]. unfold is_empty. rewrite Hv. auto.
  - unfold combine1. rewrite H1, H2, H3, H4. cbn [andb]. destruct (is_empty v) eqn:Ev.
    + cbn [bind]. destruct (IH w) as (r & Hr & Ht & Hf). exists r. split; auto. split.
      * intro Hr'. destruct (Ht Hr') as (l1 & l2 & E & He). exists (v :: l1), l2.
        cbn [app forallb]. rewrite Ev, E. auto.
      * intro Hr'. destruct (Hf Hr') as [F1 F2]. split; [cbn [forallb]; now rewrite Ev|].
        rewrite F2. cbn [List.last]. destruct l; auto. 
        change (List.last (p :: l) w = List.last (p :: l) v).
        clear. revert p. induction l as [|q l IHl]; intro p; [reflexivity|]. apply IHl.
    + assert (Hk : fold_vals o rec v l = Ok v).
      { clear IH w. revert v Ev. induction l as [|w l IHl]; intros v Ev; [reflexivity|].
        cbn [fold_vals]. unfold combine1. rewrite H1, H2, H3, H4, Ev. cbn [andb].
        destruct v, w; cbn [bind]; auto. }
      exists v. split.
      * destruct v, w; cbn [bind]; auto.
      * unfold is_empty in Ev. apply negb_false_iff in Ev. split; [|congruence].
        intros _. exists [], (w :: l). auto.
Qed.
