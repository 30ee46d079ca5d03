(** C16: dict_merge. *)
From Verif Require Import DictMergeProofs.
Open Scope nat_scope.

(** ** Options that merge only sub-dictionaries: the default ones, and any setting of
    mergesubdicts and skipnones.  [merged] (DictMergeSpec.v) says, key by key and
    recursively, what the result must be; the result is the only such dictionary. *)
Theorem C16_dict_merge : forall o fuel (ds : list (dict pyval)),
  overwriteempty o = false -> mergelists o = false -> mergetuples o = false ->
  Forall (fun d => wf (VDict d)) ds ->
  (forall d, In d (tl ds) -> depth (VDict d) <= fuel) ->
  exists out, dict_merge (S fuel) o (map VDict ds) = Ok (VDict out) /\
    merged (skipnones o) (mergesubdicts o) ds out /\ wf (VDict out) /\
    (forall out', merged (skipnones o) (mergesubdicts o) ds out' -> out' = out).
Proof.
  intros o fuel ds H1 H2 H3 Hwf Hd.
  destruct (dict_merge_plain o (conj H1 (conj H2 H3)) fuel ds Hwf Hd) as (out & E & Hm & Hw & _).
  exists out. split; [exact E|]. split; [exact Hm|]. split; [exact Hw|].
  intros out' Hm'.
  assert (Hn : exists n, forall d, In d ds -> depth (VDict d) <= n).
  { clear. induction ds as [|x l [n Hn]].
    - exists 0. intros d [].
    - exists (Nat.max n (depth (VDict x))). intros d [<-|Hd]; [lia|]. specialize (Hn d Hd). lia. }
  destruct Hn as [n Hn]. exact (merged_unique _ _ n ds out' out Hn Hm' Hm).
Qed.
Print Assumptions C16_dict_merge.

(** In first-order words, for the default options: a key is in the result iff some
    dictionary has a value for it that is not None; a value that is not a dictionary is
    that of the first dictionary having one; the result of a dictionary followed by
    other dictionaries under the same key is [dict_merge] of them. *)
Theorem C16_first_wins : forall fuel (ds1 : list (dict pyval)) d ds2 k v,
  let ds := ds1 ++ d :: ds2 in
  Forall (fun d => wf (VDict d)) ds ->
  (forall d, In d (tl ds) -> depth (VDict d) <= fuel) ->
  (forall d', In d' ds1 -> dget d' k = None \/ dget d' k = Some VNone) ->
  dget d k = Some v -> v <> VNone -> (forall s, v <> VDict s) ->
  exists out, dict_merge (S fuel) default_opts (map VDict ds) = Ok (VDict out) /\
    dget out k = Some v.
Proof.
  intros fuel ds1 d ds2 k v ds Hwf Hd H1 Hv Hn Hnd.
  destruct (C16_dict_merge default_opts fuel ds eq_refl eq_refl eq_refl Hwf Hd) as (out & E & Hm & _).
  exists out. split; [exact E|]. inversion Hm as [? ? M0 M1 M2 M3]; subst.
  apply (M2 k v (values true ds2 k)).
  - unfold ds. rewrite values_app. replace (values (skipnones default_opts) ds1 k) with (@nil pyval).
    + cbn [app values]. rewrite Hv. destruct v; try reflexivity. congruence.
    + symmetry. clear -H1. induction ds1 as [|x l IH]; [reflexivity|]. cbn [values].
      destruct (H1 x (or_introl eq_refl)) as [->| ->]; cbn; apply IH; intros; apply H1; simpl; auto.
  - intros _ Hd'. destruct v; try discriminate. now destruct (Hnd d0).
Qed.
Print Assumptions C16_first_wins.
Theorem C16_keys : forall fuel (ds : list (dict pyval)) out k,
  Forall (fun d => wf (VDict d)) ds ->
  (forall d, In d (tl ds) -> depth (VDict d) <= fuel) ->
  dict_merge (S fuel) default_opts (map VDict ds) = Ok (VDict out) ->
  (dget out k <> None <-> exists d v, In d ds /\ dget d k = Some v /\ v <> VNone).
Proof.
  intros fuel ds out k Hwf Hd E.
  destruct (C16_dict_merge default_opts fuel ds eq_refl eq_refl eq_refl Hwf Hd)
    as (out' & E' & Hm & _).
  rewrite E in E'. injection E' as <-. inversion Hm as [? ? M0 M1 M2 M3]; subst.
  cbn [default_opts skipnones mergesubdicts] in *.
  split.
  - intro Hk. destruct (values true ds k) as [|v r] eqn:Ev; [now rewrite M1 in Hk|].
    destruct (values_in true ds k v) as (d & Hin & Hg & Hs); [rewrite Ev; simpl; auto|].
    exists d, v. split; auto. split; auto. intros ->. discriminate.
  - intros (d & v & Hin & Hg & Hv) Hk.
    assert (Hne : values true ds k <> []).
    { clear -Hin Hg Hv. induction ds as [|x l IH]; [destruct Hin|]. cbn [values].
      destruct Hin as [->|Hin].
      - rewrite Hg. destruct v; try discriminate. congruence.
      - destruct (dget x k) as [w|]; [destruct (true && is_none w)|]; auto. discriminate. }
    destruct (values true ds k) as [|w r] eqn:Ev; [congruence|].
    destruct (is_dict w) eqn:Ed.
    + destruct (dicts_of r) as [|b bs] eqn:Er.
      * rewrite (M2 k w r) in Hk; auto; discriminate.
      * destruct w; try discriminate. destruct (M3 k d0 r b bs) as (c & Hc & _); auto.
        rewrite Hc in Hk. discriminate.
    + rewrite (M2 k w r) in Hk; auto; [discriminate|]. intros _ H. congruence.
Qed.
Print Assumptions C16_keys.

(** ** Neutral elements, for every setting of the options *)
Theorem C16_empty_ignored : forall fuel o ds1 ds2 v,
  truthy v = false -> dict_merge fuel o (ds1 ++ v :: ds2) = dict_merge fuel o (ds1 ++ ds2).
Proof.
  intros [|fuel] o ds1 ds2 v Hv; [reflexivity|]. cbn [dict_merge].
  rewrite !filter_app. cbn [List.filter]. now rewrite Hv.
Qed.
Print Assumptions C16_empty_ignored.
Theorem C16_self : forall o fuel d m,
  overwriteempty o = false -> mergelists o = false -> mergetuples o = false ->
  wf (VDict d) -> no_none (VDict d) -> depth (VDict d) <= fuel ->
  dict_merge (S fuel) o (map VDict (List.repeat d (S m))) = Ok (VDict d).
Proof.
  intros o fuel d m H1 H2 H3 Hw Hn Hd.
  destruct (C16_dict_merge o fuel (List.repeat d (S m)) H1 H2 H3) as (out & E & _ & _ & Hu).
  - apply Forall_forall. intros x Hx. apply repeat_spec in Hx. now subst.
  - intros x Hx. assert (Hx' : In x (List.repeat d (S m))) by (simpl; right; exact Hx).
    apply repeat_spec in Hx'. now subst.
  - rewrite E. do 2 f_equal. symmetry. apply Hu. exact (merged_self _ _ _ d m (le_n _) Hw Hn).
Qed.
Print Assumptions C16_self.

(** ** The other options.  Each key of the result depends on its own values only. *)
Theorem C16_lists : forall o fuel (ds : list (dict pyval)) out k a rest,
  mergelists o = true -> uniquify o = false -> overwriteempty o = false ->
  Forall dict_wf ds ->
  dict_merge (S fuel) o (map VDict ds) = Ok (VDict out) ->
  values (skipnones o) ds k = VList a :: rest ->
  dget out k = Some (VList (a ++ List.concat (lists_of rest))).
Proof.
  intros o fuel ds out k a rest H1 H2 H3 Hwf E Hv.
  destruct (dict_merge_fold fuel o ds _ Hwf E) as (out' & E' & _ & _ & Hf).
  injection E' as <-. specialize (Hf k). rewrite Hv in Hf. cbn [fold1] in Hf.
  rewrite fold_lists in Hf by auto. cbn [bind] in Hf. congruence.
Qed.
Print Assumptions C16_lists.
Theorem C16_tuples : forall o fuel (ds : list (dict pyval)) out k a rest,
  mergetuples o = true -> uniquify o = false -> overwriteempty o = false ->
  Forall dict_wf ds ->
  dict_merge (S fuel) o (map VDict ds) = Ok (VDict out) ->
  values (skipnones o) ds k = VTuple a :: rest ->
  dget out k = Some (VTuple (a ++ List.concat (tuples_of rest))).
Proof.
  intros o fuel ds out k a rest H1 H2 H3 Hwf E Hv.
  destruct (dict_merge_fold fuel o ds _ Hwf E) as (out' & E' & _ & _ & Hf).
  injection E' as <-. specialize (Hf k). rewrite Hv in Hf. cbn [fold1] in Hf.
  rewrite fold_tuples in Hf by auto. cbn [bind] in Hf. congruence.
Qed.
Print Assumptions C16_tuples.
(** With uniquify, tuples of the same key become one tuple without duplicates; it fails when an
    item cannot be hashed. *)
Lemma hashable_false : forall v, hashable v = false -> unhashable v.
Proof.
  fix IH 1. intros [| | | |l|l|d|n|g] H; try discriminate H; try constructor.
  cbn in H. assert (X : exists x, In x l /\ unhashable x).
  { induction l as [|x l IHl]; [discriminate H|]. destruct (hashable x) eqn:E; cbn in H.
    - destruct (IHl H) as (y & Hy & U). exists y. split; [now right|exact U].
    - exists x. split; [now left|]. apply IH. exact E. }
  destruct X as (x & Hx & U). econstructor; eassumption.
Qed.
Lemma unhashable_false v : unhashable v -> hashable v = false.
Proof.
  induction 1 as [l|d|l x Hx U IH]; try reflexivity. cbn. induction l as [|y l IHl]; [destruct Hx|].
  destruct Hx as [->|Hx]; [now rewrite IH|]. rewrite (IHl Hx). now destruct (hashable y).
Qed.
(** Two values are duplicates when they are equal for Python: the same None, text or object, the
    same number (True is 1), or lists or tuples of the same length with equal items *)
Inductive number : pyval -> Z -> Prop := n_bool b : number (VBool b) (if b then 1 else 0)%Z | n_int z : number (VInt z) z.
Inductive equal_values : pyval -> pyval -> Prop :=
| eq_none : equal_values VNone VNone
| eq_text s : equal_values (VStr s) (VStr s)
| eq_obj n : equal_values (VObj n) (VObj n)
| eq_num a b z : number a z -> number b z -> equal_values a b
| eq_list l m : Forall2 equal_values l m -> equal_values (VList l) (VList m)
| eq_tuple l m : Forall2 equal_values l m -> equal_values (VTuple l) (VTuple m).
Theorem C16_equal : forall a b, py_eqb a b = true <-> equal_values a b.
Proof.
  fix IH 1. assert (L : forall l m, (fix go l m := match l, m with [], [] => true | x :: l', y :: m' => py_eqb x y && go l' m' | _, _ => false end) l m = true <-> Forall2 equal_values l m).
  { fix IHl 1. intros [|x l] [|y m]; split; intro H; try discriminate; try constructor; try (inversion H; fail).
    - apply Bool.andb_true_iff in H. apply IH. apply H.
    - apply Bool.andb_true_iff in H. apply IHl. apply H.
    - inversion H; subst. apply Bool.andb_true_iff. split; [now apply IH|now apply IHl]. }
  intros [|x|x|s|l|l|d|n|g] [|y|y|t|m|m|e|p|h]; cbn [py_eqb]; (split; intro H); try discriminate H; try (inversion H; subst; fail); try (inversion H as [| | |? ? z N1 N2| |]; inversion N1; inversion N2; fail).
  all: try constructor.
  all: try (now apply L).
  all: try (inversion H as [| | |? ? z N1 N2|? ? F|? ? F]; subst; [inversion N1|now apply L]; fail).
  - apply Bool.eqb_prop in H. subst. apply eq_num with (if y then 1 else 0)%Z; constructor.
  - inversion H as [| | |? ? z N1 N2| |]; subst. inversion N1; subst. inversion N2 as [b E1 E2|]; subst. destruct x, y; try reflexivity; discriminate.
  - apply Z.eqb_eq in H. subst. apply eq_num with (if x then 1 else 0)%Z; [constructor|]. destruct x; constructor.
  - inversion H as [| | |? ? z N1 N2| |]; subst. inversion N1; subst. inversion N2; subst. destruct x; reflexivity.
  - apply Z.eqb_eq in H. subst. apply eq_num with (if y then 1 else 0)%Z; [|constructor]. destruct y; constructor.
  - inversion H as [| | |? ? z N1 N2| |]; subst. inversion N1; subst. inversion N2; subst. destruct y; reflexivity.
  - apply Z.eqb_eq in H. subst. apply eq_num with y; constructor.
  - inversion H as [| | |? ? z N1 N2| |]; subst. inversion N1; subst. inversion N2; subst. apply Z.eqb_refl.
  - apply String.eqb_eq in H. subst. constructor.
  - inversion H as [| | |? ? z N1 N2| |]; subst; [apply String.eqb_refl|inversion N1].
  - apply Nat.eqb_eq in H. subst. constructor.
  - inversion H as [| | |? ? z N1 N2| |]; subst; [apply Nat.eqb_refl|inversion N1].
Qed.
Theorem C16_unique_tuples : forall o fuel k a b,
  mergetuples o = true -> uniquify o = true -> overwriteempty o = false ->
  ((forall x, In x (a ++ b) -> ~ unhashable x) ->
   dict_merge (S fuel) o [VDict [(k, VTuple a)]; VDict [(k, VTuple b)]] = Ok (VDict [(k, VTuple (gunique py_eqb (a ++ b)))])) /\
  ((exists x, In x (a ++ b) /\ unhashable x) ->
   dict_merge (S fuel) o [VDict [(k, VTuple a)]; VDict [(k, VTuple b)]] = Raise TypeError).
Proof.
  intros o fuel k a b H1 H2 H3.
  assert (E : dict_merge (S fuel) o [VDict [(k, VTuple a)]; VDict [(k, VTuple b)]] =
    if forallb hashable (a ++ b) then Ok (VDict [(k, VTuple (gunique py_eqb (a ++ b)))]) else Raise TypeError).
  { cbn [dict_merge List.filter truthy negb forallb is_dict andb dicts_of]. unfold merge_dicts, for_each, merge_items, for_each.
    cbn. unfold merge_item. cbn [is_none]. rewrite Bool.andb_false_r. cbn. rewrite String.eqb_refl. cbn. rewrite H3, H1, H2. cbn.
    destruct (forallb hashable (a ++ b)); cbn; rewrite ?String.eqb_refl; reflexivity. }
  rewrite E. split.
  - intro H. replace (forallb hashable (a ++ b)) with true; [reflexivity|]. symmetry. apply forallb_forall. intros x Hx.
    destruct (hashable x) eqn:Eh; auto. exfalso. apply (H x Hx). now apply hashable_false.
  - intros (x & Hx & U). destruct (forallb hashable (a ++ b)) eqn:Ef; auto. rewrite forallb_forall in Ef.
    specialize (Ef x Hx). rewrite (unhashable_false x U) in Ef. discriminate Ef.
Qed.
Print Assumptions C16_unique_tuples.
Example C16_unique_tuples_ex :
  dict_merge 3 (mkopts true true true true true false) [VDict [("k"%string, VTuple [VInt 1; VInt 2])]; VDict [("k"%string, VTuple [VInt 2; VTuple [VInt 3]])]]
    = Ok (VDict [("k"%string, VTuple [VInt 1; VInt 2; VTuple [VInt 3]])]) /\
  unhashable (VTuple [VInt 1; VTuple [VList []]]).
Proof. split; [reflexivity|]. apply un_tuple with (VTuple [VList []]); [cbn; auto|]. apply un_tuple with (VList []); [cbn; auto|constructor]. Qed.
(** overwriteempty alone: the first true value, else the last value. *)
Theorem C16_overwriteempty : forall o fuel (ds : list (dict pyval)) out k v rest,
  overwriteempty o = true -> mergesubdicts o = false -> mergelists o = false ->
  mergetuples o = false -> Forall dict_wf ds ->
  dict_merge (S fuel) o (map VDict ds) = Ok (VDict out) ->
  values (skipnones o) ds k = v :: rest ->
  exists r, dget out k = Some r /\
    (truthy r = true -> exists l1 l2, v :: rest = l1 ++ r :: l2 /\ forallb is_empty l1 = true) /\
    (truthy r = false -> forallb is_empty (v :: rest) = true /\ r = List.last (v :: rest) v).
Proof.
  intros o fuel ds out k v rest H1 H2 H3 H4 Hwf E Hv.
  destruct (dict_merge_fold fuel o ds _ Hwf E) as (out' & E' & _ & _ & Hf).
  injection E' as <-. specialize (Hf k). rewrite Hv in Hf. cbn [fold1] in Hf.
  destruct (fold_overwrite o (dict_merge fuel o) rest H1 H2 H3 H4 v) as (r & Hr & Ht).
  rewrite Hr in Hf. cbn [bind] in Hf. exists r. split; [congruence|exact Ht].
Qed.
Print Assumptions C16_overwriteempty.

(** ** Non-trivial instances *)
Local Open Scope string_scope.
Definition d1 : dict pyval :=
  [("a", VInt 3); ("n", VNone); ("s", VDict [("x", VInt 1); ("z", VDict [("u", VInt 9)])])].
Definition d2 : dict pyval :=
  [("a", VInt 5); ("n", VInt 7); ("c", VNone); ("s", VDict [("y", VInt 2); ("x", VInt 8); ("z", VDict [("w", VInt 4)])])].
Definition d3 : dict pyval := [("s", VInt 0); ("e", VList [VInt 1; VInt 2]); ("s2", VDict [])].
Example C16_ex :
  dict_merge 4 default_opts (map VDict [d1; d2; d3]) =
  Ok (VDict [("a", VInt 3);
             ("s", VDict [("x", VInt 1); ("z", VDict [("u", VInt 9); ("w", VInt 4)]); ("y", VInt 2)]);
             ("n", VInt 7); ("e", VList [VInt 1; VInt 2]); ("s2", VDict [])]).
Proof. vm_compute. reflexivity. Qed.
Example C16_ex_hyps :
  Forall (fun d => wf (VDict d)) [d1; d2; d3] /\ (forall d, In d (tl [d1; d2; d3]) -> depth (VDict d) <= 3).
Proof.
  split.
  - unfold d1, d2, d3. repeat (apply Forall_cons; [cbn [wf map fst]|]); try apply Forall_nil;
      repeat (split || constructor || (intro; simpl in *; intuition congruence)).
  - intros d [<-|[<-|[]]]; vm_compute; lia.
Qed.
Definition dl (l : list Z) : pyval := VDict [("e", VList (map VInt l))].
Definition lopts (u : bool) : mopts := mkopts true true false u true false.
Example C16_lists_ex : dict_merge 2 (lopts false) [dl [1; 2]; dl [3]; VDict [("e", VInt 0)]; dl [2; 4]]%Z
  = Ok (dl [1; 2; 3; 2; 4]%Z).
Proof. vm_compute. reflexivity. Qed.
Example C16_overwrite_ex :
  dict_merge 2 (mkopts false false false false true true)
    [VDict [("a", VStr ""); ("b", VInt 0)]; VDict [("a", VInt 0); ("b", VStr "")]; VDict [("a", VInt 4)]]
  = Ok (VDict [("a", VInt 4); ("b", VStr "")]).
Proof. vm_compute. reflexivity. Qed.

(** ** Where the English claims fail *)
(** "Those who are not dictionaries are skipped": a true argument that is not a
    dictionary sets the class of the result, and raises. *)
Theorem C16_nondict_refuted : exists v,
  is_dict v = false /\ truthy v = true /\
  dict_merge 5 default_opts [VDict [("a", VInt 1)]; v] <> dict_merge 5 default_opts [VDict [("a", VInt 1)]] /\
  dict_merge 5 default_opts [VDict [("a", VInt 1)]; v] = Raise TypeError.
Proof. exists (VInt 3). repeat split; discriminate. Qed.
Print Assumptions C16_nondict_refuted.
(** mergelists with uniquify: the first merge leaves a generator, so the third list is
    lost and the value is not a list any more. *)
Theorem C16_uniquify_refuted : exists a b c out,
  dict_merge 5 (lopts true) [dl a; dl b; dl c] = Ok (VDict out) /\
  (forall l, dget out "e" <> Some (VList l)) /\
  exists l x, dget out "e" = Some (VGen l) /\ In x c /\ ~ In (VInt x) l.
Proof.
  exists [1]%Z, [2]%Z, [3]%Z, [("e", VGen [VInt 1; VInt 2])]. split; [reflexivity|]. split.
  - intros l. cbn. discriminate.
  - exists [VInt 1; VInt 2], 3%Z. split; [reflexivity|]. split; [left; reflexivity|].
    intros [H|[H|[]]]; discriminate.
Qed.
Print Assumptions C16_uniquify_refuted.
(** A None nested in a sub-dictionary is kept when this sub-dictionary is alone and
    dropped when it is merged: merging with itself changes the result. *)
Theorem C16_self_none_refuted : exists d,
  wf (VDict d) /\
  dict_merge 5 default_opts [VDict d] = Ok (VDict d) /\
  dict_merge 5 default_opts [VDict d; VDict d] <> Ok (VDict d).
Proof.
  exists [("s", VDict [("x", VNone); ("y", VInt 1)])]. split; [|split].
  - cbn. repeat (split || constructor || (intro; simpl in *; intuition congruence)).
  - reflexivity.
  - vm_compute. discriminate.
Qed.
Print Assumptions C16_self_none_refuted.
