(** C16, all the options but skipnones and uniquify together: among them the ones with which the
    configurations of CF specifications are merged (xoa/cf.py:54-62). *)
From Verif Require Import DictMergeProofs CFInherit.
Open Scope nat_scope.
Open Scope list_scope.

(** The value of a key that counts, and those that come after it: the first one, or, when empty
    values are overwritten, the first that is not empty, or the last one when all are empty *)
Definition counts (overwrite : bool) (vs : list pyval) (v : pyval) (rest : list pyval) : Prop :=
  exists before, vs = before ++ v :: rest /\
    if overwrite then Forall (fun w => truthy w = false) before /\ (truthy v = true \/ rest = [])
    else before = [].
(** A value that is not merged with the next ones of its key *)
Definition alone (o : mopts) (v : pyval) : Prop :=
  match v with
  | VList _ => mergelists o = false
  | VTuple _ => mergetuples o = false
  | VDict _ => mergesubdicts o = false
  | _ => True
  end.
(** [out] is the merge of [ds]: its keys come in the order of their first value; each has the value
    that counts, to which the items of the next lists (tuples) of the key are added when lists
    (tuples) are merged, and which is merged with the next dictionaries of the key when
    dictionaries are merged *)
Inductive joined (o : mopts) : list (dict pyval) -> dict pyval -> Prop :=
| joined_intro ds out :
    map fst out = gunique String.eqb (List.concat (map (map fst) ds)) ->
    (forall k, values false ds k = [] -> dget out k = None) ->
    (forall k v rest, counts (overwriteempty o) (values false ds k) v rest -> alone o v ->
       dget out k = Some v) ->
    (forall k a rest, mergelists o = true ->
       counts (overwriteempty o) (values false ds k) (VList a) rest ->
       dget out k = Some (VList (a ++ List.concat (lists_of rest)))) ->
    (forall k a rest, mergetuples o = true ->
       counts (overwriteempty o) (values false ds k) (VTuple a) rest ->
       dget out k = Some (VTuple (a ++ List.concat (tuples_of rest)))) ->
    (forall k a rest, mergesubdicts o = true ->
       counts (overwriteempty o) (values false ds k) (VDict a) rest ->
       exists c, dget out k = Some (VDict c) /\ joined o (a :: dicts_of rest) c) ->
    joined o ds out.

(** ** The value that counts *)
Lemma counts_det ow vs v r v' r' : counts ow vs v r -> counts ow vs v' r' -> v = v' /\ r = r'.
Proof.
  intros (b & -> & H) (b' & E & H'). destruct ow.
  2:{ subst. cbn in E. injection E as -> ->. auto. }
  destruct H as [Hb Hv], H' as [Hb' Hv']. revert b' E Hb'.
  induction b as [|x b IH]; intros [|y b'] E Hb'; cbn in E; injection E as E1 E2.
  - auto.
  - subst. inversion Hb' as [|? ? F _]; subst. destruct Hv as [Hv|Hv]; [congruence|].
    destruct b'; discriminate.
  - subst. inversion Hb as [|? ? F _]; subst. destruct Hv' as [Hv'|Hv']; [congruence|].
    destruct b; discriminate.
  - subst. inversion Hb; inversion Hb'; subst. apply (IH H2 b'); auto.
Qed.
Lemma counts_total ow v vs : exists w r, counts ow (v :: vs) w r.
Proof.
  destruct ow; [|exists v, vs, []; auto]. revert v. induction vs as [|x vs IH]; intro v.
  - exists v, [], []. auto.
  - destruct (truthy v) eqn:T.
    + exists v, (x :: vs), []. auto.
    + destruct (IH x) as (w & r & b & E & H1 & H2). exists w, r, (v :: b). rewrite E. auto.
Qed.
Lemma counts_skip v w l x r : truthy v = false -> counts true (w :: l) x r -> counts true (v :: w :: l) x r.
Proof. intros T (b & E & H1 & H2). exists (v :: b). rewrite E. auto. Qed.
Lemma counts_head ow v l : ow = false \/ truthy v = true \/ l = [] -> counts ow (v :: l) v l.
Proof. intro H. exists []. split; auto. destruct ow; auto. destruct H as [H|H]; [discriminate|auto]. Qed.
Lemma counts_in ow vs v r : counts ow vs v r -> In v vs /\ incl r vs.
Proof.
  intros (b & -> & _). split; [apply in_or_app; right; now left|].
  intros x Hx. apply in_or_app. right. now right.
Qed.
Lemma counts_nil ow v r : ~ counts ow [] v r.
Proof. intros (b & E & _). destruct b; discriminate. Qed.

Lemma item_keys_false ds : item_keys false ds = List.concat (map (map fst) ds).
Proof.
  unfold item_keys. cbn [andb negb]. rewrite filter_true. now rewrite concat_map.
Qed.
Lemma kinds o v : alone o v \/ (exists a, v = VList a /\ mergelists o = true) \/
  (exists a, v = VTuple a /\ mergetuples o = true) \/ (exists a, v = VDict a /\ mergesubdicts o = true).
Proof.
  destruct v as [| | | |l|l|d| |]; cbn [alone]; auto.
  - destruct (mergelists o); [right; left; exists l; auto|auto].
  - destruct (mergetuples o); [right; right; left; exists l; auto|auto].
  - destruct (mergesubdicts o); [right; right; right; exists d; auto|auto].
Qed.
Lemma lists_of_app l1 l2 : lists_of (l1 ++ l2) = lists_of l1 ++ lists_of l2.
Proof. induction l1 as [|v l IH]; [reflexivity|]. destruct v; cbn [app lists_of]; rewrite ?IH; reflexivity. Qed.
Lemma tuples_of_app l1 l2 : tuples_of (l1 ++ l2) = tuples_of l1 ++ tuples_of l2.
Proof. induction l1 as [|v l IH]; [reflexivity|]. destruct v; cbn [app tuples_of]; rewrite ?IH; reflexivity. Qed.

(** What one key becomes *)
Definition outcome (o : mopts) (v : pyval) (rest : list pyval) (r : pyval) : Prop :=
  (alone o v -> r = v) /\
  (forall a, v = VList a -> mergelists o = true -> r = VList (a ++ List.concat (lists_of rest))) /\
  (forall a, v = VTuple a -> mergetuples o = true -> r = VTuple (a ++ List.concat (tuples_of rest))) /\
  (forall a, v = VDict a -> mergesubdicts o = true -> exists c, r = VDict c /\ joined o (a :: dicts_of rest) c).
Lemma joined_iff o ds out : joined o ds out <->
  map fst out = gunique String.eqb (List.concat (map (map fst) ds)) /\
  (forall k, values false ds k = [] -> dget out k = None) /\
  (forall k v rest, counts (overwriteempty o) (values false ds k) v rest ->
     exists r, dget out k = Some r /\ outcome o v rest r).
Proof.
  split.
  - intro H. destruct H as [ds out K N A L T D]. split; [exact K|]. split; [exact N|].
    intros k v rest C. destruct (kinds o v) as [Ha|[(a & -> & Hm)|[(a & -> & Hm)|(a & -> & Hm)]]].
    + exists v. split; [exact (A k v rest C Ha)|]. split; [auto|].
      destruct v; cbn [alone] in Ha; (split; [|split]); intros a E M; try discriminate E; congruence.
    + exists (VList (a ++ List.concat (lists_of rest))). split; [now apply L|].
      split; [cbn; congruence|]. split; [intros a' E _; congruence|split; intros a' E; discriminate E].
    + exists (VTuple (a ++ List.concat (tuples_of rest))). split; [now apply T|].
      split; [cbn; congruence|]. split; [intros a' E; discriminate E|split; [intros a' E _; congruence|intros a' E; discriminate E]].
    + destruct (D k a rest Hm C) as (c & G & J). exists (VDict c). split; [exact G|].
      split; [cbn; congruence|]. split; [intros a' E; discriminate E|split; [intros a' E; discriminate E|]].
      intros a' E _. injection E as <-. eauto.
  - intros (K & N & C). constructor; auto.
    + intros k v rest Hc Ha. destruct (C k v rest Hc) as (r & G & O1 & _). now rewrite G, (O1 Ha).
    + intros k a rest Hm Hc. destruct (C k _ rest Hc) as (r & G & _ & O2 & _). now rewrite G, (O2 a eq_refl Hm).
    + intros k a rest Hm Hc. destruct (C k _ rest Hc) as (r & G & _ & _ & O3 & _). now rewrite G, (O3 a eq_refl Hm).
    + intros k a rest Hm Hc. destruct (C k _ rest Hc) as (r & G & _ & _ & _ & O4).
      destruct (O4 a eq_refl Hm) as (c & -> & J). eauto.
Qed.
Lemma joined_nonempty o a ds out : joined o (a :: ds) out -> a <> [] -> out <> [].
Proof.
  intros J Ha ->. apply joined_iff in J. destruct J as (K & _ & _). destruct a as [|[k v] a]; [congruence|].
  cbn in K. unfold gunique in K. discriminate K.
Qed.
Lemma outcome_truthy o v rest r : outcome o v rest r -> truthy v = true -> truthy r = true.
Proof.
  intros (O1 & O2 & O3 & O4) T. destruct (kinds o v) as [Ha|[(a & -> & Hm)|[(a & -> & Hm)|(a & -> & Hm)]]].
  - now rewrite (O1 Ha).
  - rewrite (O2 a eq_refl Hm). destruct a; [discriminate T|reflexivity].
  - rewrite (O3 a eq_refl Hm). destruct a; [discriminate T|reflexivity].
  - destruct (O4 a eq_refl Hm) as (c & -> & J). destruct a; [discriminate T|].
    destruct c; [|reflexivity]. now destruct (joined_nonempty o _ _ _ J).
Qed.
Lemma joined_empty o out : joined o [[]] out -> out = [].
Proof. intro J. apply joined_iff in J. destruct J as (K & _). cbn in K. now destruct out. Qed.
Lemma outcome_empty o v r : outcome o v [] r -> truthy v = false -> r = v.
Proof.
  intros (O1 & O2 & O3 & O4) T. destruct (kinds o v) as [Ha|[(a & -> & Hm)|[(a & -> & Hm)|(a & -> & Hm)]]].
  - auto.
  - rewrite (O2 a eq_refl Hm). cbn. now rewrite app_nil_r.
  - rewrite (O3 a eq_refl Hm). cbn. now rewrite app_nil_r.
  - destruct (O4 a eq_refl Hm) as (c & -> & J). destruct a; [|discriminate T]. now rewrite (joined_empty _ _ J).
Qed.

(** ** Merging the merge of the first ones with the others is merging all *)
Lemma depth_values n ds k d : (forall d, In d ds -> depth (VDict d) <= S n) ->
  In (VDict d) (values false ds k) -> depth (VDict d) <= n.
Proof.
  intros H Hd. destruct (values_in _ _ _ _ Hd) as (d0 & Hin & Hg & _). apply depth_get in Hg.
  specialize (H d0 Hin). lia.
Qed.
Lemma joined_assoc o : forall n ds m cs out, (forall d, In d ds -> depth (VDict d) <= n) ->
  joined o ds m -> joined o (m :: cs) out -> joined o (ds ++ cs) out.
Proof.
  induction n as [|n IH]; intros ds m cs out Hn Jm Jo.
  { destruct ds as [|d ds]; [|specialize (Hn d (or_introl eq_refl)); simpl in Hn; lia].
    apply joined_iff in Jm. destruct Jm as (K & _). destruct m; [|discriminate K]. cbn [app].
    apply joined_iff in Jo. apply joined_iff. exact Jo. }
  apply joined_iff in Jm. destruct Jm as (K & N & C). apply joined_iff in Jo.
  destruct Jo as (K' & N' & C'). apply joined_iff. split; [|split].
  - rewrite K'. cbn [map List.concat]. rewrite K, map_app, concat_app. apply gunique_app_l.
  - intros k Hk. rewrite values_app in Hk. apply app_eq_nil in Hk. destruct Hk as [H1 H2].
    apply N'. cbn [values]. now rewrite (N k H1).
  - intros k v rest Hc. rewrite values_app in Hc.
    destruct (values false ds k) as [|v0 r0] eqn:Ev.
    { cbn [app] in Hc. apply C'. cbn [values]. rewrite (N k Ev). exact Hc. }
    destruct (counts_total (overwriteempty o) v0 r0) as (v1 & r1 & C1).
    rewrite <- Ev in C1. destruct (C k v1 r1 C1) as (r & G & O).
    assert (Hv : values false (m :: cs) k = r :: values false cs k).
    { cbn [values andb]. now rewrite G. }
    rewrite <- Ev in Hc.
    assert (D : (overwriteempty o = false \/ truthy v1 = true) \/
                (overwriteempty o = true /\ truthy v1 = false /\ r1 = [])).
    { destruct (overwriteempty o) eqn:Eow; [|auto]. destruct (truthy v1) eqn:T; [auto|].
      destruct C1 as (b & _ & _ & [X|X]); [congruence|auto]. }
    destruct D as [D|(Eow & T & ->)].
    + (* the value of the first ones counts *)
      assert (X : counts (overwriteempty o) (values false ds k ++ values false cs k) v1 (r1 ++ values false cs k)).
      { destruct C1 as (b & E & H). exists b. rewrite E, <- app_assoc. split; [reflexivity|].
        destruct (overwriteempty o); [|exact H]. destruct H as [H1 H2]. destruct D as [D|D]; [discriminate|]. auto. }
      destruct (counts_det _ _ _ _ _ _ Hc X) as [-> ->]. clear X.
      assert (Y : counts (overwriteempty o) (values false (m :: cs) k) r (values false cs k)).
      { rewrite Hv. apply counts_head. destruct D as [D|D]; [auto|]. right. left.
        exact (outcome_truthy _ _ _ _ O D). }
      destruct (C' k r _ Y) as (r' & G' & O'). exists r'. split; [exact G'|].
      destruct O as (O1 & O2 & O3 & O4), O' as (O1' & O2' & O3' & O4').
      split; [|split; [|split]].
      * intro Ha. assert (r = v1) by auto. subst r. auto.
      * intros a Ea Hm. rewrite (O2' _ (O2 a Ea Hm) Hm). now rewrite lists_of_app, concat_app, app_assoc.
      * intros a Ea Hm. rewrite (O3' _ (O3 a Ea Hm) Hm). now rewrite tuples_of_app, concat_app, app_assoc.
      * intros a -> Hm. destruct (O4 a eq_refl Hm) as (c & -> & J).
        destruct (O4' c eq_refl Hm) as (c' & -> & J'). exists c'. split; [reflexivity|].
        rewrite dicts_of_app. apply (IH (a :: dicts_of r1) c _ c'); auto.
        intros d Hd. apply (depth_values n ds k); [exact Hn|].
        destruct (counts_in _ _ _ _ C1) as [I1 I2]. destruct Hd as [<-|Hd]; [exact I1|].
        apply I2. now apply dicts_of_in.
    + (* all of them are empty *)
      assert (r = v1) by (eapply outcome_empty; eassumption). subst r.
      apply (C' k v rest). rewrite Hv. rewrite Eow in *.
      destruct C1 as (b & E & H1 & _). rewrite E, <- app_assoc in Hc. cbn [app] in Hc.
      destruct (values false cs k) as [|w ws] eqn:Ew.
      * assert (X : counts true (b ++ [v1]) v1 []) by (exists b; auto).
        destruct (counts_det _ _ _ _ _ _ Hc X) as [-> ->]. exists []. auto.
      * destruct (counts_total true v1 (w :: ws)) as (x & y & Z).
        assert (X : counts true (b ++ v1 :: w :: ws) x y).
        { clear -H1 Z. induction b as [|u b IHb]; [exact Z|]. inversion H1; subst. cbn [app].
          destruct (b ++ v1 :: w :: ws) as [|p q] eqn:F; [destruct b; discriminate|].
          apply counts_skip; auto. }
        destruct (counts_det _ _ _ _ _ _ Hc X) as [-> ->]. exact Z.
Qed.
Lemma bounded (l : list (dict pyval)) : exists n, forall d, In d l -> depth (VDict d) <= n.
Proof.
  induction l as [|x l [n Hn]].
  - exists 0. intros d [].
  - exists (Nat.max n (depth (VDict x))). intros d [<-|Hd]; [lia|]. specialize (Hn d Hd). lia.
Qed.
Lemma gunique_nodup l : NoDup l -> gunique String.eqb l = l.
Proof.
  intro H. apply gunique_loop_id; [|reflexivity].
  induction H as [|x l Hx Hl IH]; constructor; auto.
  apply Forall_forall. intros y Hy. apply String.eqb_neq. intros ->. contradiction.
Qed.
Lemma joined_one o : forall n a, depth (VDict a) <= n -> wf (VDict a) -> joined o [a] a.
Proof.
  induction n as [|n IH]; intros a Hd Hw; [simpl in Hd; lia|].
  apply wf_dict in Hw. destruct Hw as [Hw Hv]. apply joined_iff. split; [|split].
  - cbn. rewrite app_nil_r. symmetry. now apply gunique_nodup.
  - intros k Hk. cbn [values andb] in Hk. destruct (dget a k); [discriminate|reflexivity].
  - intros k v rest C. cbn [values andb] in C. destruct (dget a k) as [w|] eqn:E; [|now apply counts_nil in C].
    assert (X : counts (overwriteempty o) [w] w []) by (apply counts_head; auto).
    destruct (counts_det _ _ _ _ _ _ C X) as [-> ->]. exists w. split; [reflexivity|].
    split; [auto|]. split; [|split].
    + intros b -> _. cbn. now rewrite app_nil_r.
    + intros b -> _. cbn. now rewrite app_nil_r.
    + intros b -> _. exists b. split; [reflexivity|]. cbn [dicts_of]. apply IH.
      * apply depth_get in E. lia.
      * exact (Hv _ _ E).
Qed.

(** ** The folds *)
Section Fold.
  Variables (o : mopts) (rec : list pyval -> res pyval) (n : nat).
  Hypothesis (Hu : uniquify o = false).
  Hypothesis (Hrec : forall a b, wf (VDict a) -> wf (VDict b) -> depth (VDict b) <= n ->
    exists c, rec [VDict a; VDict b] = Ok (VDict c) /\ joined o [a; b] c /\ wf (VDict c)).
  Let ow := overwriteempty o.
  Definition stays (v : pyval) : Prop := ow = false \/ truthy v = true.
  Lemma stays_if v : stays v -> overwriteempty o && is_empty v = false.
  Proof. unfold stays, is_empty. fold ow. intros [->| ->]; [reflexivity|now rewrite andb_false_r]. Qed.
  Lemma fold_alone v l : stays v -> alone o v -> fold_vals o rec v l = Ok v.
  Proof.
    intros S A. induction l as [|w l IH]; [reflexivity|]. cbn [fold_vals].
    unfold combine1. rewrite (stays_if v S).
    destruct v, w; cbn [alone] in A; rewrite ?A; cbn [bind]; exact IH.
  Qed.
  Lemma fold_list l : forall a, stays (VList a) -> mergelists o = true ->
    fold_vals o rec (VList a) l = Ok (VList (a ++ List.concat (lists_of l))).
  Proof.
    induction l as [|w l IH]; intros a S M; cbn [fold_vals].
    - cbn. now rewrite app_nil_r.
    - unfold combine1. rewrite (stays_if _ S), M, Hu. destruct w; cbn [bind lists_of]; rewrite IH; auto.
      + cbn [List.concat]. now rewrite app_assoc.
      + destruct S as [S|S]; [now left|right]. destruct a; [discriminate S|reflexivity].
  Qed.
  Lemma fold_tuple l : forall a, stays (VTuple a) -> mergetuples o = true ->
    fold_vals o rec (VTuple a) l = Ok (VTuple (a ++ List.concat (tuples_of l))).
  Proof.
    induction l as [|w l IH]; intros a S M; cbn [fold_vals].
    - cbn. now rewrite app_nil_r.
    - unfold combine1. rewrite (stays_if _ S), M, Hu. destruct w; cbn [bind tuples_of]; rewrite IH; auto.
      + cbn [List.concat]. now rewrite app_assoc.
      + destruct S as [S|S]; [now left|right]. destruct a; [discriminate S|reflexivity].
  Qed.
  Lemma fold_dict l : forall ds c, stays (VDict c) -> mergesubdicts o = true -> wf (VDict c) ->
    (forall w, In w l -> wf w /\ depth w <= n) -> joined o ds c ->
    exists e, fold_vals o rec (VDict c) l = Ok (VDict e) /\ wf (VDict e) /\ joined o (ds ++ dicts_of l) e.
  Proof.
    induction l as [|w l IH]; intros ds c S M Wc Hl J; cbn [fold_vals].
    - exists c. cbn [dicts_of]. rewrite app_nil_r. auto.
    - assert (Hl' : forall w, In w l -> wf w /\ depth w <= n) by (intros; apply Hl; now right).
      unfold combine1. rewrite (stays_if _ S), M.
      destruct w as [| | | | | |b| |]; cbn [bind dicts_of]; try (now apply IH).
      destruct (Hl (VDict b) (or_introl eq_refl)) as [Wb Db].
      destruct (Hrec c b Wc Wb Db) as (m & -> & Jm & Wm). cbn [bind].
      destruct (bounded ds) as [q Hq].
      destruct (IH (ds ++ [b]) m) as (e & E & We & Je); auto.
      + destruct S as [S|S]; [now left|right]. destruct c; [discriminate S|].
        destruct m; [|reflexivity]. now destruct (joined_nonempty _ _ _ _ Jm).
      + exact (joined_assoc o q ds c [b] m Hq J Jm).
      + exists e. split; [exact E|]. split; [exact We|]. now rewrite <- app_assoc in Je.
  Qed.
  Lemma fold_key : forall rest v, wf v -> (forall w, In w rest -> wf w /\ depth w <= n) ->
    exists r, fold_vals o rec v rest = Ok r /\ wf r /\
      forall v' rest', counts ow (v :: rest) v' rest' -> outcome o v' rest' r.
  Proof.
    assert (Hd : forall v rest, wf v -> (forall w, In w rest -> wf w /\ depth w <= n) -> stays v \/ rest = [] ->
      exists r, fold_vals o rec v rest = Ok r /\ wf r /\ outcome o v rest r).
    { intros v rest Wv Hr S. destruct S as [S| ->].
      - destruct (kinds o v) as [Ha|[(a & -> & Hm)|[(a & -> & Hm)|(a & -> & Hm)]]].
        + exists v. rewrite fold_alone by auto. split; [reflexivity|]. split; [exact Wv|].
          split; [auto|]. destruct v; cbn [alone] in Ha; (split; [|split]); intros a E M; try discriminate E; congruence.
        + rewrite fold_list by auto. eexists. split; [reflexivity|]. split; [exact Logic.I|].
          split; [cbn; congruence|]. split; [intros a' E _; congruence|split; intros a' E; discriminate E].
        + rewrite fold_tuple by auto. eexists. split; [reflexivity|]. split; [exact Logic.I|].
          split; [cbn; congruence|]. split; [intros a' E; discriminate E|split; [intros a' E _; congruence|intros a' E; discriminate E]].
        + destruct (fold_dict rest [a] a S Hm Wv Hr) as (e & E & We & J).
          { exact (joined_one o _ a (le_n _) Wv). }
          exists (VDict e). split; [exact E|]. split; [exact We|].
          split; [cbn; congruence|]. split; [intros a' F; discriminate F|split; [intros a' F; discriminate F|]].
          intros a' F _. injection F as <-. eauto.
      - exists v. split; [reflexivity|]. split; [exact Wv|]. split; [auto|]. split; [|split].
        + intros a -> _. cbn. now rewrite app_nil_r.
        + intros a -> _. cbn. now rewrite app_nil_r.
        + intros a -> _. exists a. split; [reflexivity|]. exact (joined_one o _ a (le_n _) Wv). }
    induction rest as [|w rest IH]; intros v Wv Hr.
    - destruct (Hd v [] Wv Hr (or_intror eq_refl)) as (r & E & Wr & O). exists r. split; [exact E|].
      split; [exact Wr|]. intros v' r' C. assert (X : counts ow [v] v []) by (apply counts_head; auto).
      destruct (counts_det _ _ _ _ _ _ C X) as [-> ->]. exact O.
    - destruct (ow && is_empty v) eqn:Ee.
      + apply andb_true_iff in Ee. destruct Ee as [Eow Ev].
        assert (Et : truthy v = false) by (unfold is_empty in Ev; now apply negb_true_iff in Ev).
        destruct (IH w) as (r & E & Wr & O).
        { apply Hr. now left. }
        { intros x Hx. apply Hr. now right. }
        exists r. cbn [fold_vals]. unfold combine1. fold ow. rewrite Eow, Ev. cbn [andb bind].
        split; [exact E|]. split; [exact Wr|]. intros v' r' C. apply O.
        rewrite Eow in *. destruct (counts_total true w rest) as (x & y & Z).
        destruct (counts_det _ _ _ _ _ _ C (counts_skip v _ _ _ _ Et Z)) as [-> ->]. exact Z.
      + assert (S : stays v).
        { unfold stays. destruct ow; [right|now left]. unfold is_empty in Ee. now apply negb_false_iff in Ee. }
        destruct (Hd v (w :: rest) Wv Hr (or_introl S)) as (r & E & Wr & O). exists r.
        split; [exact E|]. split; [exact Wr|]. intros v' r' C.
        assert (X : counts ow (v :: w :: rest) v (w :: rest)).
        { apply counts_head. destruct S; auto. }
        destruct (counts_det _ _ _ _ _ _ C X) as [-> ->]. exact O.
  Qed.
End Fold.

Lemma merge_joined o : uniquify o = false -> skipnones o = false -> forall fuel ds,
  Forall (fun d => wf (VDict d)) ds -> (forall d, In d (tl ds) -> depth (VDict d) <= fuel) ->
  exists out, dict_merge (S fuel) o (map VDict ds) = Ok (VDict out) /\ joined o ds out /\ wf (VDict out).
Proof.
  intros Hu Hs. induction fuel as [|fuel IH]; intros ds Hwf Hdep.
  - assert (Htl : tl ds = []).
    { destruct (tl ds) as [|d r] eqn:E; auto. specialize (Hdep d (or_introl eq_refl)). simpl in Hdep. lia. }
    destruct ds as [|a [|b ds]]; try discriminate Htl.
    + exists []. split; [reflexivity|]. split; [|split; [constructor|exact Logic.I]].
      apply joined_iff. split; [reflexivity|]. split; [auto|]. intros k v r C. now apply counts_nil in C.
    + assert (W : wf (VDict a)) by (inversion Hwf; auto). exists a. split; [|split; [|exact W]].
      * rewrite dict_merge_list. cbn [List.concat]. rewrite app_nil_r.
        assert (Wa : dict_wf a) by (apply wf_dict in W; tauto).
        destruct (merge_list_ok o (dict_merge 0 o) a []) as (out & E & Wo & F & K).
        { constructor. }
        { intro k. rewrite vals_dict, Hs by auto. cbn [andb dget].
          destruct (dget a k); eexists; reflexivity. }
        rewrite E. cbn [bind]. do 2 f_equal. apply dict_ext; [exact Wo| |].
        -- rewrite K. cbn [dkeys map app]. unfold ikeys, keep. rewrite Hs. cbn [andb negb].
           rewrite filter_true. now apply gunique_nodup.
        -- intros k _. specialize (F k). rewrite vals_dict, Hs in F by auto. cbn [andb dget] in F.
           destruct (dget a k); cbn in F; congruence.
      * exact (joined_one o _ a (le_n _) W).
  - set (rec := dict_merge (S fuel) o).
    assert (Hd : Forall dict_wf ds).
    { rewrite Forall_forall in *. intros d Hd. exact (proj1 (proj1 (wf_dict d) (Hwf d Hd))). }
    assert (Hrec : forall a b, wf (VDict a) -> wf (VDict b) -> depth (VDict b) <= fuel ->
       exists c, rec [VDict a; VDict b] = Ok (VDict c) /\ joined o [a; b] c /\ wf (VDict c)).
    { intros a b Wa Wb Db. destruct (IH [a; b]) as (c & E & J & W).
      - apply Forall_cons; [exact Wa|apply Forall_cons; [exact Wb|apply Forall_nil]].
      - intros d [<-|[]]. exact Db.
      - exists c. auto. }
    assert (Hfold : forall k v rest, values false ds k = v :: rest ->
      exists r, fold_vals o rec v rest = Ok r /\ wf r /\
      forall v' rest', counts (overwriteempty o) (v :: rest) v' rest' -> outcome o v' rest' r).
    { intros k v rest Hv. apply (fold_key o rec fuel Hu Hrec).
      - destruct (values_in false ds k v) as (d & Hin & Hget & _); [rewrite Hv; simpl; auto|].
        rewrite Forall_forall in Hwf. apply Hwf, wf_dict in Hin. now apply (proj2 Hin k).
      - intros w Hw.
        assert (Hw' : In w (values false (tl ds) k)).
        { destruct ds as [|d0 r]; [discriminate|]. cbn [tl values andb] in *.
          destruct (dget d0 k) as [x|]; [injection Hv as _ ->; auto|rewrite Hv; simpl; auto]. }
        destruct (values_in false (tl ds) k w Hw') as (d & Hin & Hget & _). split.
        + assert (Hin' : In d ds) by (destruct ds; simpl in *; auto).
          rewrite Forall_forall in Hwf. apply Hwf, wf_dict in Hin'. now apply (proj2 Hin' k).
        + apply depth_get in Hget. specialize (Hdep d Hin). lia. }
    destruct (merge_list_ok o rec (List.concat ds) []) as (out & E & Hw & Hf & Hk).
    { constructor. }
    { intro k. rewrite Hs. cbn [dget]. rewrite <- values_vals by auto.
      destruct (values false ds k) as [|v rest] eqn:Ev; [eexists; reflexivity|].
      destruct (Hfold k v rest Ev) as (r & Hr & _). exists (Some r). cbn [fold1]. now rewrite Hr. }
    assert (Hg : forall k, match values false ds k with
        | [] => dget out k = None
        | v :: rest => exists r, fold_vals o rec v rest = Ok r /\ dget out k = Some r end).
    { intro k. specialize (Hf k). rewrite Hs in Hf. cbn [dget] in Hf. rewrite <- values_vals in Hf by auto.
      destruct (values false ds k) as [|v rest] eqn:Ev.
      - cbn [fold1] in Hf. congruence.
      - cbn [fold1] in Hf. destruct (fold_vals o rec v rest) as [r|]; [|discriminate].
        cbn [bind] in Hf. exists r. split; congruence. }
    exists out. rewrite dict_merge_list. fold rec. rewrite E. split; [reflexivity|]. split.
    + apply joined_iff. split; [|split].
      * change (map fst out) with (dkeys out). rewrite Hk. cbn [dkeys map app]. unfold ikeys, keep. rewrite Hs.
        cbn [andb negb]. rewrite filter_true. unfold gunique. f_equal. now rewrite concat_map.
      * intros k Hv. specialize (Hg k). now rewrite Hv in Hg.
      * intros k v rest C. specialize (Hg k). destruct (values false ds k) as [|v0 r0] eqn:Ev.
        { now apply counts_nil in C. }
        destruct Hg as (r & Hr & G). exists r. split; [exact G|].
        destruct (Hfold k v0 r0 Ev) as (r' & Hr' & _ & O). rewrite Hr in Hr'. injection Hr' as <-. now apply O.
    + apply wf_dict. split; auto. intros k v Hv. specialize (Hg k).
      destruct (values false ds k) as [|w rest] eqn:Ev; [congruence|].
      destruct Hg as (r & Hr & Hr2). destruct (Hfold k w rest Ev) as (r' & Hr' & Hwr & _). congruence.
Qed.
Lemma joined_unique o : forall n ds o1 o2, (forall d, In d ds -> depth (VDict d) <= n) ->
  joined o ds o1 -> joined o ds o2 -> o1 = o2.
Proof.
  induction n as [|n IH]; intros ds o1 o2 Hn J1 J2;
    apply joined_iff in J1; destruct J1 as (K1 & N1 & C1);
    apply joined_iff in J2; destruct J2 as (K2 & N2 & C2);
    (apply dict_ext; [unfold dict_wf, dkeys; rewrite K1; apply gunique_str_nodup|unfold dkeys; congruence|]);
    intros k _.
  - destruct ds as [|d ds]; [|specialize (Hn d (or_introl eq_refl)); simpl in Hn; lia].
    rewrite N1, N2; reflexivity.
  - destruct (values false ds k) as [|v0 r0] eqn:Ev; [now rewrite N1, N2|].
    destruct (counts_total (overwriteempty o) v0 r0) as (v & r & C). rewrite <- Ev in C.
    destruct (C1 k v r C) as (x & -> & O1 & O2 & O3 & O4). destruct (C2 k v r C) as (y & -> & P1 & P2 & P3 & P4).
    f_equal. destruct (kinds o v) as [Ha|[(a & -> & Hm)|[(a & -> & Hm)|(a & -> & Hm)]]].
    + now rewrite (O1 Ha), (P1 Ha).
    + now rewrite (O2 a eq_refl Hm), (P2 a eq_refl Hm).
    + now rewrite (O3 a eq_refl Hm), (P3 a eq_refl Hm).
    + destruct (O4 a eq_refl Hm) as (c & -> & J). destruct (P4 a eq_refl Hm) as (c' & -> & J').
      f_equal. apply (IH (a :: dicts_of r)); auto. intros d Hd. apply (depth_values n ds k); [exact Hn|].
      destruct (counts_in _ _ _ _ C) as [I1 I2]. destruct Hd as [<-|Hd]; [exact I1|]. apply I2. now apply dicts_of_in.
Qed.

(** Whatever the options on dictionaries, lists, tuples and empty values, when None is a value like
    the others and duplicates are kept, the merge is the dictionary that [joined] describes, and
    there is no other *)
Theorem C16_joined : forall o fuel (ds : list (dict pyval)),
  uniquify o = false -> skipnones o = false ->
  Forall (fun d => wf (VDict d)) ds -> (forall d, In d (tl ds) -> depth (VDict d) <= fuel) ->
  exists out, dict_merge (S fuel) o (map VDict ds) = Ok (VDict out) /\ joined o ds out /\
    forall out', joined o ds out' -> out' = out.
Proof.
  intros o fuel ds Hu Hs Hw Hd. destruct (merge_joined o Hu Hs fuel ds Hw Hd) as (out & E & J & _).
  exists out. split; [exact E|]. split; [exact J|]. intros out' J'.
  destruct (bounded ds) as [n Hn]. exact (joined_unique o n ds out' out Hn J' J).
Qed.
Print Assumptions C16_joined.
(** Merging in several steps is merging at once *)
Theorem C16_in_steps : forall o fuel (ds cs : list (dict pyval)) m out,
  uniquify o = false -> skipnones o = false ->
  Forall (fun d => wf (VDict d)) (ds ++ cs) -> (forall d, In d (ds ++ cs) -> depth (VDict d) <= fuel) ->
  dict_merge (S fuel) o (map VDict ds) = Ok (VDict m) ->
  dict_merge (S fuel) o (map VDict (m :: cs)) = Ok (VDict out) ->
  dict_merge (S fuel) o (map VDict (ds ++ cs)) = Ok (VDict out).
Proof.
  intros o fuel ds cs m out Hu Hs Hw Hd Em Eo.
  assert (Htl : forall l : list (dict pyval), forall d, In d (tl l) -> In d l) by (intros [|x l] d H; [destruct H|now right]).
  apply Forall_app in Hw as Hw'. destruct Hw' as [W1 W2].
  destruct (merge_joined o Hu Hs fuel ds W1) as (m' & E1 & J1 & Wm).
  { intros d Hin. apply Hd, in_or_app. left. now apply Htl. }
  rewrite Em in E1. injection E1 as <-.
  destruct (merge_joined o Hu Hs fuel (m :: cs)) as (o' & E2 & J2 & _).
  { apply Forall_cons; [exact Wm|exact W2]. }
  { intros d Hin. cbn [tl] in Hin. apply Hd, in_or_app. now right. }
  rewrite Eo in E2. injection E2 as <-.
  destruct (merge_joined o Hu Hs fuel (ds ++ cs) Hw) as (o3 & E3 & J3 & _).
  { intros d Hin. apply Hd. now apply Htl. }
  rewrite E3. do 2 f_equal. destruct (bounded (ds ++ cs)) as [n Hn].
  apply (joined_unique o n (ds ++ cs) o3 out Hn J3).
  apply (joined_assoc o n ds m cs out); auto. intros d Hin. apply Hn, in_or_app. now left.
Qed.
Print Assumptions C16_in_steps.
(** A merge with the options of the CF specifications *)
Example C16_joined_met :
  uniquify cf_opts = false /\ skipnones cf_opts = false /\
  dict_merge 4 cf_opts (map VDict
    [ [("coords", VDict [("lon", VDict [("name", VList [VStr "mylon"]); ("axis", VStr "")])])];
      [("coords", VDict [("lon", VDict [("name", VList [VStr "lon"]); ("axis", VStr "X")]); ("lat", VNone)])];
      [("coords", VDict [("lon", VDict [("name", VList [VStr "nav"]); ("axis", VStr "Y")]); ("lat", VInt 1)]); ("u", VNone)] ])%string
  = Ok (VDict [("coords", VDict [("lon", VDict [("name", VList [VStr "mylon"; VStr "lon"; VStr "nav"]); ("axis", VStr "X")]);
                                 ("lat", VInt 1)]); ("u", VNone)])%string.
Proof. repeat split. Qed.
