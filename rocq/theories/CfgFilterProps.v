(** C36: filter_section *)
From Verif Require Import PyDictFacts.
From Verif Require Export CfgTreeProps.
Open Scope string_scope.

Fixpoint fval_rec (P : fval -> Prop) (Hv : forall b, P (FVal b)) (Hn : forall l, P (FNames l))
  (Hd : forall d, (forall k v, dget d k = Some v -> P v) -> P (FDict d)) (v : fval) {struct v} : P v.
Proof.
  destruct v as [b|d|l]; auto. apply Hd. induction d as [|[x w] d IH]; intros k v E; [discriminate|].
  cbn in E. destruct (String.eqb k x).
  - injection E as <-. exact (fval_rec P Hv Hn Hd w).
  - exact (IH k v E).
Qed.
Lemma says_truth v : says v = ftruth v.
Proof. destruct v as [b|[|]|[|]]; reflexivity. Qed.
Lemma keep_allowed d g x : f_keep d g x = true <-> allowed d g x.
Proof.
  unfold f_keep, allowed, f_default, f_excepts. destruct (dget d x) as [v|]; [rewrite (says_truth v); tauto|].
  set (df := match dget d "__default__" with Some v => ftruth v | None => g end).
  assert (Hd : match dget d "__default__" with Some v => says v = true | None => g = true end <-> df = true).
  { unfold df. destruct (dget d "__default__") as [v|]; [rewrite (says_truth v); tauto|tauto]. }
  set (DP := match dget d "__default__" with Some v => says v = true | None => g = true end) in *. clearbody DP df.
  destruct (dget d "__excepts__") as [[b|d'|l]|]; try tauto.
  destruct (mem x l) eqn:E.
  - apply mem_in in E. rewrite Hd. destruct df; cbn; intuition discriminate.
  - apply mem_not in E. rewrite Hd. tauto.
Qed.

Lemma remove_first_filter k l : NoDup l -> remove_first k l = List.filter (fun x => negb (String.eqb x k)) l.
Proof.
  induction l as [|x l IH]; intro H; auto. inversion H; subst. cbn [remove_first List.filter].
  destruct (String.eqb_spec x k) as [->|]; cbn [negb]; [|now rewrite IH].
  clear -H2. induction l as [|y l IH]; auto. cbn [List.filter]. destruct (String.eqb_spec y k) as [->|].
  - exfalso. apply H2. now left.
  - cbn [negb]. f_equal. apply IH. intro; apply H2; now right.
Qed.
Lemma filter_ext_in' {A} (f g : A -> bool) l : (forall x, In x l -> f x = g x) -> List.filter f l = List.filter g l.
Proof. apply filter_ext_in. Qed.
Lemma filter_all {A} (f : A -> bool) l : (forall x, In x l -> f x = true) -> List.filter f l = l.
Proof. induction l as [|x l IH]; intro H; auto. cbn. rewrite (H x) by now left. f_equal. apply IH. intros; apply H; now right. Qed.
Lemma delitem_filter sc ss it k : NoDup (sc ++ ss)%list ->
  delitem (Sec sc ss it) k = Sec (List.filter (fun x => negb (String.eqb x k)) sc) (List.filter (fun x => negb (String.eqb x k)) ss)
                                 (List.filter (fun kn => negb (String.eqb (fst kn) k)) it).
Proof.
  intro N. cbn [delitem].
  assert (Hit : ddel it k = List.filter (fun kn => negb (String.eqb (fst kn) k)) it).
  { unfold ddel. apply filter_ext. intro a. now rewrite String.eqb_sym. }
  assert (Hs : forall l, ~ In k l -> l = List.filter (fun x => negb (String.eqb x k)) l).
  { intros l H. symmetry. apply filter_all. intros x Hx. destruct (String.eqb_spec x k) as [->|]; auto. }
  destruct (mem k sc) eqn:E.
  - apply mem_in in E. rewrite Hit, remove_first_filter by (eapply nodup_app_l; eauto).
    rewrite <- (Hs ss); auto. eapply nodup_app_not; eauto.
  - apply mem_not in E. rewrite Hit, remove_first_filter.
    + now rewrite <- (Hs sc).
    + clear -N. induction sc; auto. apply IHsc. now inversion N.
Qed.
Definition out (keep : string -> bool) (l : list string) (x : string) : bool := mem x l && negb (keep x).
Lemma fold_delete (keep : string -> bool) (l : list string) : forall sc ss it, NoDup (sc ++ ss)%list ->
  fold_left (fun n k => if keep k then n else delitem n k) l (Sec sc ss it) =
  Sec (List.filter (fun x => negb (out keep l x)) sc) (List.filter (fun x => negb (out keep l x)) ss) (List.filter (fun kn => negb (out keep l (fst kn))) it).
Proof.
  induction l as [|k l IH]; intros sc ss it N; cbn [fold_left].
  - rewrite !filter_all; auto.
  - destruct (keep k) eqn:E.
    + rewrite IH by auto. f_equal; apply filter_ext; intro x; f_equal; unfold out; cbn [mem existsb].
      * destruct (String.eqb_spec x k) as [->|]; cbn [orb]; auto. now rewrite E, !andb_false_r.
      * destruct (String.eqb_spec x k) as [->|]; cbn [orb]; auto. now rewrite E, !andb_false_r.
      * destruct (String.eqb_spec (fst x) k) as [->|]; cbn [orb]; auto. now rewrite E, !andb_false_r.
    + rewrite delitem_filter by auto. rewrite IH.
      2:{ rewrite <- List.filter_app. now apply NoDup_filter. }
      rewrite !filter_filter. f_equal; apply filter_ext; intro x; unfold out; cbn [mem existsb].
      * destruct (String.eqb_spec x k) as [->|]; cbn [orb negb andb]; auto. now rewrite E.
      * destruct (String.eqb_spec x k) as [->|]; cbn [orb negb andb]; auto. now rewrite E.
      * destruct (String.eqb_spec (fst x) k) as [->|]; cbn [orb negb andb]; auto. now rewrite E.
Qed.

(** One level *)
Definition sub_filter (ss : list string) (d : list (string * fval)) (k : string) (n : node) : node :=
  if mem k ss then match dget d k with Some (FDict d') => filter_section n d' false | _ => n end else n.
Lemma filter_level sc ss it d g : NoDup (sc ++ ss)%list -> (forall k, dmem it k = true -> In k sc \/ In k ss) ->
  filter_section (Sec sc ss it) d g =
  Sec (List.filter (f_keep d g) sc) (List.filter (f_keep d g) ss)
      (List.filter (fun kn => f_keep d g (fst kn)) (map (fun kn => (fst kn, sub_filter ss d (fst kn) (snd kn))) it)).
Proof.
  intros N Hk. cbn [filter_section]. rewrite fold_delete by auto.
  assert (X : forall x, In x (sc ++ ss)%list -> negb (out (f_keep d g) (sc ++ ss)%list x) = f_keep d g x).
  { intros x Hx. unfold out. rewrite (proj2 (mem_in _ _) Hx). cbn [andb]. apply negb_involutive. }
  f_equal; apply filter_ext_in; intros x Hx; apply X; apply in_or_app; auto.
  apply Hk. apply in_map_iff in Hx. destruct Hx as ([y m] & <- & Hy). cbn [fst]. apply dmem_in. apply in_map_iff. exists (y, m). auto.
Qed.
Lemma dget_level d g ss it x :
  dget (List.filter (fun kn => f_keep d g (fst kn)) (map (fun kn => (fst kn, sub_filter ss d (fst kn) (snd kn))) it)) x =
  if f_keep d g x then match dget it x with Some n => Some (sub_filter ss d x n) | None => None end else None.
Proof.
  rewrite (dget_filter (f_keep d g)). destruct (f_keep d g x); auto.
  induction it as [|[y n] it IH]; auto. cbn [map fst snd dget]. destruct (String.eqb_spec x y) as [->|]; auto.
Qed.
Lemma wf_parts sc ss it : wf (Sec sc ss it) -> NoDup (sc ++ ss)%list /\ dict_wf it /\ (forall k, dmem it k = true -> In k sc \/ In k ss).
Proof. intro W. inversion W; subst. auto. Qed.

(** After filtering, the options and sections at kept paths are as before, the others are gone. *)
Theorem C36_filter n d g q : wf n ->
  (kept d g q -> option_at (filter_section n d g) q = option_at n q /\ section_at (filter_section n d g) q = section_at n q) /\
  (~ kept d g q -> option_at (filter_section n d g) q = None /\ section_at (filter_section n d g) q = false).
Proof.
  revert n d g. induction q as [|x q IH]; intros n d g W.
  - cbn [kept]. split; [|tauto]. intros _. destruct n as [|sc ss it]; [inversion W|]. destruct (wf_parts _ _ _ W) as (N & _ & Hk).
    rewrite filter_level by auto. auto.
  - destruct n as [|sc ss it]; [inversion W|]. destruct (wf_parts _ _ _ W) as (N & _ & Hk).
    rewrite filter_level by auto. rewrite !option_cons, !section_cons, dget_level. cbn [kept]. rewrite <- keep_allowed.
    destruct (f_keep d g x); [|split; [intros [H _]; discriminate|auto]].
    destruct (dget it x) as [m|] eqn:Em; [|auto].
    unfold sub_filter. destruct m as [v|a b c].
    + destruct (wf_leaf sc ss it x v W Em) as [_ Nx]. rewrite (proj2 (mem_not x ss) Nx). split; auto. intro H.
      destruct q as [|y q]; [|auto]. exfalso. apply H. split; auto. destruct (dget d x) as [[| |]|]; auto.
    + destruct (wf_sub sc ss it x a b c W Em) as (Hx & _ & Wm). rewrite (proj2 (mem_in x ss) Hx).
      destruct (dget d x) as [[bb|d'|l]|] eqn:Ed; try solve [split; [auto|intro H; exfalso; apply H; split; auto; destruct q; auto]].
      destruct (IH (Sec a b c) d' false Wm) as [H1 H2]. destruct q as [|y q].
      * split; [intros _; apply H1; exact Logic.I|intro H; exfalso; apply H; auto].
      * split; [intros [_ H]; auto|intro H; apply H2; tauto].
Qed.
Theorem C36_wf n d g : wf n -> wf (filter_section n d g).
Proof.
  intro W. revert d g. induction W as [sc ss it H1 H2 H3 H4 H5] using wf_rec. intros d g. rewrite filter_level by auto.
  apply wf_sec.
  - rewrite <- List.filter_app. now apply NoDup_filter.
  - apply filter_wf. unfold dict_wf, dkeys in *. rewrite map_map. exact H2.
  - intros k Hk. apply filter_In in Hk. destruct Hk as [Hk E]. rewrite dget_level, E. destruct (H3 k Hk) as [v Ev]. rewrite Ev. exists v.
    unfold sub_filter. now rewrite (proj2 (mem_not k ss) (nodup_app_not sc ss k H1 Hk)).
  - intros k Hk. apply filter_In in Hk. destruct Hk as [Hk E]. rewrite dget_level, E. destruct (H4 k Hk) as (m & Em & Wm & IH). rewrite Em.
    eexists. split; [reflexivity|]. unfold sub_filter. rewrite (proj2 (mem_in k ss) Hk). destruct (dget d k) as [[| |]|]; auto.
  - intros k Hk. unfold dmem in Hk. rewrite dget_level in Hk. destruct (f_keep d g k) eqn:E; [|discriminate].
    destruct (H5 k) as [X|X]; [unfold dmem; destruct (dget it k); congruence|left|right]; apply filter_In; auto.
Qed.
(** The order of names is kept. *)
Theorem C36_order n d g : wf n -> exists keep, (forall x, keep x = true <-> allowed d g x) /\
  scalars (filter_section n d g) = List.filter keep (scalars n) /\ sections (filter_section n d g) = List.filter keep (sections n).
Proof.
  intro W. destruct n as [|sc ss it]; [inversion W|]. destruct (wf_parts _ _ _ W) as (N & _ & Hk). rewrite filter_level by auto.
  exists (f_keep d g). split; [apply keep_allowed|auto].
Qed.
Theorem C36_idempotent n d g : wf n -> filter_section (filter_section n d g) d g = filter_section n d g.
Proof.
  intro W. revert d g. induction W as [sc ss it H1 H2 H3 H4 H5] using wf_rec. intros d g.
  assert (W : wf (Sec sc ss it)).
  { apply wf_sec; auto. intros k Hk. destruct (H4 k Hk) as (m & ? & ? & _). eauto. }
  assert (W' := C36_wf _ d g W). rewrite filter_level in W' by auto. rewrite (filter_level sc ss it) by auto.
  destruct (wf_parts _ _ _ W') as (N' & _ & Hk'). rewrite filter_level by auto. rewrite !filter_filter.
  f_equal; try (apply filter_ext; intro; now destruct (f_keep d g a)).
  set (L := map (fun kn => (fst kn, sub_filter ss d (fst kn) (snd kn))) it).
  assert (HL : map (fun kn => (fst kn, sub_filter (List.filter (f_keep d g) ss) d (fst kn) (snd kn))) (List.filter (fun kn => f_keep d g (fst kn)) L) = List.filter (fun kn => f_keep d g (fst kn)) L).
  { rewrite <- (map_id (List.filter _ L)) at 2. apply map_ext_in. intros [k m] Hin. apply filter_In in Hin. destruct Hin as [Hin E]. cbn [fst snd] in *.
    f_equal. unfold L in Hin. apply in_map_iff in Hin. destruct Hin as ([k' m0] & Ek & Hin). cbn [fst snd] in Ek. injection Ek as -> <-.
    unfold sub_filter at 1. destruct (mem k (List.filter (f_keep d g) ss)) eqn:Em; auto.
    apply mem_in in Em. apply filter_In in Em. destruct Em as [Hk _]. unfold sub_filter. rewrite (proj2 (mem_in k ss) Hk).
    destruct (dget d k) as [[| d' |]|]; auto. destruct (H4 k Hk) as (m1 & E1 & _ & IH). apply (dget_in it k m0 H2) in Hin.
    rewrite E1 in Hin. injection Hin as ->. apply IH. }
  rewrite HL, filter_filter. apply filter_ext. intros [k m]. cbn [fst]. now destruct (f_keep d g k).
Qed.
(** A subsection that is kept without a filter of its own is kept whole, whatever the defaults:
    the default of the call is not used below the first level. *)
Theorem C36_default_not_inherited : exists n d, wf n /\ option_at (filter_section n d true) ["s"; "x"] = None /\ option_at n ["s"; "x"] <> None /\
  dget d "s" = Some (FDict [("y", FVal true)]).
Proof.
  exists (sect1 "s" (Sec ["x"; "y"] [] [("x", Leaf (VInt 1)); ("y", Leaf (VInt 2))])), [("s", FDict [("y", FVal true)])].
  split; [unfold sect1; wf_tac|]. split; [reflexivity|]. split; [discriminate|reflexivity].
Qed.
Example ex_filter : let d := [("__default__", FVal true); ("__excepts__", FNames ["verbose"]); ("run", FDict [("file", FVal true)])] in
  filter_section ex_cfg d false = Sec [] ["run"] [("run", one "file" (VStr "a.nc"))] /\ kept d false ["run"; "file"] /\ ~ kept d false ["run"; "steps"] /\ ~ kept d false ["verbose"].
Proof. split; [reflexivity|]. unfold kept, allowed. cbn. intuition discriminate. Qed.
