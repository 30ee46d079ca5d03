(** Properties C15, C18-C22: utilities of xoa/misc.py.
    Vocabulary in [MiscSpec], model in [Misc]. *)
From Verif Require Import Misc MiscSpec MiscProofs MiscFacts.
Open Scope nat_scope.
Open Scope list_scope.

(** ** C15 *)
Theorem C15_axis_slices : forall ndim k axis n,
  k < ndim -> 1 <= n ->
  (axis = Z.of_nat k \/ axis = (Z.of_nat k - Z.of_nat ndim)%Z) ->
  exists ss, get_axis_slices (Z.of_nat ndim) axis [] = Ok ss /\
    addresses ss "first" ndim k n [0] /\
    addresses ss "lasts" ndim k n (seq 1 (n - 1)) /\
    addresses ss "firsts" ndim k n (seq 0 (n - 1)) /\
    addresses ss "last" ndim k n [n - 1] /\
    addresses ss "mid" ndim k n (seq 1 (n - 2)) /\
    addresses ss "firstsm1" ndim k n (seq 0 (n - 2)) /\
    (2 <= n -> addresses ss "lastsp1" ndim k n (seq 2 (n - 2)) /\
               addresses ss "firstp1" ndim k n [1] /\ addresses ss "lastm1" ndim k n [n - 2]) /\
    (3 <= n -> addresses ss "firstp2" ndim k n [2] /\ addresses ss "lastm2" ndim k n [n - 3]).
Proof. intros ndim k axis n Hk Hn Ha. apply axis_partition; auto. split; auto. Qed.
Print Assumptions C15_axis_slices.

Lemma addresses_unique ss name ndim k n l l' :
  addresses ss name ndim k n l -> addresses ss name ndim k n l' -> l = l'.
Proof.
  intros (s1 & s & E1 & _ & H1 & P1 & _) (s2 & s' & E2 & _ & H2 & P2 & _).
  rewrite E1 in E2. injection E2 as <-. rewrite H1 in H2. injection H2 as <-. congruence.
Qed.

(** "first" with "lasts", and "firsts" with "last": each position exactly once. *)
Theorem C15_axis_partition : forall ndim k axis n ss first lasts firsts last,
  k < ndim -> 1 <= n ->
  (axis = Z.of_nat k \/ axis = (Z.of_nat k - Z.of_nat ndim)%Z) ->
  get_axis_slices (Z.of_nat ndim) axis [] = Ok ss ->
  addresses ss "first" ndim k n first -> addresses ss "lasts" ndim k n lasts ->
  addresses ss "firsts" ndim k n firsts -> addresses ss "last" ndim k n last ->
  first ++ lasts = seq 0 n /\ firsts ++ last = seq 0 n.
Proof.
  intros ndim k axis n ss f ls fs l Hk Hn Ha E Hf Hls Hfs Hl.
  destruct (C15_axis_slices ndim k axis n Hk Hn Ha) as (ss' & E' & H1 & H2 & H3 & H4 & _).
  rewrite E in E'. injection E' as <-.
  rewrite (addresses_unique _ _ _ _ _ _ _ Hf H1), (addresses_unique _ _ _ _ _ _ _ Hls H2),
    (addresses_unique _ _ _ _ _ _ _ Hfs H3), (addresses_unique _ _ _ _ _ _ _ Hl H4).
  destruct n as [|n]; [lia|]. replace (S n - 1) with n by lia. split; [reflexivity|].
  now rewrite seq_S.
Qed.
Print Assumptions C15_axis_partition.

Theorem C15_axis_out_of_range : forall ndim axis kw,
  (axis < - Z.of_nat ndim \/ Z.of_nat ndim <= axis)%Z ->
  get_axis_slices (Z.of_nat ndim) axis kw = Raise IndexError.
Proof.
  intros ndim axis kw H. apply axis_slices_err. intros k [[->| ->] Hk]; lia.
Qed.
Print Assumptions C15_axis_out_of_range.
(** The slices given by keyword, next to the others *)
Lemma kw_sels_ok ndim axis k kw : norm_axis ndim axis k ->
  (forall name v, In (name, v) kw -> exists s, asks v s) ->
  exists r, kw_sels (Z.of_nat ndim) axis kw = Ok r /\ dkeys r = dkeys kw /\
    forall name v s, dget kw name = Some v -> asks v s -> dget r name = Some (ListSel (upd (List.repeat full_slice ndim) k s)).
Proof.
  intros H. induction kw as [|[n v] kw IH]; intro Ha; cbn [kw_sels]; [exists []; repeat split; discriminate|].
  destruct IH as (r & E & Hk & Hr); [intros; apply (Ha name v0); now right|].
  destruct (Ha n v (or_introl eq_refl)) as (s & Hs).
  assert (Es : kw_slice v = Ok s) by (destruct Hs; reflexivity). rewrite Es. cbn [bind].
  rewrite (axis_sel_ok _ _ _ _ H). cbn [bind]. rewrite E. cbn [bind]. eexists. split; [reflexivity|]. cbn [dkeys map fst] in *. unfold dkeys in Hk.
  split; [now rewrite <- Hk|]. intros name v' s' Hg Hs'. cbn [dget] in *. destruct (String.eqb name n); [|now apply (Hr name v')].
  injection Hg as <-. assert (Es' : kw_slice v = Ok s') by (destruct Hs'; reflexivity). congruence.
Qed.
(** What the asked slices address: [(stop,)] is from the beginning; a missing stop is up to the
    end; a negative number counts from the end. *)
Theorem C15_given_positions : forall v s n, asks v s ->
  (forall m, v = KwSeq [Some (Z.of_nat m)] -> positions n s = Ok (seq 0 (Nat.min m n))) /\
  (v = KwSeq [None] -> positions n s = Ok (seq 0 n)) /\
  (forall a b, v = KwSeq [Some (Z.of_nat a); Some (Z.of_nat b)] -> a <= b <= n -> positions n s = Ok (seq a (b - a))) /\
  (forall a, v = KwSeq [Some (Z.of_nat a); None] -> a <= n -> positions n s = Ok (seq a (n - a))) /\
  (forall a b, v = KwSeq [Some (Z.of_nat a); Some (- Z.of_nat b)%Z] -> 1 <= b -> a + b <= n -> positions n s = Ok (seq a (n - b - a))) /\
  (forall b, v = KwSeq [None; Some (Z.of_nat b)] -> b <= n -> positions n s = Ok (seq 0 b)) /\
  (forall i, v = KwIdx (Z.of_nat i) -> i < n -> positions n s = Ok [i]) /\
  (forall i, v = KwIdx (- Z.of_nat i)%Z -> 1 <= i <= n -> positions n s = Ok [n - i]).
Proof.
  assert (C : forall n m, clip_bound n (Z.of_nat m) = Nat.min m n).
  { intros n m. unfold clip_bound. destruct (Z.ltb_spec (Z.of_nat m) 0); lia. }
  assert (D : forall n m, 1 <= m <= n -> clip_bound n (- Z.of_nat m) = n - m).
  { intros n m H. unfold clip_bound. destruct (Z.ltb_spec (- Z.of_nat m) 0); lia. }
  intros v s n H. repeat split.
  - intros m ->. inversion H; subst. cbn [positions]. rewrite C. f_equal. now rewrite Nat.sub_0_r.
  - intros ->. inversion H; subst. cbn [positions]. now rewrite Nat.sub_0_r.
  - intros a b -> L. inversion H; subst. cbn [positions]. rewrite !C. do 2 f_equal; lia.
  - intros a -> L. inversion H; subst. cbn [positions]. rewrite !C. do 2 f_equal; lia.
  - intros a b -> L1 L2. inversion H; subst. cbn [positions]. rewrite C, D by lia. do 2 f_equal; lia.
  - intros b -> L. inversion H; subst. cbn [positions]. rewrite !C. do 2 f_equal; lia.
  - intros i -> L. inversion H; subst. cbn [positions]. unfold pyidx.
    replace ((0 <=? Z.of_nat i) && (Z.of_nat i <? Z.of_nat n))%Z with true by (symmetry; apply andb_true_intro; split; [apply Z.leb_le|apply Z.ltb_lt]; lia).
    rewrite Nat2Z.id. reflexivity.
  - intros i -> L. inversion H; subst. cbn [positions]. unfold pyidx.
    replace ((0 <=? - Z.of_nat i) && (- Z.of_nat i <? Z.of_nat n))%Z with false by (symmetry; apply andb_false_intro1; apply Z.leb_gt; lia).
    replace ((- Z.of_nat n <=? - Z.of_nat i) && (- Z.of_nat i <? 0))%Z with true by (symmetry; apply andb_true_intro; split; [apply Z.leb_le|apply Z.ltb_lt]; lia).
    do 2 f_equal; lia.
Qed.
Theorem C15_given : forall ndim k axis kw, k < ndim ->
  (axis = Z.of_nat k \/ axis = (Z.of_nat k - Z.of_nat ndim)%Z) ->
  (forall name v, In (name, v) kw -> exists s, asks v s) ->
  ((forall name, In name (dkeys kw) -> ~ reserved name) ->
   exists ss base, get_axis_slices (Z.of_nat ndim) axis kw = Ok ss /\ get_axis_slices (Z.of_nat ndim) axis [] = Ok base /\
     (forall name, reserved name -> dget ss name = dget base name) /\
     (forall name v s, dget kw name = Some v -> asks v s ->
        exists sels, dget ss name = Some (ListSel sels) /\ List.length sels = ndim /\ nth_error sels k = Some s /\
          forall j, j < ndim -> j <> k -> nth_error sels j = Some (Slice None None))) /\
  (forall name, In name (dkeys kw) -> reserved name -> get_axis_slices (Z.of_nat ndim) axis kw = Raise TypeError).
Proof.
  intros ndim k axis kw Hk Hx Ha. assert (Hn : norm_axis ndim axis k) by (split; auto).
  destruct (kw_sels_ok ndim axis k kw Hn Ha) as (r & E & Hd & Hr).
  assert (Hdm : forall name, dmem r name = true <-> In name (dkeys kw)) by (intro name; rewrite dmem_in, Hd; reflexivity).
  unfold get_axis_slices. rewrite !(axis_sel_ok _ _ _ _ Hn). cbn [bind kw_sels]. rewrite E. cbn [bind].
  split.
  - intro Hf. replace (existsb (dmem r) axis_keys) with false.
    2: { symmetry. apply Bool.not_true_iff_false. intro X. apply existsb_exists in X. destruct X as (name & X1 & X2).
         apply Hdm in X2. apply (Hf name X2). unfold reserved. cbn in X1 |- *. intuition. }
    eexists _, _. split; [reflexivity|]. split; [reflexivity|]. split.
    + intros name Hres. unfold reserved in Hres.
      repeat (destruct Hres as [<-|Hres]; [reflexivity|]). destruct Hres.
    + intros name v s Hg Hs. exists (upd (List.repeat full_slice ndim) k s).
      assert (Hin : In name (dkeys kw)) by (apply dmem_in; unfold dmem; now rewrite Hg).
      assert (Hnr := Hf name Hin). unfold reserved in Hnr. split.
      * cbn [List.app dget]. repeat match goal with |- context [(name =? ?x)%string] =>
          destruct (String.eqb_spec name x) as [Ex|_]; [exfalso; apply Hnr; rewrite Ex; cbn; tauto|] end.
        now apply (Hr name v).
      * split; [now rewrite upd_length, repeat_length|]. split; [apply nth_error_upd_eq; now rewrite repeat_length|].
        intros j Hj Hne. rewrite nth_error_upd_neq by auto. now apply nth_error_repeat.
  - intros name Hin Hres. replace (existsb (dmem r) axis_keys) with true; [reflexivity|]. symmetry. apply existsb_exists.
    exists name. split; [|now apply Hdm]. unfold reserved in Hres. cbn in Hres |- *. intuition.
Qed.
Print Assumptions C15_given.
Theorem C15_bad_keyword : forall ndim k axis name l, k < ndim ->
  (axis = Z.of_nat k \/ axis = (Z.of_nat k - Z.of_nat ndim)%Z) -> (List.length l = 0 \/ 3 < List.length l) ->
  get_axis_slices (Z.of_nat ndim) axis [(name, KwSeq l)] = Raise TypeError.
Proof.
  intros ndim k axis name l Hk Hx H1. assert (Hn : norm_axis ndim axis k) by (split; auto).
  unfold get_axis_slices. rewrite !(axis_sel_ok _ _ _ _ Hn). cbn [bind kw_sels].
  destruct l as [|a [|b [|c l]]]; cbn in H1; try lia; reflexivity.
Qed.
Example C15_ex : exists ss, get_axis_slices 3 (-2) [("some"%string, KwSeq [Some 1; Some 4]%Z)] = Ok ss /\
  dget ss "firsts" = Some (TupleSel [full_slice; Slice (Some 0) (Some (-1)); full_slice]%Z) /\
  dget ss "some" = Some (ListSel [full_slice; Slice (Some 1) (Some 4); full_slice]%Z) /\
  addresses ss "firsts" 3 1 5 [0; 1; 2; 3] /\ addresses ss "last" 3 1 5 [4].
Proof.
  eexists. split; [vm_compute; reflexivity|]. split; [reflexivity|]. split; [reflexivity|].
  split; eexists; eexists; (split; [reflexivity|]); (split; [reflexivity|]);
    (split; [reflexivity|]); (split; [vm_compute; reflexivity|]);
    intros [|[|[|j]]] Hj Hne; simpl; auto; lia.
Qed.

(** ** C18 *)
(** The entries that the filters pick, in the order in which they are written: for
    each filter in turn, the entry named by the filter, then those with its prefix in
    the order of the source; without [copy] an entry can be picked once only. *)
Theorem C18_dict_filter : forall kwargs filters defaults copy short keep kwadd,
  dict_wf kwargs ->
  exists out kw' ems,
    dict_filter kwargs filters defaults copy short keep kwadd = Ok (out, kw') /\
    (copy = true -> kw' = kwargs) /\
    (copy = false -> (forall k v, In (k, v) kw' <-> In (k, v) kwargs /\ ~ picked short filters k) /\
                     exists p, kw' = List.filter p kwargs) /\
    (* lookup in the result: extra keywords, then the last emission, then the defaults *)
    (forall o, dget out o =
       match last_bound (ems ++ kwadd) o with
       | Some v => Some v
       | None => match defaults with Some d => dget d o | None => None end
       end) /\
    (* never invents *)
    (forall o v, In (o, v) ems -> exists f k w, In f filters /\ In (k, w) kwargs /\
       comes_from short keep f k w o v) /\
    (* nothing is lost *)
    (forall k w, In (k, w) kwargs -> picked short filters k ->
       exists f, In f filters /\ (by_name f k \/ exists r, by_prefix short f k r) /\
         forall o v, comes_from short keep f k w o v -> In (o, v) ems) /\
    (copy = true -> forall f k w o v, In f filters -> In (k, w) kwargs ->
       comes_from short keep f k w o v -> In (o, v) ems).
Proof.
  intros kwargs filters defaults copy short keep kwadd Hwf.
  destruct (dict_filter_ok copy short keep kwargs filters defaults kwadd Hwf) as (out & E & Hget).
  exists out, (remaining copy short filters kwargs), (emissions copy short keep filters kwargs).
  split; [exact E|]. unfold remaining.
  split; [intros ->; reflexivity|]. split; [|split; [exact Hget|]].
  { intros ->. split; [|eauto]. intros k v. rewrite filter_In. cbn [fst].
    rewrite negb_true_iff, <- picked_iff. destruct (existsb _ _); intuition congruence. }
  clear E Hget out. split; [|split].
  - intros o v. revert kwargs Hwf. induction filters as [|f fs IH]; intros kw Hwf; [intros []|].
    cbn [emissions]. rewrite in_app_iff. intros [H|H].
    + apply emitted_iff in H; auto. destruct H as (k & w & Hk & Hc).
      exists f, k, w. simpl. auto.
    + apply IH in H; [|destruct copy; auto; now apply filter_wf].
      destruct H as (f' & k & w & Hf & Hk & Hc). exists f', k, w. split; [simpl; auto|].
      split; auto. destruct copy; auto. now apply filter_In in Hk.
  - intros k w. revert kwargs Hwf. induction filters as [|f fs IH]; intros kw Hwf Hk Hp.
    { destruct Hp as (f & [] & _). }
    cbn [emissions]. destruct (selects short f k) eqn:Es.
    + exists f. split; [simpl; auto|]. split; [now apply selects_iff|].
      intros o v Hc. apply in_or_app. left. apply emitted_iff; eauto.
    + destruct (IH (if copy then kw
            else List.filter (fun kv => negb (selects short f (fst kv))) kw))
        as (f' & Hf & Hs & Hc).
      * destruct copy; auto. now apply filter_wf.
      * destruct copy; auto. apply filter_In. cbn [fst]. now rewrite Es.
      * destruct Hp as (f' & [<-|Hf'] & Hs).
        -- apply selects_iff in Hs. congruence.
        -- exists f'. auto.
      * exists f'. split; [simpl; auto|]. split; auto. intros o v H.
        apply in_or_app. right. now apply Hc.
  - intros ->. intros f k w o v Hf Hk Hc. clear -Hf Hk Hc Hwf.
    induction filters as [|g fs IH]; [destruct Hf|]. cbn [emissions]. apply in_or_app.
    destruct Hf as [<-|Hf]; [left|auto]. apply emitted_iff; eauto.
Qed.
Print Assumptions C18_dict_filter.

(** So an entry that nothing else overrides is found in the result with its value. *)
Theorem C18_dict_filter_value : forall kwargs f copy short keep k w r,
  dict_wf kwargs -> In (k, w) kwargs -> by_prefix short f k r -> keep = false ->
  (* no collision with the name or the dictionary given under the name of the filter *)
  (forall v, dget kwargs f = Some v -> f <> r /\ (forall d, v = VDict d -> ~ In r (dkeys d))) ->
  exists out kw', dict_filter kwargs [f] None copy short keep [] = Ok (out, kw') /\
    dget out r = Some w.
Proof.
  intros kwargs f copy short keep k w r Hwf Hk Hp -> Hno.
  destruct (C18_dict_filter kwargs [f] None copy short false [] Hwf)
    as (out & kw' & ems & E & _ & _ & Hget & Hfrom & Hall & _).
  exists out, kw'. split; auto. rewrite Hget. rewrite app_nil_r.
  assert (Hin : In (r, w) ems).
  { destruct (Hall k w Hk) as (f' & [<-|[]] & _ & H).
    - exists f. simpl. split; auto. right. eauto.
    - apply H. right. exists r. auto. }
  assert (Huniq : forall v, In (r, v) ems -> v = w).
  { intros v Hv. destruct (Hfrom _ _ Hv) as (f' & k' & w' & [<-|[]] & Hk' & Hc).
    destruct Hc as [[Hn Hc]|(r' & Hp' & -> & ->)].
    - exfalso. destruct Hn as [-> Hn]. apply (dget_in _ _ _ Hwf) in Hk'.
      destruct (Hno _ Hk') as [N1 N2]. destruct Hc as [(d & -> & Hd)|(_ & E' & _)]; [|congruence].
      apply (N2 d eq_refl). unfold dkeys. change r with (fst (r, v)). now apply in_map.
    - destruct Hp as (p & Hp & -> & _). destruct Hp' as (p' & Hp' & -> & _).
      apply prefix_of_iff in Hp, Hp'. subst p p'.
      apply (dget_in _ _ _ Hwf) in Hk, Hk'. congruence. }
  destruct (last_bound ems r) as [v|] eqn:El.
  - f_equal. apply Huniq. now apply last_bound_in.
  - exfalso. apply last_bound_none in El. apply El. change r with (fst (r, w)). now apply in_map.
Qed.
Print Assumptions C18_dict_filter_value.

Definition ex_kw : dict pyval :=
  [("basemap", VStr "f"); ("basemap_fill", VBool true); ("quiet", VBool false);
   ("basemap_plot", VBool false); ("basemap_", VNone)]%string.
Example C18_ex : dict_filter ex_kw ["basemap"]%string
    (Some [("draw", VBool true); ("plot", VBool true)])%string false false false
    [("good", VBool true)]%string =
  Ok ([("basemap", VStr "f"); ("fill", VBool true); ("plot", VBool false); ("good", VBool true);
       ("draw", VBool true)]%string, [("quiet", VBool false); ("basemap_", VNone)]%string)
  /\ dict_wf ex_kw /\ picked false ["basemap"]%string "basemap_plot" /\
     ~ picked false ["basemap"]%string "basemap_".
Proof.
  split; [vm_compute; reflexivity|]. split.
  - unfold dict_wf, dkeys, ex_kw. simpl.
    repeat (constructor; [simpl; intuition discriminate|]). constructor.
  - rewrite <- !picked_iff. split; [reflexivity|]. vm_compute. discriminate.
Qed.
(** Two entries with the same output name: only the last one survives. *)
Example C18_collision : dict_filter [("a_x", VInt 1); ("b_x", VInt 2)]%string ["a"; "b"]%string
    None false false false [] = Ok ([("x"%string, VInt 2)], []).
Proof. reflexivity. Qed.

(** ** C19 *)
Theorem C19_gunique : forall {A} (eqb : A -> A -> bool) seq,
  (forall x, eqb x x = true) ->
  (forall x y, eqb x y = true -> eqb y x = true) ->
  (forall x y z, eqb x y = true -> eqb y z = true -> eqb x z = true) ->
  (* its items are those at the positions of the first occurrences, in order *)
  (exists idx, StronglySorted lt idx /\
      (forall j, In j idx <-> exists x, first_occ eqb seq j x) /\
      Forall2 (fun j x => nth_error seq j = Some x) idx (gunique eqb seq)) /\
  (* no duplicates *)
  ForallOrdPairs (fun x y => eqb y x = false) (gunique eqb seq) /\
  (* same elements *)
  (forall x, In x (gunique eqb seq) -> In x seq) /\
  (forall y, In y seq -> exists x, In x (gunique eqb seq) /\ eqb y x = true) /\
  gunique eqb (gunique eqb seq) = gunique eqb seq.
Proof.
  intros A eqb seq R S T. split; [now apply gunique_ok|].
  split; [apply gunique_loop_nodup|]. split.
  { intros x Hx. now apply gunique_loop_nodup in Hx. }
  split; [|apply gunique_idem].
  intros y Hy. destruct (gunique_loop_all eqb R [] seq y Hy) as [H|H]; [exact H|discriminate].
Qed.
Print Assumptions C19_gunique.
Example C19_ex : gunique Z.eqb [1; 6; 1; 8; 6; 1; 0]%Z = [1; 6; 8; 0]%Z
  /\ first_occ Z.eqb [1; 6; 1; 8; 6; 1; 0]%Z 3 8%Z.
Proof.
  split; [reflexivity|]. split; [reflexivity|].
  intros [|[|[|j']]] y Hj Hy; simpl in Hy; try (injection Hy as <-; reflexivity). lia.
Qed.

(** ** C20 *)
Theorem C20_arglist : forall x,
  (exists l, arglist_get (ArgList x) = VList l) /\
  arglist_put (ArgList x) (arglist_get (ArgList x)) = Ok x /\
  (forall r, (exists l, x = VList l) -> arglist_put (ArgList x) (VList r) = Ok (VList r)) /\
  (forall y r, (forall l, x <> VList l) -> arglist_put (ArgList x) (VList (y :: r)) = Ok y) /\
  ((forall l, x <> VList l) -> arglist_put (ArgList x) (VList []) = Raise IndexError) /\
  (forall y, (forall l, y <> VList l) ->
     arglist_put (ArgList x) y = Ok (match x with VList _ => VList [y] | _ => y end)).
Proof.
  intro x. split; [|split; [|split; [|split; [|split]]]].
  - destruct x; unfold arglist_get, ArgList; simpl; eauto.
  - destruct x; reflexivity.
  - intros r [l ->]. reflexivity.
  - intros y r H. destruct x; try reflexivity. exfalso. now apply (H l).
  - intro H. destruct x; try reflexivity. exfalso. now apply (H l).
  - intros y H. destruct y; destruct x; try reflexivity; exfalso; eapply H; reflexivity.
Qed.
Print Assumptions C20_arglist.
Theorem C20_argtuple : forall x,
  (exists l, argtuple_get (ArgTuple x) = VTuple l) /\
  argtuple_put (ArgTuple x) (argtuple_get (ArgTuple x)) = Ok x /\
  (forall r, (exists l, x = VTuple l) -> argtuple_put (ArgTuple x) (VTuple r) = Ok (VTuple r)) /\
  (forall y r, (forall l, x <> VTuple l) -> argtuple_put (ArgTuple x) (VTuple (y :: r)) = Ok y) /\
  ((forall l, x <> VTuple l) -> argtuple_put (ArgTuple x) (VTuple []) = Raise IndexError) /\
  (forall y, (forall l, y <> VTuple l) ->
     argtuple_put (ArgTuple x) y = Ok (match x with VTuple _ => VTuple [y] | _ => y end)).
Proof.
  intro x. split; [|split; [|split; [|split; [|split]]]].
  - destruct x; unfold argtuple_get, ArgTuple; simpl; eauto.
  - destruct x; reflexivity.
  - intros r [l ->]. reflexivity.
  - intros y r H. destruct x; try reflexivity. exfalso. now apply (H l).
  - intro H. destruct x; try reflexivity. exfalso. now apply (H l).
  - intros y H. destruct y; destruct x; try reflexivity; exfalso; eapply H; reflexivity.
Qed.
Print Assumptions C20_argtuple.
Example C20_ex : arglist_get (ArgList (VStr "a")) = VList [VStr "a"]
  /\ arglist_put (ArgList (VStr "a")) (VList [VStr "aa"]) = Ok (VStr "aa")
  /\ arglist_get (ArgList (VTuple [VStr "a"])) = VList [VTuple [VStr "a"]].
Proof. repeat split. Qed.

(** ** C21 *)
(** A check accepts [ss]: [t] is [ss] stripped (and lowered). *)
Theorem C21_match_string : forall ss cs ic tr,
  match_string (Some ss) cs ic tr = true <->
  ss <> ""%string /\ cs <> One CNone /\ cs <> One (CStr "") /\ cs <> Many [] /\
  exists c, In c (check_list cs) /\ accepts ic tr ss c.
Proof.
  intros ss cs ic tr. rewrite match_string_ok. split.
  - intros (H1 & H2 & H3). repeat split; auto; intros ->; discriminate.
  - intros (H1 & H2 & H3 & H4 & H5). repeat split; auto.
    destruct cs as [[|s| |]|[|]|]; simpl; try congruence.
    destruct (String.eqb_spec s ""); congruence.
Qed.
Print Assumptions C21_match_string.
Theorem C21_strip : forall s t, stripped s t <-> t = strip s.
Proof. intros s t. split; [apply strip_unique|]. intros ->. apply strip_ok. Qed.
Print Assumptions C21_strip.
(** The order and the multiplicity of checks never matter. *)
Theorem C21_match_string_order : forall ss l l' ic tr,
  (forall c, In c l <-> In c l') ->
  match_string ss (Many l) ic tr = match_string ss (Many l') ic tr.
Proof.
  intros [ss|] l l' ic tr H; [|reflexivity].
  destruct (match_string (Some ss) (Many l) ic tr) eqn:E1;
    destruct (match_string (Some ss) (Many l') ic tr) eqn:E2; auto; exfalso.
  - assert (match_string (Some ss) (Many l') ic tr = true); [|congruence].
    apply C21_match_string in E1. apply C21_match_string.
    destruct E1 as (H1 & _ & _ & H4 & c & Hc & Ha). repeat split; auto; try discriminate.
    + intro E. injection E as ->. apply H in Hc. destruct Hc.
    + exists c. split; auto. now apply H.
  - assert (match_string (Some ss) (Many l) ic tr = true); [|congruence].
    apply C21_match_string in E2. apply C21_match_string.
    destruct E2 as (H1 & _ & _ & H4 & c & Hc & Ha). repeat split; auto; try discriminate.
    + intro E. injection E as ->. apply H in Hc. destruct Hc.
    + exists c. split; auto. now apply H.
Qed.
Print Assumptions C21_match_string_order.
Theorem C21_match_attrs : forall attrs cks ic tr,
  match_attrs attrs cks ic tr = true <->
  exists at_ cs name s c, attrs = Some at_ /\ cks = Some cs /\ In (name, c) cs /\
    dget at_ name = Some s /\ match_string s c ic tr = true.
Proof.
  intros [at_|] [cs|] ic tr; simpl;
    try (split; [discriminate|intros (a & b & n & s & c & Ha & Hb & _); discriminate]).
  rewrite existsb_exists. split.
  - intros ([n c] & Hin & H). simpl in H. destruct (dget at_ n) as [s|] eqn:E; [|discriminate].
    exists at_, cs, n, s, c. auto.
  - intros (a & b & n & s & c & Ha & Hb & Hin & Hs & Hm). injection Ha as <-. injection Hb as <-.
    exists (n, c). simpl. rewrite Hs. auto.
Qed.
Print Assumptions C21_match_attrs.
Example C21_ex : match_string (Some "  SST ")%string (Many [CNone; CStr "temp"; CStr "sst "])%string true None = true
  /\ match_string (Some "  SST ")%string (Many [CNone; CStr "sst "])%string false None = false
  /\ match_string (Some "sst")%string (One (CFun (fun s => startswith s "ss"))) true None = true
  /\ match_string (Some "")%string (Many [CStr "" ])%string true None = false
  /\ accepts true None "  SST " (CStr "sst ").
Proof. repeat split. discriminate. Qed.

(** ** C22 *)
(** Two values designate the same choice. *)
Definition same_choice (ci : bool) (v w : cval) : Prop :=
  match v, w with
  | CvStr s, CvStr t => if ci then lower s = lower t else s = t
  | _, _ => v = w
  end.
Definition canonical (ci : bool) (v r : cval) : Prop :=
  match v with CvStr s => r = CvStr (if ci then lower s else s) | _ => r = v end.
Theorem C22_choices : forall l ci v r,
  choices_getitem (Choices_init l ci) v = Ok r <->
  canonical ci v r /\ exists w, In w l /\ same_choice ci w v.
Proof.
  intros l ci v r. rewrite choices_ok.
  assert (H1 : r = reformat ci v <-> canonical ci v r).
  { destruct v; simpl; destruct ci; tauto. }
  assert (H2 : forall w, reformat ci w = reformat ci v <-> same_choice ci w v).
  { intro w. destruct v, w; simpl; destruct ci; split; intro H; congruence. }
  rewrite H1. split; intros (Hr & w & Hw & E); split; auto; exists w; split; auto; now apply H2.
Qed.
Print Assumptions C22_choices.
(** With string choices everything else raises XoaError... *)
Theorem C22_choices_reject : forall l ci v,
  (forall w, In w l -> exists s, w = CvStr s) ->
  (forall w, In w l -> ~ same_choice ci w v) ->
  choices_getitem (Choices_init l ci) v = Raise XoaError.
Proof.
  intros l ci v Hs Hn.
  destruct (choices_getitem (Choices_init l ci) v) as [r|e] eqn:E.
  - apply C22_choices in E. destruct E as (_ & w & Hw & Hc). exfalso. now apply (Hn w).
  - rewrite <- E. unfold choices_getitem in *. destruct (existsb _ _); [discriminate|].
    destruct (choices_str_ok l ci Hs) as [s ->]. reflexivity.
Qed.
Print Assumptions C22_choices_reject.
(** Shown: the choices, in order, as they are matched, separated by a comma and a space. *)
Inductive listed : list string -> string -> Prop :=
| listed_none : listed [] ""
| listed_one s : listed [s] s
| listed_more s t l r : listed (t :: l) r -> listed (s :: t :: l) (s ++ ", " ++ r)%string.
Theorem C22_choices_shown : forall (l : list string) (ci : bool) (r : string),
  choices_str (Choices_init (map CvStr l) ci) = Ok r <-> listed (map (fun s : string => if ci then lower s else s) l) r.
Proof.
  intros l ci r.
  assert (E : choices_str (Choices_init (map CvStr l) ci) = Ok (join ", " (map (fun s : string => if ci then lower s else s) l))).
  { unfold choices_str, Choices_init. cbn [choices_]. rewrite map_map.
    match goal with |- bind ?g _ = _ => assert (G : g = Ok (map (fun s : string => if ci then lower s else s) l)) end.
    { induction l as [|s l IH]; [reflexivity|]. cbn [map]. transitivity (bind (Ok (map (fun s : string => if ci then lower s else s) l)) (fun r' => Ok ((if ci then lower s else s) :: r'))); [|reflexivity]. rewrite <- IH. destruct ci; reflexivity. }
    rewrite G. reflexivity. }
  rewrite E. clear E. generalize (map (fun s : string => if ci then lower s else s) l). clear l. intro l. revert r. induction l as [|s l IH]; intro r.
  - split; [intro X; injection X as <-; constructor|intro H; inversion H; reflexivity].
  - destruct l as [|t l].
    + split; [intro X; injection X as <-; constructor|intro H; inversion H; reflexivity].
    + change (join ", " (s :: t :: l)) with (s ++ ", " ++ join ", " (t :: l))%string. split.
      * intro X. injection X as <-. constructor. apply IH. reflexivity.
      * intro H. inversion H as [| |? ? ? r' Hr]; subst. apply IH in Hr. apply (f_equal (fun x => match x with Ok v => v | Raise _ => ""%string end)) in Hr. rewrite <- Hr. reflexivity.
Qed.
Print Assumptions C22_choices_shown.
Example ex_choices_shown : choices_str (Choices_init [CvStr "Linear"%string; CvStr "cubic"%string] true) = Ok "linear, cubic"%string.
Proof. reflexivity. Qed.
(** ... but with a choice that is not a string the error message itself fails. *)
Theorem C22_choices_error_refuted : exists l v,
  (forall w, In w l -> ~ same_choice true w v) /\
  choices_getitem (Choices_init l true) v = Raise TypeError.
Proof.
  exists [CvStr "a"%string; CvNone], (CvInt 3). split; [|reflexivity].
  intros w [<-|[<-|[]]] H; discriminate.
Qed.
Print Assumptions C22_choices_error_refuted.
Example C22_ex : choices_getitem (Choices_init [CvStr "Linear"; CvStr "cubic"]%string true) (CvStr "LINEAR")
   = Ok (CvStr "linear")
  /\ choices_getitem (Choices_init [CvStr "Linear"; CvStr "cubic"]%string true) (CvStr "x") = Raise XoaError
  /\ choices_getitem (Choices_init [CvStr "Linear"]%string false) (CvStr "linear") = Raise XoaError.
Proof. repeat split. Qed.
