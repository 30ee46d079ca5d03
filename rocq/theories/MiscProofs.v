From Verif Require Export MiscSpec.
Open Scope nat_scope.

(** ** get_axis_slices *)
Definition norm_axis (ndim : nat) (axis : Z) (k : nat) : Prop :=
  (axis = Z.of_nat k \/ axis = (Z.of_nat k - Z.of_nat ndim)%Z) /\ k < ndim.

Lemma norm_axis_pyidx ndim axis k : norm_axis ndim axis k -> pyidx ndim axis = Some k.
Proof.
  intros [[->| ->] Hk]; [now apply pyidx_nat|].
  unfold pyidx.
  destruct (Z.leb_spec 0 (Z.of_nat k - Z.of_nat ndim)); [lia|]. cbn [andb].
  destruct (Z.leb_spec (- Z.of_nat ndim) (Z.of_nat k - Z.of_nat ndim)); [|lia].
  destruct (Z.ltb_spec (Z.of_nat k - Z.of_nat ndim) 0); [|lia]. cbn [andb].
  f_equal. lia.
Qed.

Lemma axis_sel_ok ndim axis k s : norm_axis ndim axis k ->
  axis_sel (Z.of_nat ndim) axis s = Ok (upd (List.repeat full_slice ndim) k s).
Proof.
  intro H. unfold axis_sel, pyset. rewrite Nat2Z.id, repeat_length.
  now rewrite (norm_axis_pyidx _ _ _ H).
Qed.

Lemma axis_slices_ok ndim axis k : norm_axis ndim axis k ->
  exists ss, get_axis_slices (Z.of_nat ndim) axis [] = Ok ss /\
    forall name s n l,
      In (name, s)
        [("mid", Slice (Some 1%Z) (Some (-1)%Z)); ("lasts", Slice (Some 1%Z) None);
         ("firsts", Slice (Some 0%Z) (Some (-1)%Z)); ("lastsp1", Slice (Some 2%Z) None);
         ("firstsm1", Slice (Some 0%Z) (Some (-2)%Z)); ("last", Idx (-1)%Z);
         ("first", Idx 0%Z); ("lastm1", Idx (-2)%Z); ("firstp1", Idx 1%Z);
         ("lastm2", Idx (-3)%Z); ("firstp2", Idx 2%Z)]%string ->
      positions n s = Ok l -> addresses ss name ndim k n l.
Proof.
  intro H. unfold get_axis_slices. rewrite !(axis_sel_ok _ _ _ _ H). cbn [bind kw_sels].
  replace (existsb (dmem []) axis_keys) with false by reflexivity.
  eexists. split; [reflexivity|].
  intros name s n l Hin Hp.
  assert (Hk : k < List.length (List.repeat full_slice ndim)).
  { rewrite repeat_length. apply H. }
  unfold addresses.
  repeat (destruct Hin as [E|Hin]; [injection E as <- <-;
    eexists; eexists; split; [reflexivity|]; split;
    [now rewrite upd_length, repeat_length|]; split;
    [now apply nth_error_upd_eq|]; split; [exact Hp|];
    intros j Hj Hne; rewrite nth_error_upd_neq by auto; now apply nth_error_repeat|]).
  destruct Hin.
Qed.

Lemma axis_slices_err ndim axis kw :
  (forall k, ~ norm_axis ndim axis k) ->
  get_axis_slices (Z.of_nat ndim) axis kw = Raise IndexError.
Proof.
  intro H. unfold get_axis_slices, axis_sel, pyset. rewrite Nat2Z.id, repeat_length.
  destruct (pyidx ndim axis) as [k|] eqn:E; [|reflexivity].
  exfalso. apply (H k). split; [|now apply pyidx_lt in E].
  unfold pyidx in E.
  destruct ((0 <=? axis) && (axis <? Z.of_nat ndim))%Z eqn:E1.
  - injection E as <-. left. lia.
  - destruct ((- Z.of_nat ndim <=? axis) && (axis <? 0))%Z eqn:E2; [|discriminate].
    injection E as <-. right. lia.
Qed.

Lemma pyidx_neg n i : 1 <= i <= n -> pyidx n (- Z.of_nat i) = Some (n - i).
Proof.
  intro H. unfold pyidx. destruct (Z.leb_spec 0 (- Z.of_nat i)); [lia|]. cbn [andb].
  destruct (Z.leb_spec (- Z.of_nat n) (- Z.of_nat i)); [|lia].
  destruct (Z.ltb_spec (- Z.of_nat i) 0); [|lia]. cbn [andb]. f_equal. lia.
Qed.
Lemma pos_idx n i : i < n -> positions n (Idx (Z.of_nat i)) = Ok [i].
Proof. intro H. unfold positions. now rewrite pyidx_nat. Qed.
Lemma pos_neg n i : 1 <= i <= n -> positions n (Idx (- Z.of_nat i)) = Ok [n - i].
Proof. intro H. unfold positions. now rewrite pyidx_neg. Qed.
Lemma pos_from n i : positions n (Slice (Some (Z.of_nat i)) None) = Ok (seq (Nat.min i n) (n - i)).
Proof.
  unfold positions, clip_bound. destruct (Z.ltb_spec (Z.of_nat i) 0); [lia|].
  replace (Z.to_nat (Z.max 0 (Z.min (Z.of_nat i) (Z.of_nat n)))) with (Nat.min i n) by lia.
  do 2 f_equal. lia.
Qed.
Lemma pos_range n i j : 1 <= j ->
  positions n (Slice (Some (Z.of_nat i)) (Some (- Z.of_nat j)%Z)) =
  Ok (seq (Nat.min i n) (n - j - i)).
Proof.
  intro Hj. unfold positions, clip_bound. destruct (Z.ltb_spec (Z.of_nat i) 0); [lia|].
  destruct (Z.ltb_spec (- Z.of_nat j) 0); [|lia].
  replace (Z.to_nat (Z.max 0 (Z.min (Z.of_nat i) (Z.of_nat n)))) with (Nat.min i n) by lia.
  do 2 f_equal. lia.
Qed.

Lemma axis_partition ndim axis k n : norm_axis ndim axis k -> 1 <= n ->
  exists ss, get_axis_slices (Z.of_nat ndim) axis [] = Ok ss /\
    addresses ss "first" ndim k n [0] /\
    addresses ss "lasts" ndim k n (seq 1 (n - 1)) /\
    addresses ss "firsts" ndim k n (seq 0 (n - 1)) /\
    addresses ss "last" ndim k n [n - 1] /\
    addresses ss "mid" ndim k n (seq 1 (n - 2)) /\
    addresses ss "firstsm1" ndim k n (seq 0 (n - 2)) /\
    (2 <= n -> addresses ss "lastsp1" ndim k n (seq 2 (n - 2)) /\
               addresses ss "firstp1" ndim k n [1] /\ addresses ss "lastm1" ndim k n [n - 2]) /\
    (3 <= n -> addresses ss "firstp2" ndim k n [2] /\ addresses ss "lastm2" ndim k n [n - 3]).
Proof.
  intros H Hn. destruct (axis_slices_ok ndim axis k H) as (ss & E & Hss).
  exists ss. split; auto.
  repeat split; intros; (eapply Hss; [simpl; tauto|]).
  - apply (pos_idx n 0). lia.
  - etransitivity; [exact (pos_from n 1)|]. do 2 f_equal; lia.
  - etransitivity; [exact (pos_range n 0 1 ltac:(lia))|]. do 2 f_equal; lia.
  - apply (pos_neg n 1). lia.
  - etransitivity; [exact (pos_range n 1 1 ltac:(lia))|]. do 2 f_equal; lia.
  - etransitivity; [exact (pos_range n 0 2 ltac:(lia))|]. do 2 f_equal; lia.
  - etransitivity; [exact (pos_from n 2)|]. do 2 f_equal; lia.
  - apply (pos_idx n 1). lia.
  - apply (pos_neg n 2). lia.
  - apply (pos_idx n 2). lia.
  - apply (pos_neg n 3). lia.
Qed.

(** ** gunique *)
Section Gunique.
  Context {A : Type}.
  Variable eqb : A -> A -> bool.
  Hypothesis eqb_refl : forall x, eqb x x = true.
  Hypothesis eqb_sym : forall x y, eqb x y = true -> eqb y x = true.
  Hypothesis eqb_trans : forall x y z, eqb x y = true -> eqb y z = true -> eqb x z = true.

  Lemma sorted_map_S l : StronglySorted lt l -> StronglySorted lt (map S l).
  Proof.
    induction 1 as [|x l Hl IH Hx]; simpl; constructor; auto.
    rewrite Forall_forall in *. intros y Hy. apply in_map_iff in Hy.
    destruct Hy as (z & <- & Hz). specialize (Hx z Hz). lia.
  Qed.

  Lemma gunique_loop_ok seen seq :
    exists idx, StronglySorted lt idx /\
      (forall j, In j idx <-> exists x, nth_error seq j = Some x /\
         existsb (eqb x) seen = false /\
         forall j' y, j' < j -> nth_error seq j' = Some y -> eqb x y = false) /\
      Forall2 (fun j x => nth_error seq j = Some x) idx (gunique_loop eqb seen seq).
  Proof.
    revert seen; induction seq as [|x seq IH]; intro seen; simpl.
    - exists []. repeat split; try constructor.
      + intros [].
      + intros (x & H & _). destruct j; discriminate.
    - destruct (existsb (eqb x) seen) eqn:Ex.
      + destruct (IH seen) as (idx & Hs & Hin & Hf).
        exists (map S idx). split; [now apply sorted_map_S|]. split.
        * intro j. rewrite in_map_iff. split.
          -- intros (i & <- & Hi). apply Hin in Hi. destruct Hi as (y & Hy & Hns & Hfst).
             exists y. repeat split; auto. intros [|j'] z Hj' Hz.
             ++ simpl in Hz. injection Hz as <-.
                destruct (eqb y x) eqn:Eyx; auto.
                apply existsb_exists in Ex. destruct Ex as (s & Hs' & Es).
                assert (existsb (eqb y) seen = true); [|congruence].
                apply existsb_exists. exists s. split; auto. eauto.
             ++ apply (Hfst j' z); auto. lia.
          -- intros (y & Hy & Hns & Hfst). destruct j as [|j].
             ++ simpl in Hy. injection Hy as <-. congruence.
             ++ exists j. split; auto. apply Hin. exists y. repeat split; auto.
                intros j' z Hj' Hz. apply (Hfst (S j') z); auto. lia.
        * clear - Hf. induction Hf; simpl; constructor; auto.
      + destruct (IH (x :: seen)) as (idx & Hs & Hin & Hf).
        exists (0 :: map S idx). split.
        { constructor; [now apply sorted_map_S|]. apply Forall_forall. intros y Hy.
          apply in_map_iff in Hy. destruct Hy as (z & <- & _). lia. }
        split.
        * intro j. simpl. rewrite in_map_iff. split.
          -- intros [<-|(i & <- & Hi)].
             ++ exists x. repeat split; auto. intros j' y Hj'. lia.
             ++ apply Hin in Hi. destruct Hi as (y & Hy & Hns & Hfst).
                simpl in Hns. apply orb_false_iff in Hns. destruct Hns as [N1 N2].
                exists y. repeat split; auto. intros [|j'] z Hj' Hz.
                ** simpl in Hz. injection Hz as <-. exact N1.
                ** apply (Hfst j' z); auto. lia.
          -- intros (y & Hy & Hns & Hfst). destruct j as [|j]; [auto|]. right.
             exists j. split; auto. apply Hin. exists y. split; [exact Hy|]. split.
             ++ simpl. rewrite Hns, orb_false_r. apply (Hfst 0 x); auto. lia.
             ++ intros j' z Hj' Hz. apply (Hfst (S j') z); auto. lia.
        * constructor; [reflexivity|]. clear - Hf. induction Hf; simpl; constructor; auto.
  Qed.

  Lemma gunique_ok seq :
    exists idx, StronglySorted lt idx /\
      (forall j, In j idx <-> exists x, first_occ eqb seq j x) /\
      Forall2 (fun j x => nth_error seq j = Some x) idx (gunique eqb seq).
  Proof.
    destruct (gunique_loop_ok [] seq) as (idx & H1 & H2 & H3).
    exists idx. repeat split; auto; rewrite H2.
    - intros (x & Hx & _ & Hf). exists x. split; auto.
    - intros (x & Hx & Hf). exists x. repeat split; auto.
  Qed.

  Lemma gunique_loop_nodup seen seq :
    ForallOrdPairs (fun x y => eqb y x = false) (gunique_loop eqb seen seq) /\
    (forall x, In x (gunique_loop eqb seen seq) -> In x seq /\ existsb (eqb x) seen = false).
  Proof.
    revert seen; induction seq as [|x seq IH]; intro seen; simpl.
    - split; [constructor|intros x []].
    - destruct (existsb (eqb x) seen) eqn:Ex.
      + destruct (IH seen) as [H1 H2]. split; auto. intros y Hy. apply H2 in Hy. tauto.
      + destruct (IH (x :: seen)) as [H1 H2]. split.
        * constructor; auto. apply Forall_forall. intros y Hy. apply H2 in Hy.
          destruct Hy as [_ Hy]. simpl in Hy. now apply orb_false_iff in Hy.
        * intros y [<-|Hy]; [auto|]. apply H2 in Hy. destruct Hy as [Hi Hy].
          simpl in Hy. apply orb_false_iff in Hy. tauto.
  Qed.

  Lemma gunique_loop_all seen seq y : In y seq ->
    (exists x, In x (gunique_loop eqb seen seq) /\ eqb y x = true) \/ existsb (eqb y) seen = true.
  Proof.
    revert seen; induction seq as [|x seq IH]; intro seen; simpl; [tauto|].
    intros [->|Hy].
    - destruct (existsb (eqb y) seen) eqn:Ex; [auto|]. left. exists y. simpl. auto.
    - destruct (existsb (eqb x) seen) eqn:Ex.
      + destruct (IH seen Hy) as [H|H]; auto.
      + destruct (IH (x :: seen) Hy) as [(z & Hz & E)|H].
        * left. exists z. simpl. auto.
        * simpl in H. apply orb_true_iff in H. destruct H as [H|H]; [|auto].
          left. exists x. simpl. auto.
  Qed.

  Lemma gunique_loop_id seen seq :
    ForallOrdPairs (fun x y => eqb y x = false) seq ->
    (forall x, In x seq -> existsb (eqb x) seen = false) ->
    gunique_loop eqb seen seq = seq.
  Proof.
    intro H. revert seen; induction H as [|x l Hx Hl IH]; intros seen Hs; simpl; auto.
    rewrite (Hs x) by (simpl; auto). f_equal. apply IH. intros y Hy. simpl.
    rewrite (Hs y) by (simpl; auto). rewrite orb_false_r.
    rewrite Forall_forall in Hx. now apply Hx.
  Qed.

  Lemma gunique_idem seq : gunique eqb (gunique eqb seq) = gunique eqb seq.
  Proof. apply gunique_loop_id; [apply gunique_loop_nodup|reflexivity]. Qed.
End Gunique.

(** ** match_string *)
Lemma match_loop_spec tr ss l sss :
  (match_loop tr ss l sss = None /\
     exists c f, In c l /\
       match tr with Some t => if is_fun c then c else t c | None => c end = CFun f /\ f ss = true)
  \/ (exists r, match_loop tr ss l sss = Some r /\
     (forall c f, In c l ->
       match tr with Some t => if is_fun c then c else t c | None => c end = CFun f -> f ss = false) /\
     forall s, In s r <-> In s sss \/ exists c, In c l /\
       match tr with Some t => if is_fun c then c else t c | None => c end = CStr s).
Proof.
  revert sss; induction l as [|c l IH]; intro sss; simpl.
  - right. exists sss. repeat split; auto; try tauto.
    intros [H|(c & [] & _)]; auto.
  - set (T := fun c => match tr with Some t => if is_fun c then c else t c | None => c end).
    change (match tr with Some t => if is_fun c then c else t c | None => c end) with (T c).
    assert (Hd : forall sss',
      (forall s, In s sss' <-> In s sss \/ T c = CStr s) ->
      (forall f, T c = CFun f -> f ss = false) ->
      match_loop tr ss l sss' = None /\
     (exists c0 f, (c = c0 \/ In c0 l) /\ T c0 = CFun f /\ f ss = true) \/
      exists r, match_loop tr ss l sss' = Some r /\
     (forall c0 f, c = c0 \/ In c0 l -> T c0 = CFun f -> f ss = false) /\
     forall s, In s r <-> In s sss \/ exists c0, (c = c0 \/ In c0 l) /\ T c0 = CStr s).
    { intros sss' Hs Hf. destruct (IH sss') as [[E (c0 & f & Hin & Ec & Ef)]|(r & E & H1 & H2)].
      - left. split; auto. exists c0, f. auto.
      - right. exists r. split; auto. split.
        + intros c0 f [<-|Hin] Ec; [now apply Hf|]. eapply H1; eauto.
        + intro s. rewrite H2, Hs. split.
          * intros [[H|H]|(c0 & Hin & Ec)]; [auto| |]; right; [exists c|exists c0]; auto.
          * intros [H|(c0 & [<-|Hin] & Ec)]; auto. right. exists c0. auto. }
    destruct (T c) as [|s0|f0|n0] eqn:Ec.
    + apply Hd; [|intros f H; discriminate]. intro s. split; [auto|]. intros [H|H]; [auto|discriminate].
    + apply Hd; [|intros f H; discriminate]. intro s. rewrite in_app_iff. simpl. split.
      * intros [H|[H|[]]]; [auto|subst; auto].
      * intros [H|H]; [auto|]. injection H as ->. auto.
    + destruct (f0 ss) eqn:Ef.
      * left. split; auto. exists c, f0. auto.
      * apply Hd; [|intros f H; congruence]. intro s. split; [auto|].
        intros [H|H]; [auto|discriminate].
    + apply Hd; [|intros f H; discriminate]. intro s. split; [auto|]. intros [H|H]; [auto|discriminate].
Qed.

Lemma match_string_ok ss cs ic tr :
  match_string (Some ss) cs ic tr = true <->
  ss <> ""%string /\ checks_false cs = false /\
  exists c, In c (check_list cs) /\ accepts ic tr ss c.
Proof.
  unfold match_string. destruct (String.eqb_spec ss "") as [->|Hne]; simpl.
  { split; [discriminate|]. tauto. }
  destruct (checks_false cs); [split; [discriminate|intros (_ & H & _); discriminate]|].
  change (if ic then lower (strip ss) else strip ss) with (norm ic ss).
  set (l := List.filter (fun c => negb (is_cnone c)) (check_list cs)).
  assert (Hl : forall c, In c l <-> In c (check_list cs) /\ c <> CNone).
  { intro c. unfold l. rewrite filter_In. destruct c; simpl; split; intros [H1 H2]; split;
      auto; try discriminate; congruence. }
  assert (Hf : forall (tr : option (Misc.check -> Misc.check)) c,
    match c, tr with CFun _, _ | _, None => c | _, Some t => t c end =
    match tr with Some t => if is_fun c then c else t c | None => c end) by (intros [t|] []; reflexivity).
  assert (Hm : forall sss, existsb (String.eqb (norm ic ss))
           (if ic then map lower (map strip sss) else map strip sss) = true <->
           exists s, In s sss /\ norm ic s = norm ic ss).
  { intro sss. rewrite existsb_exists. split.
    - intros (x & Hx & E). apply String.eqb_eq in E. subst x. destruct ic.
      + rewrite map_map in Hx. apply in_map_iff in Hx. destruct Hx as (s & Es & Hs). eauto.
      + apply in_map_iff in Hx. destruct Hx as (s & Es & Hs). eauto.
    - intros (s & Hs & E). exists (norm ic s). rewrite E, String.eqb_refl. split; auto.
      rewrite <- E. unfold norm. destruct ic; [rewrite map_map|]; apply in_map_iff; eauto. }
  destruct (match_loop_spec tr (norm ic ss) l []) as [[E (c & f & Hin & Ec & Ef)]|(r & E & H1 & H2)];
    rewrite E.
  - split; auto. intros _. repeat split; auto. exists c. apply Hl in Hin. split; [tauto|].
    split; [tauto|]. unfold accepts. rewrite Hf. now rewrite Ec.
  - rewrite Hm. split.
    + intros (s & Hs & En). repeat split; auto. apply H2 in Hs. destruct Hs as [[]|(c & Hin & Ec)].
      exists c. apply Hl in Hin. split; [tauto|]. split; [tauto|]. unfold accepts. rewrite Hf. now rewrite Ec.
    + intros (_ & _ & c & Hin & Hcn & Hacc). unfold accepts in Hacc. rewrite Hf in Hacc.
      assert (Hin' : In c l) by (apply Hl; auto).
      destruct (match tr with Some t => if is_fun c then c else t c | None => c end)
        as [|s|f|n] eqn:Ec; try contradiction.
      * exists s. split; auto. apply H2. right. eauto.
      * rewrite (H1 c f Hin' Ec) in Hacc. discriminate.
Qed.

(** ** Choices *)
Lemma cval_eqb_eq a b : cval_eqb a b = true <-> a = b.
Proof.
  destruct a, b; simpl; split; intro H; try discriminate; auto.
  - apply String.eqb_eq in H. congruence.
  - injection H as ->. apply String.eqb_refl.
  - apply Z.eqb_eq in H. congruence.
  - injection H as ->. apply Z.eqb_refl.
Qed.

Lemma choices_ok l ci v r :
  choices_getitem (Choices_init l ci) v = Ok r <->
  r = reformat ci v /\ exists w, In w l /\ reformat ci w = reformat ci v.
Proof.
  unfold choices_getitem, Choices_init. cbn [Misc.ci choices_].
  destruct (existsb _ _) eqn:E.
  - apply existsb_exists in E. destruct E as (x & Hx & Ex). apply cval_eqb_eq in Ex. subst x.
    apply in_map_iff in Hx. destruct Hx as (w & Ew & Hw). split.
    + intro H. injection H as <-. eauto.
    + intros [-> _]. reflexivity.
  - split.
    + destruct (choices_str _); discriminate.
    + intros [-> (w & Hw & Ew)]. exfalso.
      assert (existsb (cval_eqb (reformat ci v)) (map (reformat ci) l) = true); [|congruence].
      apply existsb_exists. exists (reformat ci w). split; [now apply in_map|].
      now apply cval_eqb_eq.
Qed.

Lemma choices_str_ok l ci : (forall v, In v l -> exists s, v = CvStr s) ->
  exists s, choices_str (Choices_init l ci) = Ok s.
Proof.
  unfold choices_str, Choices_init. cbn [choices_]. intro H.
  assert (Hgo : exists r, (fix go l := match l with
     | [] => Ok []
     | CvStr s :: r => let* r' := go r in Ok (s :: r')
     | _ :: _ => Raise TypeError end) (map (reformat ci) l) = Ok r).
  { induction l as [|v l IH]; simpl; eauto.
    destruct (H v (or_introl eq_refl)) as [s ->]. simpl.
    destruct IH as [r Hr]; [intros w Hw; apply H; simpl; auto|].
    destruct ci; rewrite Hr; simpl; eauto. }
  destruct Hgo as [r ->]. simpl. eauto.
Qed.

(** ** dict_filter *)
Section Filter.
  Variables (copy short keep : bool).

  Definition outname (f a : string) : string :=
    if keep then a else sdrop (String.length (filter_prefix short f)) a.

  Lemma dget_ddel (kw : dict pyval) a b :
    dget (ddel kw a) b = if String.eqb a b then None else dget kw b.
  Proof.
    unfold ddel. rewrite (dget_filter (fun k => negb (String.eqb a k))).
    destruct (String.eqb a b); reflexivity.
  Qed.

  Lemma prefix_loop f atts : NoDup atts -> forall out kw,
    (forall a, In a atts -> exists v, dget kw a = Some v) ->
    for_each atts (prefix_step copy keep (filter_prefix short f)) (out, kw) =
    Ok (dupdate out (flat_map (fun a => if with_prefix short f a
                          then match dget kw a with Some v => [(outname f a, v)] | None => [] end
                          else []) atts),
        if copy then kw
        else List.filter (fun kv => negb (with_prefix short f (fst kv) &&
                                    existsb (String.eqb (fst kv)) atts)) kw).
  Proof.
    induction atts as [|a atts IH]; intros Hnd out kw Hin; simpl.
    - f_equal. f_equal. destruct copy; auto.
      induction kw as [|kv kw IHk]; simpl; auto. rewrite andb_false_r. simpl. f_equal.
      apply IHk. intros a [].
    - inversion Hnd as [|? ? Hna Hnd']; subst.
      change (startswith a (filter_prefix short f) && negb (String.eqb a (filter_prefix short f)))
        with (with_prefix short f a).
      destruct (with_prefix short f a) eqn:Ea.
      + destruct (Hin a (or_introl eq_refl)) as [v Hv].
        unfold kwread. rewrite Hv. cbn [bindc].
        change (if keep then a else sdrop (String.length (filter_prefix short f)) a)
          with (outname f a).
        rewrite IH; auto.
        * f_equal. f_equal.
          -- cbn [app dupdate fold_left fst snd]. unfold dupdate. f_equal.
             rewrite !flat_map_concat_map. f_equal. apply map_ext_in. intros b Hb.
             destruct (with_prefix short f b); auto. destruct copy; auto.
             rewrite dget_ddel. destruct (String.eqb_spec a b); [subst; contradiction|auto].
          -- destruct copy; auto. unfold ddel. rewrite filter_filter. apply filter_ext.
             intros [k w]. simpl. rewrite (String.eqb_sym k a).
             destruct (String.eqb_spec a k) as [->|Hne]; simpl; auto.
             rewrite Ea. reflexivity.
        * intros b Hb. destruct copy; [apply Hin; simpl; auto|].
          rewrite dget_ddel. destruct (String.eqb_spec a b); [subst; contradiction|].
          apply Hin; simpl; auto.
      + rewrite IH; [|auto|intros b Hb; apply Hin; simpl; auto].
        f_equal. f_equal. destruct copy; auto. apply filter_ext. intros [k w]. simpl.
        destruct (String.eqb_spec k a) as [->|Hne]; simpl; auto.
        rewrite Ea. reflexivity.
  Qed.

  Lemma flat_map_keys {B} (g : string -> option pyval -> list B) (kw kw0 : dict pyval) :
    (forall k v, In (k, v) kw -> dget kw0 k = Some v) ->
    flat_map (fun a => g a (dget kw0 a)) (dkeys kw) =
    flat_map (fun kv => g (fst kv) (Some (snd kv))) kw.
  Proof.
    unfold dkeys. induction kw as [|[k v] kw IH]; simpl; auto. intro H.
    rewrite (H k v) by auto. f_equal. apply IH. intros k' v' H'. apply H. auto.
  Qed.

  Lemma flat_map_filter {X Y} (p : X -> bool) (h : X -> Y) l :
    flat_map (fun x => if p x then [h x] else []) l = map h (List.filter p l).
  Proof. induction l as [|x l IH]; simpl; auto. destruct (p x); simpl; congruence. Qed.

  Lemma endsc_app f : ends_with_char (f ++ "_")%string "_"%char = true.
  Proof.
    induction f as [|c f IH]; simpl; auto.
    destruct f; simpl in *; auto.
  Qed.

  Lemma prefix_not_exact f k : exact_key f k = true -> with_prefix short f k = false.
  Proof.
    unfold exact_key, with_prefix, filter_prefix. intro H. apply andb_true_iff in H.
    destruct H as [H1 H2]. apply String.eqb_eq in H2. subst k.
    rewrite H1, andb_true_r. destruct short; simpl.
    - rewrite String.eqb_refl. apply andb_false_r.
    - destruct (startswith f (f ++ "_")) eqn:E; auto.
      apply startswith_app in E. destruct E as [t Ht]. exfalso.
      assert (Hl : String.length f = String.length ((f ++ "_") ++ t)%string) by congruence.
      clear -Hl. assert (Ha : forall x y, String.length (x ++ y)%string
         = String.length x + String.length y).
      { induction x; simpl; intros; auto. }
      rewrite !Ha in Hl. simpl in Hl. lia.
  Qed.

  Lemma filter_step_ok f out kw : dict_wf kw ->
    filter_step copy short keep f (out, kw) =
    Next (dupdate out (emitted short keep f kw),
          if copy then kw
          else List.filter (fun kv => negb (selects short f (fst kv))) kw).
  Proof.
    intro Hwf. unfold filter_step.
    set (kw1 := if copy then kw else if negb (ends_with_char f "_"%char) && dmem kw f
                                     then ddel kw f else kw).
    set (ex := if ends_with_char f "_"%char then [] else
        match dget kw f with
        | Some (VDict d) => d | Some v => [(f, v)] | None => [] end).
    assert (E1 : (if negb (ends_with_char f "_"%char) && dmem kw f then
       let* (v, kw') := kwread copy kw f in
       match v with
       | VDict d => Ok (dupdate out d, kw')
       | _ => Ok (dset out f v, kw')
       end
     else Ok (out, kw)) = Ok (dupdate out ex, kw1)).
    { unfold ex, kw1, dmem, kwread. destruct (ends_with_char f "_"%char); simpl.
      - destruct copy; reflexivity.
      - destruct (dget kw f) as [v|]; simpl; [|destruct copy; reflexivity].
        destruct copy, v; reflexivity. }
    rewrite E1. cbn [bindc snd].
    assert (Hwf1 : dict_wf kw1).
    { unfold kw1. destruct copy; auto. destruct (_ && _); auto. now apply filter_wf. }
    rewrite prefix_loop; auto.
    2:{ intros a Ha. destruct (dget kw1 a) eqn:E; eauto. apply dget_none in E. contradiction. }
    cbn [next_of]. do 2 f_equal.
    - rewrite <- dupdate_app. f_equal. unfold emitted. fold ex. f_equal.
      rewrite (flat_map_keys (fun a o => if with_prefix short f a then
         match o with Some v => [(outname f a, v)] | None => [] end else [])).
      2:{ intros k v Hk. now apply dget_in. }
      transitivity (map (fun kv => (outname f (fst kv), snd kv))
         (List.filter (fun kv => with_prefix short f (fst kv)) kw1)).
      { apply (flat_map_filter (fun kv : string * pyval => with_prefix short f (fst kv))). }
      unfold outname. f_equal. unfold kw1. destruct copy; auto.
      destruct (negb (ends_with_char f "_"%char) && dmem kw f) eqn:Eb; auto.
      unfold ddel. rewrite filter_filter. apply filter_ext. intros [k v]. simpl.
      destruct (String.eqb_spec f k) as [<-|]; simpl; auto.
      symmetry. apply prefix_not_exact. unfold exact_key. rewrite String.eqb_refl.
      apply andb_true_iff in Eb. now rewrite (proj1 Eb).
    - unfold kw1. destruct copy; auto.
      assert (Hmem : forall kw2 : dict pyval, 
        List.filter (fun kv => negb (with_prefix short f (fst kv) &&
             existsb (String.eqb (fst kv)) (dkeys kw2))) kw2 =
        List.filter (fun kv => negb (with_prefix short f (fst kv))) kw2).
      { intro kw2. apply filter_ext_in. intros [k v] Hk. simpl.
        replace (existsb (String.eqb k) (dkeys kw2)) with true; [now rewrite andb_true_r|].
        symmetry. apply existsb_exists. exists k. split; [|apply String.eqb_refl].
        unfold dkeys. change k with (fst (k, v)). now apply in_map. }
      rewrite Hmem. unfold selects, exact_key.
      destruct (negb (ends_with_char f "_"%char)) eqn:Ee; simpl.
      + destruct (dmem kw f) eqn:Ed.
        * unfold ddel. rewrite filter_filter. apply filter_ext. intros [k v]. simpl.
          rewrite negb_orb. now rewrite (String.eqb_sym k f).
        * apply filter_ext_in. intros [k v] Hk. simpl. rewrite negb_orb.
          destruct (String.eqb_spec k f) as [->|]; simpl; auto.
          exfalso. apply dmem_not in Ed. apply Ed. unfold dkeys.
          change f with (fst (f, v)). now apply in_map.
      + reflexivity.
  Qed.

  Definition remaining (fs : list string) (kw : dict pyval) : dict pyval :=
    if copy then kw
    else List.filter (fun kv => negb (existsb (fun f => selects short f (fst kv)) fs)) kw.

  Lemma filters_loop fs : forall out kw, dict_wf kw ->
    for_each fs (filter_step copy short keep) (out, kw) =
    Ok (dupdate out (emissions copy short keep fs kw), remaining fs kw).
  Proof.
    induction fs as [|f fs IH]; intros out kw Hwf; cbn [for_each].
    - unfold remaining. cbn [existsb emissions negb]. destruct copy; auto.
      f_equal. f_equal. induction kw as [|x kw IHk]; simpl; auto. f_equal. apply IHk.
      unfold dict_wf in *. simpl in Hwf. now inversion Hwf.
    - rewrite filter_step_ok by auto. rewrite IH.
      + cbn [emissions]. rewrite dupdate_app. f_equal. f_equal.
        unfold remaining. destruct copy; auto. rewrite filter_filter. apply filter_ext.
        intros [k v]. cbn [existsb fst]. now rewrite negb_orb.
      + destruct copy; auto. now apply filter_wf.
  Qed.

  Lemma dget_defaults (d e : dict pyval) k :
    dget (dict_check_defaults d e) k = match dget d k with Some v => Some v | None => dget e k end.
  Proof.
    unfold dict_check_defaults. revert d; induction e as [|[k0 v0] e IH]; intro d.
    - simpl. now destruct (dget d k).
    - cbn [fold_left fst snd dget]. rewrite IH. unfold dsetdefault.
      destruct (dmem d k0) eqn:E.
      + destruct (dget d k) eqn:Ek; auto.
        destruct (String.eqb_spec k k0) as [->|]; auto.
        unfold dmem in E. rewrite Ek in E. discriminate.
      + rewrite dget_dset. destruct (String.eqb_spec k k0) as [->|]; auto.
        unfold dmem in E. now destruct (dget d k0).
  Qed.

  Lemma dict_filter_ok kwargs filters defaults kwadd :
    dict_wf kwargs ->
    exists out, dict_filter kwargs filters defaults copy short keep kwadd
                = Ok (out, remaining filters kwargs) /\
      forall o, dget out o =
        match last_bound (emissions copy short keep filters kwargs ++ kwadd) o with
        | Some v => Some v
        | None => match defaults with Some d => dget d o | None => None end
        end.
  Proof.
    intro Hwf. unfold dict_filter. rewrite filters_loop by auto. cbn [bind].
    eexists. split; [reflexivity|]. intro o.
    assert (E : dget (dupdate (dupdate [] (emissions copy short keep filters kwargs)) kwadd) o
        = last_bound (emissions copy short keep filters kwargs ++ kwadd) o).
    { rewrite <- dupdate_app, dget_dupdate. now destruct (last_bound _ o). }
    destruct defaults as [d|].
    - rewrite dget_defaults, E. reflexivity.
    - rewrite E. now destruct (last_bound _ o).
  Qed.

  (** every emission comes from a selected entry *)
  Lemma emissions_from fs : forall kw o v, dict_wf kw ->
    In (o, v) (emissions copy short keep fs kw) ->
    exists f k w, In f fs /\ In (k, w) kw /\ selects short f k = true /\
      ((w = v /\ (o = k \/ (with_prefix short f k = true /\ keep = false /\
                            k = (filter_prefix short f ++ o)%string))) \/
       exists d, w = VDict d /\ k = f /\ In (o, v) d).
  Proof.
    induction fs as [|f fs IH]; intros kw o v Hwf; cbn [emissions]; [intros []|].
    rewrite in_app_iff. intros [H|H].
    - unfold emitted in H. rewrite in_app_iff in H. destruct H as [H|H].
      + destruct (ends_with_char f "_"%char) eqn:Ee; [destruct H|].
        destruct (dget kw f) as [w|] eqn:Eg; [|destruct H].
        exists f, f, w. split; [simpl; auto|]. split; [now apply dget_some_in|].
        split. { unfold selects, exact_key. now rewrite Ee, String.eqb_refl. }
        destruct w; try (destruct H as [H|[]]; injection H as <- <-; auto).
        right. eauto.
      + apply in_map_iff in H. destruct H as ([k w] & E & Hk). apply filter_In in Hk.
        destruct Hk as [Hk Hp]. cbn [fst snd] in *. injection E as <- <-.
        exists f, k, w. split; [simpl; auto|]. split; auto.
        split. { unfold selects. rewrite Hp. apply orb_true_r. }
        left. split; auto. destruct keep; auto. right. repeat split; auto.
        unfold with_prefix in Hp. apply andb_true_iff in Hp. destruct Hp as [Hp _].
        apply startswith_app in Hp. destruct Hp as [t ->]. now rewrite sdrop_app.
    - apply IH in H.
      + destruct H as (f' & k & w & Hf & Hk & Hr). exists f', k, w. split; [simpl; auto|].
        split; auto. destruct copy; auto. apply filter_In in Hk. tauto.
      + destruct copy; auto. now apply filter_wf.
  Qed.

  (** every selected entry is emitted *)
  Lemma emissions_all fs : forall kw k w, dict_wf kw -> In (k, w) kw ->
    existsb (fun f => selects short f k) fs = true ->
    exists f, In f fs /\ selects short f k = true /\
      ((with_prefix short f k = true /\
        In (outname f k, w) (emissions copy short keep fs kw)) \/
       (k = f /\ ((exists d, w = VDict d /\ incl d (emissions copy short keep fs kw)) \/
                  In (k, w) (emissions copy short keep fs kw)))).
  Proof.
    induction fs as [|f fs IH]; intros kw k w Hwf Hk; cbn [existsb]; [discriminate|].
    cbn [emissions]. intro H.
    destruct (selects short f k) eqn:Es.
    - exists f. split; [simpl; auto|]. split; auto. unfold selects in Es.
      destruct (with_prefix short f k) eqn:Ep.
      + left. split; auto. apply in_or_app. left. unfold emitted. apply in_or_app. right.
        apply in_map_iff. exists (k, w). split; [reflexivity|]. apply filter_In. auto.
      + right. rewrite orb_false_r in Es. unfold exact_key in Es.
        apply andb_true_iff in Es. destruct Es as [Ee Ek].
        apply String.eqb_eq in Ek. subst k. split; auto.
        apply (dget_in kw f w Hwf) in Hk. apply negb_true_iff in Ee.
        assert (He : forall x, In x (match w with VDict d => d | _ => [(f, w)] end) ->
           In x (emitted short keep f kw)).
        { intros x Hx. unfold emitted. rewrite Ee, Hk. apply in_or_app. left.
          destruct w; auto. }
        destruct w as [| | | | | |d| |];
          try (right; apply in_or_app; left; apply He; simpl; now left).
        left. exists d. split; auto. intros x Hx. apply in_or_app. left. now apply He.
    - simpl in H.
      destruct (IH (if copy then kw
            else List.filter (fun kv => negb (selects short f (fst kv))) kw) k w)
        as (f' & Hf' & Hs' & Hc); auto.
      { destruct copy; auto. now apply filter_wf. }
      { destruct copy; auto. apply filter_In. simpl. now rewrite Es. }
      exists f'. split; [simpl; auto|]. split; auto.
      destruct Hc as [[Hp Hin]|[Hp [(d & Hd & Hincl)|Hin]]].
      + left. split; auto. apply in_or_app. auto.
      + right. split; auto. left. exists d. split; auto. intros x Hx. apply in_or_app. auto.
      + right. split; auto. right. apply in_or_app. auto.
  Qed.
End Filter.
