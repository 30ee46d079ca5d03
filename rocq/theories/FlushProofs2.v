(** Facts for C24: structure of DimFlusher1D. *)
From Verif Require Export FlushProofs TransposeProps.
Open Scope nat_scope.

Lemma in_others {A} (a : da A) d x : In x (others a d) <-> In x (dims a) /\ x <> d.
Proof.
  unfold others. rewrite filter_In, negb_true_iff, String.eqb_neq. tauto.
Qed.
Lemma unnamed_map_some ds l : unnamed ds (None :: map Some l) = minus ds l.
Proof.
  rewrite unnamed_names. cbn [names]. rewrite names_map. reflexivity.
Qed.
(** Pushing dimensions to the right *)
Lemma push_right {A} (a : da A) l : wf a -> NoDup l -> incl l (dims a) ->
  exists b, xr_transpose a (None :: map Some l) = Ok b /\ reordered a b (minus (dims a) l ++ l).
Proof.
  intros Wa Hl Hi.
  destruct (xr_transpose_ell a (None :: map Some l) (proj2 Wa) (or_introl eq_refl)) as [H _].
  cbn zeta in H. rewrite unnamed_map_some in H. cbn [placed] in H. rewrite placed_map in H.
  destruct H as (H1 & H2 & H3).
  - apply NoDup_req. cbn [names]. rewrite names_map, nellipsis_cons_none, nellipsis_map. split; auto.
  - cbn [names]. rewrite names_map. auto.
  - eexists. split; [exact H1|]. now apply permute_reordered.
Qed.
Lemma nodup_map_in {A B} (f : A -> B) l :
  (forall x y, In x l -> In y l -> f x = f y -> x = y) -> NoDup l -> NoDup (map f l).
Proof.
  induction l as [|x l IH]; intros Hf HN; simpl; constructor; inversion HN; subst.
  - intro H. apply in_map_iff in H. destruct H as (y & E & Hy).
    assert (y = x) by (apply Hf; simpl; auto). subst. contradiction.
  - apply IH; auto. intros. apply Hf; simpl; auto.
Qed.
Definition rename0 (dim0 dim1 : string) (l : list string) : list string :=
  map (fun d => if String.eqb d dim0 then dim1 else d) l.
Lemma rename0_in dim0 dim1 l x : In dim0 l ->
  In x (rename0 dim0 dim1 l) <-> (x = dim1 \/ (In x l /\ x <> dim0)).
Proof.
  intro H0. unfold rename0. rewrite in_map_iff. split.
  - intros (y & E & Hy). destruct (String.eqb_spec y dim0) as [Ey|Hne]; subst; auto.
  - intros [->|[H1 H2]].
    + exists dim0. rewrite String.eqb_refl. auto.
    + exists x. destruct (String.eqb_spec x dim0); [contradiction|auto].
Qed.
Lemma rename0_nodup dim0 dim1 l : NoDup l -> dim0 = dim1 \/ ~ In dim1 l -> NoDup (rename0 dim0 dim1 l).
Proof.
  intros HN H. unfold rename0. apply nodup_map_in; auto.
  intros x y Hx Hy. destruct (String.eqb_spec x dim0) as [Ex|Ex], (String.eqb_spec y dim0) as [Ey|Ey]; intro E; subst; auto.
  - destruct H as [->|H]; auto. contradiction.
  - destruct H as [->|H]; auto. contradiction.
Qed.
Lemma filter_snoc_in {A} (p : A -> bool) l x : p x = true -> List.filter p (l ++ [x]) = (List.filter p l ++ [x])%list.
Proof. intro H. rewrite filter_app. simpl. now rewrite H. Qed.

Section Flush.
  Context {A B : Type} (a : da A) (ci co : da B) (dim0 dim1 : string).
  Hypothesis Wa : wf a.
  Hypothesis Wci : wf ci.
  Hypothesis Wco : wf co.
  Hypothesis Hci : incl (dims ci) (dims a).
  Hypothesis Hci0 : In dim0 (dims ci).
  Hypothesis Hcis : forall d, In d (dims ci) -> size ci d = size a d.
  Hypothesis Hco1 : In dim1 (dims co).
  Hypothesis H01 : dim0 = dim1 \/ (~ In dim1 (dims a) /\ ~ In dim0 (dims co)).
  Local Notation A0 := (others a dim0).
  Local Notation C := (others co dim1).
  Local Notation I := (List.filter (fun d => mem d (dims ci)) A0).
  Hypothesis Hsub : incl A0 C \/ incl C A0.
  Hypothesis Hsz : forall d, In d A0 -> In d C -> size a d = size co d.

  Definition aligned : Prop := incl I C \/ (C = [] /\ exists p, A0 = (p ++ I)%list).

  Lemma dim1_A0 : ~ In dim1 A0.
  Proof. rewrite in_others. destruct H01 as [<-|[H _]]; tauto. Qed.
  Lemma dim0_C : ~ In dim0 C.
  Proof. rewrite in_others. destruct H01 as [<-|[_ H]]; tauto. Qed.

  Lemma flush_coord : exists b,
    transpose co (None :: map Some (rename0 dim0 dim1 (dims a))) None (EName "compat") = Ok b /\
    dims b = (minus (dims co) (rename0 dim0 dim1 (dims a)) ++
              List.filter (fun d => mem d (dims co)) (rename0 dim0 dim1 (dims a)))%list.
  Proof.
    destruct (C23_compat B co (None :: map Some (rename0 dim0 dim1 (dims a))) None (EName "compat") Wco) as [H _].
    { simpl. auto. }
    assert (E : known (dims co) (None :: map Some (rename0 dim0 dim1 (dims a))) =
      None :: map Some (List.filter (fun d => mem d (dims co)) (rename0 dim0 dim1 (dims a)))).
    { unfold known. cbn [List.filter]. f_equal. generalize (rename0 dim0 dim1 (dims a)). intro l.
      induction l as [|x l IH]; simpl; auto. unfold mem at 1. destruct (existsb _ _); simpl; congruence. }
    rewrite E, unnamed_map_some in H. destruct H as (b & H1 & H2).
    - apply NoDup_req. cbn [names]. rewrite names_map, nellipsis_cons_none, nellipsis_map. split; auto.
      apply NoDup_filter, rename0_nodup; [apply Wa|]. tauto.
    - exists b. split; auto. rewrite H2. unfold flush_left. cbn [existsb orb placed]. now rewrite placed_map.
  Qed.

  (** The flattened arrays: leading dimensions [La], [Li], [Lo] *)
  Definition flat_ok (f : flushed A B) (La Li Lo : list string) : Prop :=
    wf (fa f) /\ dims (fa f) = (La ++ [dim0])%list /\ (forall env, look (fa f) env = look a env) /\
    wf (fci f) /\ dims (fci f) = (Li ++ [dim0])%list /\ (forall env, look (fci f) env = look ci env) /\
    wf (fco f) /\ dims (fco f) = (Lo ++ [dim1])%list /\ (forall env, look (fco f) env = look co env) /\
    (exists p, La = (p ++ Li)%list) /\ (exists p, La = (p ++ Lo)%list) /\
    (forall d, In d La <-> In d A0 \/ In d C) /\
    (forall d, In d A0 -> size (fa f) d = size a d) /\
    (forall d, In d C -> size (fa f) d = size co d) /\
    (forall d, In d Li -> size (fci f) d = size (fa f) d) /\
    (forall d, In d Lo -> size (fco f) d = size (fa f) d) /\
    size (fa f) dim0 = size a dim0 /\ size (fci f) dim0 = size a dim0 /\ size (fco f) dim1 = size co dim1 /\
    work_dims f = (La ++ [dim1])%list /\
    work_shape f = (map (size (fa f)) La ++ [size co dim1])%list /\
    final_dims f = rename0 dim0 dim1 (dims a) /\
    transpose co (None :: map Some (rename0 dim0 dim1 (dims a))) None (EName "compat") = Ok (fcoord f).

  Lemma flush_ok : aligned -> exists f La Li Lo, flush a ci co dim0 dim1 = Ok f /\ flat_ok f La Li Lo.
  Proof.
    intro Hal. unfold flush.
    assert (Ha0 : In dim0 (dims a)) by now apply Hci.
    rewrite (proj2 (mem_In dim0 (dims a))), (proj2 (mem_In dim1 (dims co))) by auto. cbn [andb negb].
    replace (negb (subset A0 C) && negb (subset C A0)) with false.
    2: { symmetry. destruct Hsub as [H|H]; apply (proj2 (subset_incl _ _)) in H; rewrite H; cbn; auto using andb_false_r. }
    set (cdims := List.filter (fun d => mem d C && negb (String.eqb d dim0)) A0).
    assert (Hcd : forall d, In d cdims <-> In d A0 /\ In d C).
    { intro d. unfold cdims. rewrite filter_In, andb_true_iff, mem_In, negb_true_iff, String.eqb_neq.
      rewrite (in_others a). tauto. }
    assert (Hck : forallb (fun d => size a d =? size co d) cdims = true).
    { apply forallb_forall. intros d Hd. apply Hcd in Hd. apply Nat.eqb_eq. now apply Hsz. }
    rewrite Hck. cbn [negb]. fold (rename0 dim0 dim1 (dims a)).
    destruct flush_coord as (crd & Ecrd & _). rewrite Ecrd. cbn [bind].
    set (c := List.filter (fun d => mem d cdims) (dims a)).
    assert (Hc : forall d, In d c <-> In d A0 /\ In d C).
    { intro d. unfold c. rewrite filter_In, mem_In, Hcd, (in_others a). tauto. }
    assert (Nc : NoDup c) by apply NoDup_filter, Wa.
    assert (Nc0 : NoDup (c ++ [dim0])).
    { apply nodup_app_intro; auto; [repeat constructor; simpl; auto|]. intros x Hx [<-|[]].
      apply Hc in Hx. destruct Hx as [Hx _]. apply in_others in Hx. tauto. }
    assert (Nc1 : NoDup (c ++ [dim1])).
    { apply nodup_app_intro; auto; [repeat constructor; simpl; auto|]. intros x Hx [<-|[]].
      apply Hc in Hx. destruct Hx as [_ Hx]. apply in_others in Hx. tauto. }
    destruct (push_right a (c ++ [dim0]) Wa Nc0) as (a1 & Ea1 & Wa1 & Da1 & La1 & Sa1).
    { intros x Hx. apply in_app_or in Hx. destruct Hx as [Hx|[<-|[]]]; auto.
      apply Hc in Hx. destruct Hx as [Hx _]. apply in_others in Hx. tauto. }
    rewrite Ea1. cbn [bind].
    destruct (push_right co (c ++ [dim1]) Wco Nc1) as (co1 & Eco1 & Wco1 & Dco1 & Lco1 & Sco1).
    { intros x Hx. apply in_app_or in Hx. destruct Hx as [Hx|[<-|[]]]; auto.
      apply Hc in Hx. destruct Hx as [_ Hx]. apply in_others in Hx. tauto. }
    rewrite Eco1. cbn [bind].
    rewrite <- Da1 in Sa1. rewrite <- Dco1 in Sco1. rewrite app_assoc in Da1, Dco1.
    set (Ka := (minus (dims a) (c ++ [dim0]) ++ c)%list) in *.
    set (Ko := (minus (dims co) (c ++ [dim1]) ++ c)%list) in *.
    assert (DKa : Ka = (minus (dims a) (c ++ [dim0]) ++ c)%list) by reflexivity.
    assert (DKo : Ko = (minus (dims co) (c ++ [dim1]) ++ c)%list) by reflexivity.
    clearbody Ka Ko.
    assert (HKa : forall d, In d Ka <-> In d A0).
    { intro d. rewrite DKa. rewrite in_app_iff, in_minus, in_app_iff, Hc, (in_others a). simpl.
      destruct (mem_dec d C) as [Hm|Hm]; destruct (string_dec dim0 d) as [->|]; intuition. }
    assert (HKo : forall d, In d Ko <-> In d C).
    { intro d. rewrite DKo. rewrite in_app_iff, in_minus, in_app_iff, Hc, (in_others co). simpl.
      destruct (mem_dec d A0) as [Hm|Hm]; destruct (string_dec dim1 d) as [->|]; intuition. }
    assert (NKa : NoDup Ka).
    { destruct Wa1 as [_ HN]. rewrite Da1 in HN. apply NoDup_remove_1 in HN. now rewrite app_nil_r in HN. }
    assert (NKo : NoDup Ko).
    { destruct Wco1 as [_ HN]. rewrite Dco1 in HN. apply NoDup_remove_1 in HN. now rewrite app_nil_r in HN. }
    (* the input coordinate follows the data *)
    set (Ki := List.filter (fun d => mem d (dims ci)) Ka).
    assert (DKi : Ki = List.filter (fun d => mem d (dims ci)) Ka) by reflexivity. clearbody Ki.
    assert (HKi : forall d, In d Ki <-> In d A0 /\ In d (dims ci)).
    { intro d. rewrite DKi. rewrite filter_In, mem_In, HKa. tauto. }
    set (ci1 := permute ci (List.filter (fun d => mem d (dims ci)) (dims a1))).
    assert (Dci1 : dims ci1 = (Ki ++ [dim0])%list).
    { unfold ci1. rewrite permute_dims, Da1, DKi. apply filter_snoc_in. now apply mem_In. }
    assert (Wci1 : wf ci1) by (apply permute_wf, NoDup_filter, Wa1).
    assert (Ici1 : incl (dims ci) (dims ci1)).
    { intros d Hd. unfold ci1. rewrite permute_dims. apply filter_In. rewrite mem_In. split; auto.
      apply Sa1. now apply Hci. }
    assert (Lci1 : forall env, look ci1 env = look ci env) by (intro; now apply permute_look).
    assert (Sci1 : forall d, In d (dims ci) -> size ci1 d = size ci d).
    { intros d Hd. apply permute_size. apply Ici1 in Hd. exact Hd. }
    rewrite Da1, Dco1, !removelast_last.
    (* sizes *)
    assert (Sa1' : forall d, In d Ka -> size a1 d = size a d).
    { intros d Hd. apply HKa in Hd. apply in_others in Hd. now apply Sa1. }
    assert (Sco1' : forall d, In d Ko -> size co1 d = size co d).
    { intros d Hd. apply HKo in Hd. apply in_others in Hd. now apply Sco1. }
    assert (d1Ka : ~ In dim1 Ka) by (rewrite HKa; apply dim1_A0).
    assert (d0Ko : ~ In dim0 Ko) by (rewrite HKo; apply dim0_C).
    (* data *)
    set (a2 := if subset_strict Ka Ko then broadcast_like a1 co1 [dim0; dim1] else a1).
    set (ci2 := if 1 <? List.length (Ko ++ [dim1]) then broadcast_like ci1 co1 [dim0; dim1] else ci1).
    assert (Hlen : (1 <? List.length (Ko ++ [dim1])) = false /\ Ko = [] \/
                   (1 <? List.length (Ko ++ [dim1])) = true /\ Ko <> []).
    { clear. destruct Ko as [|k l]; simpl; auto. right. rewrite app_length. simpl.
      destruct (Datatypes.length l + 1) eqn:E; [lia|]. split; [reflexivity|discriminate]. }
    destruct (broadcast_facts ci1 co1 Ki Ko dim0 dim1 dim0 dim1 Wci1 Wco1 Dci1 Dco1) as (Bi1 & Bi2 & Bi3 & Bi4 & Bi5); auto.
    { rewrite HKi. intros [H _]. now apply dim1_A0 in H. }
    { intros d H1 H2. rewrite Sci1 by (apply HKi in H1; tauto). rewrite Sco1' by auto.
      apply HKi in H1. rewrite Hcis by tauto. apply Hsz; [tauto|]. now apply HKo. }
    cbn zeta in Bi1, Bi2, Bi3, Bi4, Bi5.
    (* the two cases *)
    assert (Hcase : (incl A0 C) \/ (~ incl A0 C /\ incl C A0)).
    { destruct (subset A0 C) eqn:E; [left; now apply subset_incl|].
      right. assert (Hn : ~ incl A0 C) by (rewrite <- subset_incl; congruence). tauto. }
    destruct Hcase as [HAC|[HnAC HCA]].
    - (* the output coordinate has all the other dimensions *)
      assert (Ec : Ka = c).
      { rewrite DKa. rewrite minus_nil; auto. intros d Hd. rewrite in_app_iff, Hc. simpl.
        destruct (string_dec dim0 d) as [->|Hne]; auto. left.
        assert (In d A0) by (apply in_others; auto). auto. }
      assert (HKao : exists p, Ko = (p ++ Ka)%list) by (rewrite Ec; rewrite DKo; eauto).
      assert (Ha2 : wf a2 /\ dims a2 = (Ko ++ [dim0])%list /\ (forall env, look a2 env = look a env) /\
        (forall d, In d A0 -> size a2 d = size a d) /\ (forall d, In d C -> size a2 d = size co d) /\
        size a2 dim0 = size a dim0).
      { unfold a2. destruct (subset_strict Ka Ko) eqn:Es.
        - destruct (broadcast_facts a1 co1 Ka Ko dim0 dim1 dim0 dim1 Wa1 Wco1 Da1 Dco1) as (B1 & B2 & B3 & B4 & B5); auto.
          { intros d H1 H2. rewrite Sa1', Sco1' by auto. apply Hsz; [now apply HKa|now apply HKo]. }
          cbn zeta in *. split; auto. split.
          + rewrite B2. rewrite minus_nil; auto. intros d Hd. apply HKo, HAC, HKa, Hd.
          + split; [intro; rewrite B3; apply La1|]. split; [|split].
            * intros d Hd. apply in_others in Hd. destruct (Sa1 d) as [S1 S2]; [tauto|].
              rewrite B4; auto.
            * intros d Hd. apply HKo in Hd. rewrite B5 by auto. now apply Sco1'.
            * destruct (Sa1 dim0 Ha0) as [S1 S2]. rewrite B4; auto.
        - assert (HKoa : incl Ko Ka).
          { destruct (subset Ko Ka) eqn:E; [now apply subset_incl in E|].
            exfalso. assert (subset_strict Ka Ko = true); [|congruence].
            apply subset_strict_ok. split; [intros d Hd; apply HKo, HAC, HKa, Hd|].
            rewrite <- subset_incl. congruence. }
          assert (E : Ko = Ka).
          { destruct HKao as [p Hp]. destruct p as [|x p]; auto. exfalso.
            assert (In x Ka) by (apply HKoa; rewrite Hp; simpl; auto).
            rewrite Hp in NKo. cbn [app] in NKo. apply NoDup_cons_iff in NKo. apply (proj1 NKo).
            apply in_or_app. auto. }
          split; auto. split; [congruence|]. split; [exact La1|].
          assert (HS : forall d, In d A0 -> size a1 d = size a d) by (intros; apply Sa1'; now apply HKa).
          split; auto. split; [|apply Sa1; auto].
          intros d Hd. assert (Hd' : In d A0) by (apply HKa, HKoa, HKo, Hd). rewrite HS by auto. now apply Hsz. }
      destruct Ha2 as (Wa2 & Da2 & La2 & SA2 & SC2 & S02).
      assert (Hci2 : wf ci2 /\ dims ci2 = (Ko ++ [dim0])%list /\ (forall env, look ci2 env = look ci env) /\
        (forall d, In d Ko -> size ci2 d = size co d) /\ size ci2 dim0 = size a dim0).
      { unfold ci2. destruct Hlen as [[-> EKo]|[-> EKo]].
        - rewrite EKo in *. split; auto. split; [|split; [exact Lci1|]].
          + rewrite Dci1. replace Ki with (@nil string); auto. destruct Ki as [|x Ki0] eqn:EKi; auto.
            exfalso. assert (H : In x (x :: Ki0)) by (simpl; auto). apply HKi in H.
            apply (HKo x). apply HAC. tauto.
          + split; [intros d []|]. rewrite Sci1 by auto. now apply Hcis.
        - split; auto. split; [|split; [|split]].
          + rewrite Bi2, minus_nil; auto. intros d Hd. apply HKo, HAC. apply HKi in Hd. tauto.
          + intro. rewrite Bi3. apply Lci1.
          + intros d Hd. rewrite Bi5 by auto. now apply Sco1'.
          + rewrite Bi4; [rewrite Sci1 by auto; now apply Hcis|]. now apply Ici1. }
      destruct Hci2 as (Wci2 & Dci2 & Lci2 & Sci2 & S0ci2).
      set (co2 := if (1 <? List.length (Ko ++ [dim1])) && subset_strict Ko (removelast (dims ci2))
                  then broadcast_like co1 ci2 [dim0; dim1] else co1).
      assert (Eco2 : co2 = co1).
      { unfold co2. rewrite Dci2, removelast_last.
        replace (subset_strict Ko Ko) with false; [now rewrite andb_false_r|].
        symmetry. destruct (subset_strict Ko Ko) eqn:E; auto. apply subset_strict_ok in E.
        destruct E as [_ E]. exfalso. apply E, incl_refl. }
      eexists. exists Ko, Ko, Ko. split; [reflexivity|]. unfold flat_ok.
      cbn [fa fci fco fcoord work_dims work_shape final_dims].
      fold co2. rewrite Eco2. rewrite Da2, removelast_last.
      do 9 (split; [solve [auto]|]).
      split; [exists []; reflexivity|]. split; [exists []; reflexivity|].
      split; [intro d; rewrite HKo; intuition|].
      split; auto. split; auto.
      assert (X : forall d, In d Ko -> size a2 d = size co d) by (intros; apply SC2; now apply HKo).
      split; [intros d Hd; rewrite Sci2, X; auto|]. split; [intros d Hd; rewrite Sco1', X; auto|].
      split; auto. split; auto. split; [apply Sco1; auto|]. split; [reflexivity|]. split; [|split; [reflexivity|exact Ecrd]].
      rewrite (wf_shape a2 Wa2), Da2, map_app. cbn [map]. rewrite removelast_last. f_equal. f_equal. now apply Sco1.
    - (* the output coordinate has less *)
      assert (Ec : Ko = c).
      { rewrite DKo. rewrite minus_nil; auto. intros d Hd. rewrite in_app_iff, Hc. simpl.
        destruct (string_dec dim1 d) as [->|Hne]; auto. left.
        assert (In d C) by (apply in_others; auto). auto. }
      assert (Ea2 : a2 = a1).
      { unfold a2. destruct (subset_strict Ka Ko) eqn:E; auto. apply subset_strict_ok in E.
        exfalso. apply HnAC. intros d Hd. apply HKo, (proj1 E), HKa, Hd. }
      assert (Hsuf : exists p, Ka = (p ++ Ko)%list) by (rewrite Ec; rewrite DKa; eauto).
      assert (Hci2 : exists Li, (exists p, Ka = (p ++ Li)%list) /\ incl Li A0 /\
        wf ci2 /\ dims ci2 = (Li ++ [dim0])%list /\ (forall env, look ci2 env = look ci env) /\
        (forall d, In d Li -> size ci2 d = size a d) /\ size ci2 dim0 = size a dim0 /\
        ((1 <? List.length (Ko ++ [dim1])) && subset_strict Ko Li = false)).
      { unfold ci2. destruct Hlen as [[-> EKo]|[-> EKo]].
        - rewrite EKo in *. cbn [andb]. exists Ki. split; [|split; [|split; [|split; [|split; [|split; [|split]]]]]]; auto.
          + assert (EKa : Ka = A0).
            { rewrite DKa. rewrite <- Ec, app_nil_r. cbn [app]. unfold minus, others.
              apply filter_ext. intro d. simpl. now rewrite orb_false_r. }
            rewrite DKi. rewrite EKa. destruct Hal as [H|[_ H]]; auto.
            exists A0. symmetry. replace I with (@nil string); [apply app_nil_r|].
            destruct I as [|x l] eqn:E; auto. exfalso. apply (HKo x), H. simpl. auto.
          + intros d Hd. apply HKi in Hd. tauto.
          + intros d Hd. apply HKi in Hd. rewrite Sci1 by tauto. apply Hcis. tauto.
          + rewrite Sci1 by auto. now apply Hcis.
        - cbn [andb]. exists Ko.
          assert (HI : incl Ki Ko).
          { destruct Hal as [H|[H _]].
            - intros d Hd. apply HKo, H. apply filter_In. rewrite mem_In. now apply HKi in Hd.
            - exfalso. apply EKo. destruct Ko as [|k l]; auto. exfalso.
              assert (Hk : In k C) by (apply HKo; simpl; auto). rewrite H in Hk. destruct Hk. }
          split; auto. split; [intros d Hd; apply HCA, HKo, Hd|]. split; auto.
          split; [rewrite Bi2, minus_nil; auto|]. split; [intro; rewrite Bi3; apply Lci1|]. split; [|split].
          + intros d Hd. rewrite Bi5, Sco1' by auto. symmetry. apply Hsz; [apply HCA|]; now apply HKo.
          + rewrite Bi4; [rewrite Sci1 by auto; now apply Hcis|]. now apply Ici1.
          + destruct (subset_strict Ko Ko) eqn:E; auto. apply subset_strict_ok in E.
            destruct E as [_ E]. exfalso. apply E, incl_refl. }
      destruct Hci2 as (Li & HpLi & HLiA & Wci2 & Dci2 & Lci2 & Sci2 & S0ci2 & Hstr).
      rewrite Dci2, removelast_last. fold ci2. rewrite Hstr. fold a2. rewrite Ea2, Da1, removelast_last.
      eexists. exists Ka, Li, Ko. split; [reflexivity|]. unfold flat_ok.
      cbn [fa fci fco fcoord work_dims work_shape final_dims].
      do 11 (split; [solve [auto]|]).
      split; [intro d; rewrite HKa; intuition|].
      assert (X : forall d, In d A0 -> size a1 d = size a d) by (intros; apply Sa1'; now apply HKa).
      split; auto. split; [intros d Hd; rewrite X by auto; now apply Hsz; auto|].
      split; [intros d Hd; rewrite Sci2, X; auto|].
      split; [intros d Hd; rewrite Sco1' by auto; rewrite X by (apply HCA, HKo, Hd); symmetry; apply Hsz; [apply HCA|]; now apply HKo|].
      split; [now apply Sa1|]. split; auto. split; [now apply Sco1|]. split; [reflexivity|].
      split; [|split; [reflexivity|exact Ecrd]].
      rewrite (wf_shape a1 Wa1), Da1, map_app. cbn [map]. rewrite removelast_last. f_equal. f_equal. now apply Sco1.
  Qed.
End Flush.
