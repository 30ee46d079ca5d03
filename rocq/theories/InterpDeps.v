(** Row dependence of the parallel kernels (C06). *)
From Verif Require Export CellaveProofs.
Open Scope nat_scope.

Lemma for_each_seq_inv {S} a n (body : nat -> S -> ctl S) (I : nat -> S -> Prop) s r :
  I a s ->
  (forall k s', a <= k < a + n -> I k s' ->
     match body k s' with Next s2 => I (1 + k) s2 | Break s2 => False | Fail _ => True end) ->
  for_each (seq a n) body s = Ok r -> I (a + n) r.
Proof.
  revert a s; induction n as [|n IH]; simpl; intros a s Hs Hb Hr.
  - inversion Hr; subst. now rewrite Nat.add_0_r.
  - pose proof (Hb a s ltac:(lia) Hs) as H.
    destruct (body a s) as [s2|s2|e]; [|contradiction|discriminate].
    replace (a + Datatypes.S n) with (Datatypes.S a + n) by lia.
    apply IH with (s := s2); auto. intros k s' Hk. apply Hb. lia.
Qed.

(** A row of the output of a kernel is the row function applied to the rows of
    the arguments of index modulo their number of rows. *)
Lemma rows_kernel_row row vari yi yo nxi nxiy nxo nyi nyo out :
  shape vari nxi nyi -> shape yi nxiy nyi -> shape yo nxo nyo ->
  0 < nxi -> 0 < nxiy -> 0 < nxo ->
  rows_kernel row vari yi yo (seq_order vari yo) = Ok out ->
  List.length out = Nat.max nxi nxo /\
  forall ix ryi ryo, ix < Nat.max nxi nxo ->
    nth_error yi (ix mod nxiy) = Some ryi -> nth_error yo (ix mod nxo) = Some ryo ->
    exists r, nth_error out ix = Some r /\
      row (Z.of_nat ix) (Z.of_nat (ix mod nxi)) ryi ryo (List.repeat nan nyo) = Ok r.
Proof.
  intros Hv Hyi Hyo Hnxi Hnxiy Hnxo Hout.
  set (nx := Nat.max nxi nxo) in *.
  unfold rows_kernel in Hout. rewrite (shape_ncols yo nxo nyo) in Hout by auto.
  rewrite (nrows_shape _ _ _ Hv), (nrows_shape _ _ _ Hyi), (nrows_shape _ _ _ Hyo) in Hout.
  replace (Z.max (Z.of_nat nxi) (Z.of_nat nxo)) with (Z.of_nat nx) in Hout by lia.
  assert (Eo : seq_order vari yo = map Z.of_nat (seq 0 nx)).
  { rewrite seq_order_nat. destruct Hv as [-> _], Hyo as [-> _]. reflexivity. }
  rewrite Eo, for_each_map in Hout.
  apply for_each_seq_inv with (I := fun k varo =>
     List.length varo = nx /\
     forall ix, ix < nx ->
       if ix <? k then forall ryi ryo,
         nth_error yi (ix mod nxiy) = Some ryi -> nth_error yo (ix mod nxo) = Some ryo ->
         exists r, nth_error varo ix = Some r /\
           row (Z.of_nat ix) (Z.of_nat (ix mod nxi)) ryi ryo (List.repeat nan nyo) = Ok r
       else nth_error varo ix = Some (List.repeat nan nyo)) in Hout.
  - destruct Hout as [Hl Hr]. split; auto. intros ix ryi ryo Hix.
    specialize (Hr ix Hix). replace (ix <? 0 + nx) with true in Hr
      by (symmetry; apply Nat.ltb_lt; lia). apply Hr.
  - split; [apply length_full2|]. intros ix Hix. now apply nth_error_full2.
  - intros k varo Hk [Hl Hinv].
    rewrite !row_index_ok by auto. cbn [bindc].
    destruct (shape_get yi nxiy nyi (k mod nxiy)) as [ryi Eyi]; auto.
    { apply Nat.mod_upper_bound; lia. }
    destruct (shape_get yo nxo nyo (k mod nxo)) as [ryo Eyo]; auto.
    { apply Nat.mod_upper_bound; lia. }
    rewrite (pyget_nat yi _ _ Eyi), (pyget_nat yo _ _ Eyo). cbn [bindc].
    pose proof (Hinv k ltac:(lia)) as Hk0. rewrite Nat.ltb_irrefl in Hk0.
    rewrite (pyget_nat varo _ _ Hk0). cbn [bindc].
    destruct (row _ _ ryi ryo _) as [r|e] eqn:Er; cbn [bindc]; [|exact I].
    rewrite pyset_nat by lia. cbn [next_of].
    split; [now rewrite upd_length|].
    intros ix Hix. rewrite nth_error_upd by lia.
    destruct (Nat.eqb_spec ix k) as [->|Hne].
    + replace (k <? 1 + k) with true by (symmetry; apply Nat.ltb_lt; lia).
      intros ryi' ryo' E1 E2. rewrite Eyi in E1. rewrite Eyo in E2.
      inversion E1; inversion E2; subst. eauto.
    + replace (ix <? 1 + k) with (ix <? k)
        by (destruct (Nat.ltb_spec ix k), (Nat.ltb_spec ix (1 + k)); auto; lia).
      now apply Hinv.
Qed.

Section Dep.
  Variables (vari yi yo vari' yi' yo' : arr) (nxi nxiy nxo nyi nyo nxi' nxiy' nxo' nyi' : nat).
  Hypotheses (S1 : shape vari nxi nyi) (S2 : shape yi nxiy nyi) (S3 : shape yo nxo nyo).
  Hypotheses (S1' : shape vari' nxi' nyi') (S2' : shape yi' nxiy' nyi') (S3' : shape yo' nxo' nyo).
  Hypotheses (P1 : 0 < nxi) (P2 : 0 < nxiy) (P3 : 0 < nxo).
  Hypotheses (P1' : 0 < nxi') (P2' : 0 < nxiy') (P3' : 0 < nxo').
  Variables (ix ix' : nat).
  Hypotheses (Hix : ix < Nat.max nxi nxo) (Hix' : ix' < Nat.max nxi' nxo').
  Hypothesis Ey : nth_error yi (ix mod nxiy) = nth_error yi' (ix' mod nxiy').
  Hypothesis Eo : nth_error yo (ix mod nxo) = nth_error yo' (ix' mod nxo').

  Lemma rows_kernel_dep row row' out out' :
    (forall ryi ryo ro, row (Z.of_nat ix) (Z.of_nat (ix mod nxi)) ryi ryo ro
                      = row' (Z.of_nat ix') (Z.of_nat (ix' mod nxi')) ryi ryo ro) ->
    rows_kernel row vari yi yo (seq_order vari yo) = Ok out ->
    rows_kernel row' vari' yi' yo' (seq_order vari' yo') = Ok out' ->
    nth_error out ix = nth_error out' ix'.
  Proof.
    intros Hrow H H'.
    destruct (rows_kernel_row row vari yi yo nxi nxiy nxo nyi nyo out) as [_ HR]; auto.
    destruct (rows_kernel_row row' vari' yi' yo' nxi' nxiy' nxo' nyi' nyo out') as [_ HR']; auto.
    destruct (shape_get yi nxiy nyi (ix mod nxiy)) as [ryi Eyi]; auto.
    { apply Nat.mod_upper_bound; lia. }
    destruct (shape_get yo nxo nyo (ix mod nxo)) as [ryo Eyo]; auto.
    { apply Nat.mod_upper_bound; lia. }
    destruct (HR ix ryi ryo Hix Eyi Eyo) as (r & Hr & Hrw).
    destruct (HR' ix' ryi ryo Hix' ltac:(congruence) ltac:(congruence)) as (r' & Hr' & Hrw').
    rewrite Hrow, Hrw' in Hrw. inversion Hrw; subst. congruence.
  Qed.

  Hypothesis Ev : nth_error vari (ix mod nxi) = nth_error vari' (ix' mod nxi').

  Lemma row_arg : pyget vari (Z.of_nat (ix mod nxi)) = pyget vari' (Z.of_nat (ix' mod nxi')).
  Proof.
    destruct (shape_get vari nxi nyi (ix mod nxi)) as [v Hv]; auto.
    { apply Nat.mod_upper_bound; lia. }
    rewrite (pyget_nat vari _ _ Hv). rewrite Ev in Hv. now rewrite (pyget_nat vari' _ _ Hv).
  Qed.

  Lemma linear1d_dep out out' :
    linear1d vari yi yo = Ok out -> linear1d vari' yi' yo' = Ok out' ->
    nth_error out ix = nth_error out' ix'.
  Proof.
    unfold linear1d, linear1d_sched. intros H H'. eapply rows_kernel_dep; eauto.
    cbv beta. intros. now rewrite row_arg.
  Qed.
  Lemma nearest1d_dep out out' :
    nearest1d vari yi yo = Ok out -> nearest1d vari' yi' yo' = Ok out' ->
    nth_error out ix = nth_error out' ix'.
  Proof.
    unfold nearest1d, nearest1d_sched. intros H H'. eapply rows_kernel_dep; eauto.
    cbv beta. intros. now rewrite row_arg.
  Qed.

  (** cubic and hermit: only when there are as many data rows as output rows *)
  Hypotheses (Hle : nxo <= nxi) (Hle' : nxo' <= nxi').

  Lemma row_arg2 : pyget vari (Z.of_nat ix) = pyget vari' (Z.of_nat ix').
  Proof.
    pose proof row_arg as H. rewrite !Nat.mod_small in H by lia. exact H.
  Qed.

  Lemma poly_row_dep poly ryi ryo ro :
    poly_row poly vari (Z.of_nat ix) (Z.of_nat (ix mod nxi)) ryi ryo ro =
    poly_row poly vari' (Z.of_nat ix') (Z.of_nat (ix' mod nxi')) ryi ryo ro.
  Proof.
    assert (G1 : forall k, get2 vari (Z.of_nat ix) k = get2 vari' (Z.of_nat ix') k).
    { intro k. unfold get2. now rewrite row_arg2. }
    assert (G2 : forall k, get2 vari (Z.of_nat (ix mod nxi)) k
                         = get2 vari' (Z.of_nat (ix' mod nxi')) k).
    { intro k. unfold get2. now rewrite row_arg. }
    unfold poly_row.
    destruct (get_iminmax ryi) as [[a b]|]; cbn [bind]; auto.
    destruct (get_iminmax ryo) as [[c d]|]; cbn [bind]; auto.
    f_equal. apply for_each_ext. intros iyi st _. unfold interval_step.
    destruct (pyget ryi (iyi + 1)); cbn [bindc]; auto.
    destruct (pyget ryo (fst st)); cbn [bindc]; auto.
    destruct (fltb _ _); auto.
    destruct (pyget ryi iyi); cbn [bindc]; auto.
    destruct (pyget ryo d); cbn [bindc]; auto.
    destruct (fltb _ _); auto. f_equal. apply for_each_ext.
    intros iyo [m o] _. unfold poly_step, outer_values.
    now rewrite !G1, !G2.
  Qed.

  Lemma cubic1d_dep out out' :
    cubic1d vari yi yo = Ok out -> cubic1d vari' yi' yo' = Ok out' ->
    nth_error out ix = nth_error out' ix'.
  Proof.
    unfold cubic1d, cubic1d_sched. intros H H'. eapply rows_kernel_dep; eauto.
    cbv beta. intros. apply poly_row_dep.
  Qed.
  Lemma hermit1d_dep bias tension out out' :
    hermit1d vari yi yo bias tension = Ok out -> hermit1d vari' yi' yo' bias tension = Ok out' ->
    nth_error out ix = nth_error out' ix'.
  Proof.
    unfold hermit1d, hermit1d_sched. intros H H'. eapply rows_kernel_dep; eauto.
    cbv beta. intros. apply poly_row_dep.
  Qed.
End Dep.

(** ** Lifting row results to arrays *)
Section Lift.
  Variables (vari yi yo : arr) (nxi nxiy nxo nyi nyo : nat).
  Hypotheses (S1 : shape vari nxi nyi) (S2 : shape yi nxiy nyi) (S3 : shape yo nxo nyo).
  Hypotheses (P1 : 0 < nxi) (P2 : 0 < nxiy) (P3 : 0 < nxo).

  Lemma rows_kernel_lift row (R : list fl -> list fl -> list fl -> list fl -> Prop) :
    (forall ix v ryi ryo, ix < Nat.max nxi nxo ->
       nth_error vari (ix mod nxi) = Some v ->
       nth_error yi (ix mod nxiy) = Some ryi -> nth_error yo (ix mod nxo) = Some ryo ->
       exists r, row (Z.of_nat ix) (Z.of_nat (ix mod nxi)) ryi ryo
                   (List.repeat nan (List.length ryo)) = Ok r
                 /\ List.length r = List.length ryo /\ R v ryi ryo r) ->
    exists out, rows_kernel row vari yi yo (seq_order vari yo) = Ok out /\
      shape out (Nat.max nxi nxo) nyo /\ rows_ok R vari yi yo out.
  Proof.
    intro Hrow.
    destruct (rows_kernel_ok row vari yi yo nxi nxiy nxo nyi nyo
      (fun ix r => forall v ryi ryo, nth_error vari (ix mod nxi) = Some v ->
         nth_error yi (ix mod nxiy) = Some ryi -> nth_error yo (ix mod nxo) = Some ryo ->
         R v ryi ryo r)) as (out & Ho & Hs & HP); auto.
    { intros ix ryi ryo Hix Eyi Eyo.
      destruct (shape_get vari nxi nyi (ix mod nxi)) as [v Ev]; auto.
      { apply Nat.mod_upper_bound; lia. }
      destruct (Hrow ix v ryi ryo Hix Ev Eyi Eyo) as (r & Er & Hl & HR).
      pose proof (shape_row _ _ _ _ _ S3 Eyo) as Ll. rewrite Ll in *.
      exists r. repeat split; auto. intros v' ryi' ryo' E1 E2 E3.
      assert (v' = v) as -> by congruence. assert (ryi' = ryi) as -> by congruence.
      assert (ryo' = ryo) as -> by congruence. exact HR. }
    exists out. repeat split; auto; try apply Hs.
    intros ix v ryi ryo r. destruct S1 as [-> _], S2 as [-> _], S3 as [-> _].
    intros Ev Eyi Eyo Er. eapply HP; eauto.
  Qed.

  Hypothesis P4 : 0 < nyo.

  Lemma linear1d_correct :
    Forall increasing yi -> Forall nondecreasing yo ->
    exists out, linear1d vari yi yo = Ok out /\ shape out (Nat.max nxi nxo) nyo /\
      rows_ok linear_row_spec vari yi yo out.
  Proof.
    intros Hi Ho. rewrite Forall_forall in Hi, Ho.
    apply rows_kernel_lift. intros ix v ryi ryo Hix Ev Eyi Eyo.
    pose proof (shape_row _ _ _ _ _ S1 Ev). pose proof (shape_row _ _ _ _ _ S2 Eyi).
    pose proof (shape_row _ _ _ _ _ S3 Eyo).
    rewrite (pyget_nat vari _ _ Ev). cbn [bind].
    destruct (linear_row_correct v ryi ryo) as (r & Er & HR); auto; try lia.
    { apply Hi. eapply nth_error_In; eauto. }
    { apply Ho. eapply nth_error_In; eauto. }
    exists r. repeat split; auto; apply HR.
  Qed.

  Lemma nearest1d_correct :
    Forall increasing yi -> Forall nondecreasing yo -> Forall no_hole yi -> Forall no_hole yo ->
    Forall (fun r => exists k, valid r k) yo ->
    exists out, nearest1d vari yi yo = Ok out /\ shape out (Nat.max nxi nxo) nyo /\
      rows_ok nearest_row_spec vari yi yo out.
  Proof.
    intros Hi Ho Hhi Hho Hex. rewrite Forall_forall in Hi, Ho, Hhi, Hho, Hex.
    apply rows_kernel_lift. intros ix v ryi ryo Hix Ev Eyi Eyo.
    pose proof (shape_row _ _ _ _ _ S1 Ev). pose proof (shape_row _ _ _ _ _ S2 Eyi).
    pose proof (shape_row _ _ _ _ _ S3 Eyo).
    pose proof (nth_error_In _ _ Eyi). pose proof (nth_error_In _ _ Eyo).
    rewrite (pyget_nat vari _ _ Ev). cbn [bind].
    destruct (nearest_row_correct v ryi ryo) as (r & Er & HR); auto; try lia.
    exists r. repeat split; auto; apply HR.
  Qed.

  Lemma linear1d_safe order :
    (forall x, In x order -> (0 <= x < Z.of_nat (Nat.max nxi nxo))%Z) ->
    linear1d_sched vari yi yo order <> Raise IndexError.
  Proof.
    intro Hin. eapply rows_kernel_safe; eauto.
    intros ix ixi ryi ryo ro Hixi L1 L2 L3.
    destruct (shape_get vari nxi nyi ixi) as [v Ev]; auto.
    rewrite (pyget_nat vari _ _ Ev). cbn [bind].
    pose proof (shape_row _ _ _ _ _ S1 Ev). subst nyo. apply linear_row_safe; lia.
  Qed.
  Lemma nearest1d_safe order :
    (forall x, In x order -> (0 <= x < Z.of_nat (Nat.max nxi nxo))%Z) ->
    nearest1d_sched vari yi yo order <> Raise IndexError.
  Proof.
    intro Hin. eapply rows_kernel_safe; eauto.
    intros ix ixi ryi ryo ro Hixi L1 L2 L3.
    destruct (shape_get vari nxi nyi ixi) as [v Ev]; auto.
    rewrite (pyget_nat vari _ _ Ev). cbn [bind].
    pose proof (shape_row _ _ _ _ _ S1 Ev). subst nyo. apply nearest_row_safe; lia.
  Qed.

  Hypothesis Hle : nxo <= nxi.

  Lemma poly1d_correct poly :
    interpolating poly ->
    Forall increasing yi -> Forall increasing yo -> Forall all_valid vari ->
    exists out, rows_kernel (fun ix ixi => poly_row poly vari ix ixi) vari yi yo
                  (seq_order vari yo) = Ok out /\ shape out nxi nyo /\
      rows_ok nodes_row_spec vari yi yo out.
  Proof.
    intros Hp Hi Ho Hv. rewrite Forall_forall in Hi, Ho, Hv.
    replace nxi with (Nat.max nxi nxo) by lia.
    apply rows_kernel_lift. intros ix v ryi ryo Hix Ev Eyi Eyo.
    pose proof (shape_row _ _ _ _ _ S1 Ev). pose proof (shape_row _ _ _ _ _ S2 Eyi).
    pose proof (shape_row _ _ _ _ _ S3 Eyo).
    pose proof (nth_error_In _ _ Eyi). pose proof (nth_error_In _ _ Eyo).
    pose proof (nth_error_In _ _ Ev).
    rewrite Nat.mod_small in * by lia.
    destruct (poly_row_correct poly vari (Z.of_nat ix) v ryi ryo) as (r & Er & HR); auto; try lia.
    { now apply pyget_nat. }
    exists r. repeat split; auto; apply HR.
  Qed.

  Lemma poly1d_affine poly :
    interpolating poly -> affine_exact poly ->
    Forall increasing yi -> Forall increasing yo -> Forall all_valid vari -> Forall all_valid yi ->
    exists out, rows_kernel (fun ix ixi => poly_row poly vari ix ixi) vari yi yo
                  (seq_order vari yo) = Ok out /\ shape out nxi nyo /\
      rows_ok (fun v ryi ryo r => forall y0 h al be, regular ryi y0 h ->
        (forall i a p, val ryi i a -> val v i p -> (p == al * a + be)%Q) ->
        forall j y, val ryo j y -> (exists i, in_cell ryi i y) ->
          exists x, val r j x /\ (x == al * y + be)%Q) vari yi yo out.
  Proof.
    intros Hp Ha Hi Ho Hv Hyv. rewrite Forall_forall in Hi, Ho, Hv, Hyv.
    replace nxi with (Nat.max nxi nxo) by lia.
    apply rows_kernel_lift. intros ix v ryi ryo Hix Ev Eyi Eyo.
    pose proof (shape_row _ _ _ _ _ S1 Ev). pose proof (shape_row _ _ _ _ _ S2 Eyi).
    pose proof (shape_row _ _ _ _ _ S3 Eyo).
    pose proof (nth_error_In _ _ Eyi). pose proof (nth_error_In _ _ Eyo).
    pose proof (nth_error_In _ _ Ev).
    rewrite Nat.mod_small in * by lia.
    destruct (poly_row_correct poly vari (Z.of_nat ix) v ryi ryo) as (r & Er & HR); auto; try lia.
    { now apply pyget_nat. }
    exists r. repeat split; auto; [apply HR|].
    intros y0 h al be Hreg Haff j y Hy Hc.
    eapply (poly_row_affine poly vari (Z.of_nat ix) v ryi ryo); eauto; try lia.
    now apply pyget_nat.
  Qed.
End Lift.
