(** Row-level results for linear1d, nearest1d, cubic1d and hermit1d. *)
From Verif Require Export InterpProofs.
Open Scope nat_scope.

Definition touchb (yi yo : list fl) (i j : nat) : bool :=
  fleb f0 (fsub (yat yo j) (yat yi i)) && fleb f0 (fsub (yat yi (S i)) (yat yo j)).

Lemma touchb_vals yi yo i j : touchb yi yo i j = true <->
  exists a b y, val yi i a /\ val yi (S i) b /\ val yo j y /\ (a <= y <= b)%Q.
Proof.
  unfold touchb. split.
  - destruct (yat yo j) as [y|] eqn:E1; simpl; [|discriminate].
    destruct (yat yi i) as [a|] eqn:E2; simpl; [|discriminate].
    destruct (nth (S i) yi None) as [b|] eqn:E3; fold (yat yi (S i)) in E3;
      unfold yat at 1; change (nth (S i) yi None) with (yat yi (S i)); rewrite E3;
      simpl; [|rewrite andb_false_r; discriminate].
    rewrite andb_true_iff, !Qle_bool_iff. intros [H1 H2].
    exists a, b, y. rewrite <- !yat_val. repeat split; auto; lra.
  - intros (a & b & y & Ha & Hb & Hy & Hle). apply yat_val in Ha, Hb, Hy.
    rewrite Ha, Hb, Hy. simpl. rewrite andb_true_iff, !Qle_bool_iff. lra.
Qed.

Lemma touchb_cell yi yo i j : touchb yi yo i j = true <->
  exists y, val yo j y /\ in_cell yi i y.
Proof.
  rewrite touchb_vals. unfold in_cell. split.
  - intros (a & b & y & H); exists y; firstorder.
  - intros (y & Hy & a & b & H). exists a, b, y. tauto.
Qed.

(** If some step leaves the state unchanged at NaN output coordinates, an
    all-NaN output coordinate leaves everything unchanged. *)
Lemma scan_nan_yo step yi yo iyimin iyimax hi out0 :
  (forall k, ~ valid yo k) -> 0 < List.length yo ->
  (0 <= iyimin)%Z \/ (iyimax <= iyimin)%Z -> (iyimax < Z.of_nat (List.length yi))%Z ->
  (hi <= Z.of_nat (List.length yo))%Z ->
  (forall i j st, (0 <= i)%Z -> (i + 1 < Z.of_nat (List.length yi))%Z ->
      (-1 <= j < Z.of_nat (List.length yo))%Z -> step i j st = Next st) ->
  for_each (pyrange iyimin iyimax)
    (interval_step step yi yo (-1) hi) (-1, out0)%Z = Ok (-1, out0)%Z.
Proof.
  intros Hno Hpos Hi Him Hhi Hst.
  assert (Hy : exists x, pyget yo (-1)%Z = Ok x /\ x = None).
  { exists (yat yo (List.length yo - 1)). split; [now apply pyget_last|].
    destruct (yat yo (List.length yo - 1)) eqn:E; auto.
    exfalso. apply (Hno (List.length yo - 1)). exists q. now apply yat_val. }
  destruct Hy as (x & Hx & ->).
  destruct (for_each_ok (pyrange iyimin iyimax)
    (interval_step step yi yo (-1) hi) (fun st => st = (-1, out0)%Z) (-1, out0)%Z
    eq_refl) as (r & Hr & ->); [|exact Hr].
  intros i st Hin ->. apply in_pyrange in Hin.
  unfold interval_step. cbn [fst].
  destruct (pyget_ok yi (i + 1)) as [y1 Hy1]; [lia|].
  destruct (pyget_ok yi i) as [y0 Hy0]; [lia|].
  rewrite Hy1, Hy0, Hx. cbn [bindc].
  replace (fltb y1 None) with false by (destruct y1; reflexivity).
  cbn [fltb].
  destruct (for_each_ok (pyrange (-1) hi) (step i) (fun st => st = (-1, out0)%Z) (-1, out0)%Z
    eq_refl) as (r & Hr & ->).
  - intros j st Hj ->. apply in_pyrange in Hj. rewrite Hst; auto; lia.
  - rewrite Hr. reflexivity.
Qed.

(** ** linear *)
Definition linW (v yi yo : list fl) (i j : nat) : fl :=
  match fdiv (fadd (fmul (yat v i) (fsub (yat yi (S i)) (yat yo j)))
                   (fmul (yat v (S i)) (fsub (yat yo j) (yat yi i))))
             (fadd (fsub (yat yo j) (yat yi i)) (fsub (yat yi (S i)) (yat yo j))) with
  | Ok x => x | Raise _ => nan end.

Lemma fdiv_pos x q : (0 < q)%Q -> fdiv x (Some q) = Ok (match x with Some a => Some (a / q)%Q | None => None end).
Proof.
  intro H. unfold fdiv. replace (Qeq_bool q 0) with false; auto.
  symmetry. apply Qeq_bool_neq'. lra.
Qed.

Lemma linear_step_ok v yi yo i j m jmax out :
  increasing yi -> nondecreasing yo -> List.length v = List.length yi ->
  (forall k, valid yo k -> k <= jmax) -> valid yo jmax ->
  S i < List.length yi -> j < List.length yo -> m <= j ->
  List.length out = List.length yo ->
  fltb (yat yo jmax) (yat yi i) = false ->
  match linear_step v yi yo (Z.of_nat i) (Z.of_nat j) (Z.of_nat m, out) with
  | Fail _ => False
  | Break st => st = (Z.of_nat m, out) /\ above yi yo i j = true
  | Next (m2, out2) =>
    out2 = (if touchb yi yo i j then upd out j (linW v yi yo i j) else out) /\
    exists m', m2 = Z.of_nat m' /\
      (m' = m \/ (m <= m' /\ m' <= S j /\ m' <= jmax /\
                  forall i' j', i < i' -> j' < m' -> touchb yi yo i' j' = false))
  end.
Proof.
  intros Hinc Hnd Hlv Hjm Hjv Hi Hj Hmj Hlo Hnb.
  unfold linear_step.
  replace (Z.of_nat i + 1)%Z with (Z.of_nat (S i)) by lia.
  rewrite !pyget_yat by lia. cbn [bindc].
  fold (above yi yo i j). destruct (above yi yo i j) eqn:Ea; [auto|].
  fold (below yi yo i j). destruct (below yi yo i j) eqn:Eb.
  - assert (Ht : touchb yi yo i j = false).
    { destruct (touchb yi yo i j) eqn:Et; auto. apply touchb_vals in Et.
      destruct Et as (a & b & y & Ha & Hb & Hy & Hle). apply below_val in Eb.
      destruct Eb as (a' & y' & Ha' & Hy' & Hlt).
      pose proof (val_fun _ _ _ _ Ha Ha'). pose proof (val_fun _ _ _ _ Hy Hy'). subst. lra. }
    rewrite Ht. split; auto. exists (S j). split; [lia|]. right.
    apply below_val in Eb. destruct Eb as (a & y & Ha & Hy & Hlt).
    assert (Hjlt : j < jmax).
    { pose proof (Hjm j (ex_intro _ y Hy)).
      destruct (Nat.eq_dec j jmax) as [->|]; [|lia].
      exfalso. assert (fltb (yat yo jmax) (yat yi i) = true); [|congruence].
      apply fltb_val. exists y, a. auto. }
    repeat split; try lia.
    intros i' j' Hi' Hj'. destruct (touchb yi yo i' j') eqn:Et; auto. exfalso.
    apply touchb_vals in Et. destruct Et as (a' & b' & y' & Ha' & Hb' & Hy' & Hle).
    assert (y' <= y)%Q.
    { destruct (Nat.eq_dec j' j) as [->|].
      - pose proof (val_fun _ _ _ _ Hy Hy'); subst; lra.
      - apply (Hnd j' j); auto; lia. }
    assert (a < a')%Q by (apply (Hinc i i'); auto). lra.
  - fold (touchb yi yo i j). destruct (touchb yi yo i j) eqn:Et.
    + apply touchb_vals in Et. destruct Et as (a & b & y & Ha & Hb & Hy & Hle).
      assert (a < b)%Q by (apply (Hinc i (S i)); auto).
      unfold linW. apply yat_val in Ha, Hb, Hy. rewrite Ha, Hb, Hy. cbn [fsub fadd f2].
      rewrite fdiv_pos by lra. cbn [bindc].
      rewrite pyset_nat by lia. cbn [bindc]. split; auto. exists m; auto.
    + split; auto. exists m; auto.
Qed.

Lemma linear_row_best v yi yo out0 :
  increasing yi -> nondecreasing yo -> List.length v = List.length yi ->
  0 < List.length yo ->
  out0 = List.repeat nan (List.length yo) ->
  exists out, linear_row v yi yo out0 = Ok out /\ List.length out = List.length yo /\
    forall j, j < List.length yo ->
      nth_error out j = Some (best (touchb yi yo) (linW v yi yo) j (List.length yi)).
Proof.
  intros Hinc Hnd Hlv Hpos ->.
  assert (Hrep : forall j, j < List.length yo ->
            nth_error (List.repeat nan (List.length yo)) j = Some nan).
  { intros j Hj. now apply nth_error_repeat. }
  unfold linear_row.
  destruct (get_iminmax_ok yi) as ([imin imax] & -> & Hi).
  destruct (get_iminmax_ok yo) as ([jmin jmax] & -> & Hj). cbn [bind].
  destruct Hi as [[Hi Hno]|(a & b & Hi & Hva & Hvb & Hab)]; inversion Hi; subst; clear Hi.
  - (* no valid input coordinate *)
    change (pyrange (-1) (-1)) with (@nil Z). cbn [for_each bind snd].
    eexists; split; [reflexivity|]. split; [apply repeat_length|].
    intros j Hj'. rewrite Hrep by auto. f_equal. symmetry. apply best_none.
    intros i _. destruct (touchb yi yo i j) eqn:Et; auto. apply touchb_vals in Et.
    destruct Et as (x & _ & _ & Hx & _). exfalso. apply (Hno i). now exists x.
  - destruct Hj as [[Hj Hno]|(c & d & Hj & Hvc & Hvd & Hcd)]; inversion Hj; subst; clear Hj.
    + (* no valid output coordinate *)
      rewrite scan_nan_yo; auto; try lia.
      * cbn [bind snd]. eexists; split; [reflexivity|]. split; [apply repeat_length|].
        intros j Hj'. rewrite Hrep by auto. f_equal. symmetry. apply best_none.
        intros i _. destruct (touchb yi yo i j) eqn:Et; auto. apply touchb_vals in Et.
        destruct Et as (x & x' & y & _ & _ & Hy & _). exfalso. apply (Hno j). now exists y.
      * pose proof (valid_lt _ _ Hvb). lia.
      * intros i j [m out] Hi0 Hi1 Hjr. unfold linear_step.
        destruct (pyget_ok yo j) as [y Hy]; [lia|].
        destruct (pyget_ok yi i) as [y0 Hy0]; [lia|].
        destruct (pyget_ok yi (i + 1)) as [y1 Hy1]; [lia|].
        rewrite Hy, Hy0, Hy1. cbn [bindc].
        assert (y = None) as ->.
        { unfold pyget in Hy. destruct (pyidx (List.length yo) j) as [k|]; [|discriminate].
          destruct (nth_error yo k) as [[q|]|] eqn:E; inversion Hy; subst; auto.
          exfalso. apply (Hno k). now exists q. }
        replace (fsub y1 None) with (@None Q) by (destruct y1; reflexivity).
        reflexivity.
    + destruct (scan_ok yi yo (linear_step v yi yo) (touchb yi yo) (linW v yi yo)
                  a b c d (S d)) with (out0 := List.repeat nan (List.length yo))
        as (st & Hst & Hl & Hout); auto.
      * pose proof (valid_lt _ _ Hvd). lia.
      * intros i j Ht. apply touchb_vals in Ht. exact Ht.
      * intros i j m out Hi Hm Hmd Hj Hlo Hnb.
        pose proof (valid_lt _ _ Hvb). pose proof (valid_lt _ _ Hvd).
        apply linear_step_ok with (jmax := d); auto; try lia.
        intros k Hk. apply Hcd in Hk. lia.
      * apply repeat_length.
      * replace (Z.of_nat d + 1)%Z with (Z.of_nat (S d)) by lia.
        rewrite Hst. cbn [bind].
        eexists; split; [reflexivity|]. auto.
Qed.

(** Adjacent cells: if [y] is in cells [i] and [i'] with [i < i'], they are
    adjacent. *)
Lemma cells_adjacent yi i i' y :
  increasing yi -> in_cell yi i y -> in_cell yi i' y -> i < i' -> i' = S i.
Proof.
  intros Hinc (a & b & Ha & Hb & Hy) (a' & b' & Ha' & Hb' & Hy') Hlt.
  destruct (Nat.eq_dec i' (S i)) as [|Hne]; auto. exfalso.
  assert (b < a')%Q by (apply (Hinc (S i) i'); auto; lia). lra.
Qed.

Lemma in_cell_lt yi i y : in_cell yi i y -> S i < List.length yi.
Proof. intros (a & b & Ha & Hb & _). apply valid_lt. now exists b. Qed.


Lemma best_cell W yi yo i j y :
  increasing yi -> val yo j y -> in_cell yi i y -> ~ in_cell yi (S i) y ->
  best (touchb yi yo) W j (List.length yi) = W i j.
Proof.
  intros Hinc Hy Hc Hn. apply best_last.
  - apply in_cell_lt in Hc. lia.
  - apply touchb_cell. eauto.
  - intros i' Hi'. destruct (touchb yi yo i' j) eqn:Et; auto. exfalso.
    apply touchb_cell in Et. destruct Et as (y' & Hy' & Hc').
    pose proof (val_fun _ _ _ _ Hy Hy'); subst y'.
    assert (i' = S i) as -> by (eapply cells_adjacent; eauto; lia). contradiction.
Qed.

Lemma best_out W yi yo j :
  ~ (exists y i, val yo j y /\ in_cell yi i y) ->
  best (touchb yi yo) W j (List.length yi) = nan.
Proof.
  intro Hn. apply best_none. intros i _.
  destruct (touchb yi yo i j) eqn:Et; auto. exfalso. apply Hn.
  apply touchb_cell in Et. destruct Et as (y & Hy & Hc). eauto.
Qed.

Lemma linear_row_correct v yi yo :
  increasing yi -> nondecreasing yo -> List.length v = List.length yi ->
  0 < List.length yo ->
  exists out, linear_row v yi yo (List.repeat nan (List.length yo)) = Ok out /\
    linear_row_spec v yi yo out.
Proof.
  intros Hinc Hnd Hlv Hpos.
  destruct (linear_row_best v yi yo _ Hinc Hnd Hlv Hpos eq_refl) as (out & Ho & Hl & Hb).
  exists out. split; auto. split; [auto|]. split.
  - intros j y i a b u w Hy Ha Hb' Hle Hn Hu Hw.
    assert (Hc : in_cell yi i y) by (exists a, b; auto).
    eexists. split.
    + rewrite Hb; [|apply valid_lt; now exists y].
      rewrite (best_cell _ yi yo i j y) by auto. reflexivity.
    + assert (a < b)%Q by (apply (Hinc i (S i)); auto).
      unfold linW. rewrite (proj2 (yat_val yi i a) Ha), (proj2 (yat_val yi (S i) b) Hb'),
        (proj2 (yat_val yo j y) Hy).
      assert (Hyu : yat v i = u) by (unfold yat; now apply nth_error_nth).
      assert (Hyw : yat v (S i) = w) by (unfold yat; now apply nth_error_nth).
      rewrite Hyu, Hyw. cbn [fsub fadd f2]. rewrite fdiv_pos by lra.
      unfold lerp. destruct u as [u|], w as [w|]; simpl; auto.
      field. repeat split; intro Hx; lra.
  - intros j Hj Hn. rewrite Hb by auto. now rewrite best_out.
Qed.
