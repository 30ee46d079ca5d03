(** Row-level results for nearest1d, cubic1d and hermit1d; consequences for
    linear1d. *)
From Verif Require Export InterpRows.
From Coq Require Export Qabs Qminmax.
Open Scope nat_scope.

(** ** nearest *)
Definition nearW (v yi yo : list fl) (i j : nat) : fl :=
  if fleb (fsub (yat yo j) (yat yi i)) (fsub (yat yi (S i)) (yat yo j))
  then yat v i else yat v (S i).

Lemma not_above_below yi yo i j a b y :
  val yi i a -> val yi (S i) b -> val yo j y ->
  above yi yo i j = false -> below yi yo i j = false -> touchb yi yo i j = true.
Proof.
  intros Ha Hb Hy Hab Hbe. apply touchb_vals. exists a, b, y. repeat split; auto.
  - destruct (Qlt_le_dec y a) as [Hlt|]; auto. exfalso.
    assert (below yi yo i j = true); [|congruence]. apply below_val. eauto.
  - destruct (Qlt_le_dec b y) as [Hlt|]; auto. exfalso.
    assert (above yi yo i j = true); [|congruence]. apply above_val. eauto.
Qed.

Lemma nearest_step_ok v yi yo i j m jmax out :
  increasing yi -> nondecreasing yo -> List.length v = List.length yi ->
  (forall k, valid yo k -> k <= jmax) -> valid yo jmax ->
  valid yi i -> valid yi (S i) -> valid yo j -> m <= j ->
  List.length out = List.length yo ->
  fltb (yat yo jmax) (yat yi i) = false ->
  match nearest_step v yi yo (Z.of_nat i) (Z.of_nat j) (Z.of_nat m, out) with
  | Fail _ => False
  | Break st => st = (Z.of_nat m, out) /\ above yi yo i j = true
  | Next (m2, out2) =>
    out2 = (if touchb yi yo i j then upd out j (nearW v yi yo i j) else out) /\
    exists m', m2 = Z.of_nat m' /\
      (m' = m \/ (m <= m' /\ m' <= S j /\ m' <= jmax /\
                  forall i' j', i < i' -> j' < m' -> touchb yi yo i' j' = false))
  end.
Proof.
  intros Hinc Hnd Hlv Hjm Hjv [a Ha] [b Hb] [y Hy] Hmj Hlo Hnb.
  assert (Hi : S i < List.length yi) by (apply valid_lt; now exists b).
  assert (Hj : j < List.length yo) by (apply valid_lt; now exists y).
  pose proof (linear_step_ok v yi yo i j m jmax out Hinc Hnd Hlv Hjm Hjv Hi Hj Hmj Hlo Hnb) as HL.
  revert HL. unfold linear_step, nearest_step.
  replace (Z.of_nat i + 1)%Z with (Z.of_nat (S i)) by lia.
  rewrite !pyget_yat by lia. cbn [bindc].
  fold (above yi yo i j). destruct (above yi yo i j) eqn:Ea; [auto|].
  fold (below yi yo i j). destruct (below yi yo i j) eqn:Eb.
  - assert (Ht : touchb yi yo i j = false).
    { destruct (touchb yi yo i j) eqn:Et; auto. apply touchb_vals in Et.
      destruct Et as (a1 & b1 & y1 & Ha1 & Hb1 & Hy1 & Hle). apply below_val in Eb.
      destruct Eb as (a' & y' & Ha' & Hy' & Hlt).
      pose proof (val_fun _ _ _ _ Ha1 Ha'). pose proof (val_fun _ _ _ _ Hy1 Hy'). subst. lra. }
    rewrite !Ht. auto.
  - intros _. rewrite (not_above_below yi yo i j a b y) by auto.
    unfold nearW.
    destruct (fleb (fsub (yat yo j) (yat yi i)) (fsub (yat yi (S i)) (yat yo j))).
    + rewrite pyset_nat by lia. cbn [bindc]. split; auto. exists m; auto.
    + rewrite pyset_nat by lia. cbn [bindc]. split; auto. exists m; auto.
Qed.

Lemma nearest_row_best v yi yo :
  increasing yi -> nondecreasing yo -> no_hole yi -> no_hole yo ->
  List.length v = List.length yi -> (exists k, valid yo k) ->
  exists out, nearest_row v yi yo (List.repeat nan (List.length yo)) = Ok out /\
    List.length out = List.length yo /\
    forall j, j < List.length yo ->
      nth_error out j = Some (best (touchb yi yo) (nearW v yi yo) j (List.length yi)).
Proof.
  intros Hinc Hnd Hhi Hho Hlv [k0 Hk0].
  assert (Hrep : forall j, j < List.length yo ->
            nth_error (List.repeat nan (List.length yo)) j = Some nan).
  { intros j Hj. now apply nth_error_repeat. }
  unfold nearest_row.
  destruct (get_iminmax_ok yi) as ([imin imax] & -> & Hi).
  destruct (get_iminmax_ok yo) as ([jmin jmax] & -> & Hj). cbn [bind].
  destruct Hi as [[Hi Hno]|(a & b & Hi & Hva & Hvb & Hab)]; inversion Hi; subst; clear Hi.
  - change (pyrange (-1) (-1)) with (@nil Z). cbn [for_each bind snd].
    eexists; split; [reflexivity|]. split; [apply repeat_length|].
    intros j Hj'. rewrite Hrep by auto. f_equal. symmetry. apply best_none.
    intros i _. destruct (touchb yi yo i j) eqn:Et; auto. apply touchb_vals in Et.
    destruct Et as (x & _ & _ & Hx & _). exfalso. apply (Hno i). now exists x.
  - destruct Hj as [[Hj Hno]|(c & d & Hj & Hvc & Hvd & Hcd)]; inversion Hj; subst; clear Hj.
    + exfalso. now apply (Hno k0).
    + destruct (scan_ok yi yo (nearest_step v yi yo) (touchb yi yo) (nearW v yi yo)
                  a b c d (S d)) with (out0 := List.repeat nan (List.length yo))
        as (st & Hst & Hl & Hout); auto.
      * pose proof (valid_lt _ _ Hvd). lia.
      * intros i j Ht. apply touchb_vals in Ht. exact Ht.
      * intros i j m out Hi Hm Hmd Hj Hlo Hnb.
        apply nearest_step_ok with (jmax := d); auto; try lia.
        -- intros k Hk. apply Hcd in Hk. lia.
        -- apply (Hhi a b); auto; lia.
        -- apply (Hhi a b); auto; lia.
        -- apply (Hho c d); auto; lia.
      * apply repeat_length.
      * replace (Z.of_nat d + 1)%Z with (Z.of_nat (S d)) by lia.
        rewrite Hst. cbn [bind].
        eexists; split; [reflexivity|]. auto.
Qed.



Lemma increasing_le yi i j a b :
  increasing yi -> i <= j -> val yi i a -> val yi j b -> (a <= b)%Q.
Proof.
  intros Hinc Hle Ha Hb. destruct (Nat.eq_dec i j) as [->|].
  - pose proof (val_fun _ _ _ _ Ha Hb); subst; lra.
  - apply Qlt_le_weak. apply (Hinc i j); auto; lia.
Qed.

Ltac qabs_cases :=
  repeat match goal with
  | |- context [Qabs ?x] => let H := fresh "Habs" in let E := fresh "Eabs" in
       pose proof (Qabs_case x (fun r => (r == x /\ 0 <= x) \/ (r == -x /\ x <= 0))%Q) as H;
       destruct H as [[E H]|[E H]];
       [intro; left; split; [reflexivity|assumption]
       |intro; right; split; [reflexivity|assumption]
       |rewrite E; clear E|rewrite E; clear E]
  end.

Lemma nearest_row_correct v yi yo :
  increasing yi -> nondecreasing yo -> no_hole yi -> no_hole yo ->
  List.length v = List.length yi -> (exists k, valid yo k) ->
  exists out, nearest_row v yi yo (List.repeat nan (List.length yo)) = Ok out /\
    nearest_row_spec v yi yo out.
Proof.
  intros Hinc Hnd Hhi Hho Hlv Hex.
  destruct (nearest_row_best v yi yo Hinc Hnd Hhi Hho Hlv Hex) as (out & Ho & Hl & Hb).
  exists out. split; auto. split; [auto|]. split.
  - intros j y Hy [i0 Hc0].
    assert (exists i, in_cell yi i y /\ ~ in_cell yi (S i) y) as (i & Hc & Hn).
    { destruct (touchb yi yo (S i0) j) eqn:Et.
      - apply touchb_cell in Et. destruct Et as (y' & Hy' & Hc').
        pose proof (val_fun _ _ _ _ Hy Hy'); subst y'.
        exists (S i0). split; auto. intro H2.
        assert (S (S i0) = S i0) by (eapply cells_adjacent; eauto). lia.
      - exists i0. split; auto. intro H. assert (touchb yi yo (S i0) j = true); [|congruence].
        apply touchb_cell. eauto. }
    destruct Hc as (a & b & Ha & Hb' & Hle).
    assert (Hab : (a < b)%Q) by (apply (Hinc i (S i)); auto).
    assert (Hil : S i < List.length yi) by (apply valid_lt; now exists b).
    rewrite Hb by (apply valid_lt; now exists y).
    rewrite (best_cell _ yi yo i j y) by (auto; exists a, b; auto).
    unfold nearW. rewrite (proj2 (yat_val yi i a) Ha), (proj2 (yat_val yi (S i) b) Hb'),
      (proj2 (yat_val yo j y) Hy). cbn [fsub f2 fleb].
    destruct (Qle_bool (y - a) (b - y)) eqn:Ele.
    + apply Qle_bool_iff in Ele. exists i. split; [|symmetry; apply nth_error_yat; lia].
      exists a. split; auto. intros k' c' Hc'.
      destruct (Nat.le_gt_cases k' i) as [Hk|Hk].
      * pose proof (increasing_le yi k' i c' a Hinc Hk Hc' Ha).
        destruct (Nat.eq_dec k' i) as [->|Hne].
        -- pose proof (val_fun _ _ _ _ Ha Hc'); subst. right; split; [reflexivity|lia].
        -- assert (c' < a)%Q by (apply (Hinc k' i); auto; lia). left. qabs_cases; lra.
      * pose proof (increasing_le yi (S i) k' b c' Hinc Hk Hb' Hc').
        destruct (Qlt_le_dec (Qabs (y - a)) (Qabs (y - c'))) as [|Hge]; [now left|].
        right. split; [|lia]. revert Hge. qabs_cases; intro; lra.
    + apply Qle_bool_gt in Ele. exists (S i). split; [|symmetry; apply nth_error_yat; lia].
      exists b. split; auto. intros k' c' Hc'.
      destruct (Nat.le_gt_cases k' i) as [Hk|Hk].
      * pose proof (increasing_le yi k' i c' a Hinc Hk Hc' Ha). left. qabs_cases; lra.
      * pose proof (increasing_le yi (S i) k' b c' Hinc Hk Hb' Hc').
        destruct (Qlt_le_dec (Qabs (y - b)) (Qabs (y - c'))) as [|Hge]; [now left|].
        right. split; [|lia]. revert Hge. qabs_cases; intro; lra.
  - intros j Hj Hn. rewrite Hb by auto. now rewrite best_out.
Qed.

(** ** consequences for linear *)

(** Pick the upper cell containing a point. *)
Lemma upper_cell yi i0 y : increasing yi -> in_cell yi i0 y ->
  exists i, in_cell yi i y /\ ~ in_cell yi (S i) y.
Proof.
  intros Hinc Hc0.
  destruct (touchb yi [Some y] (S i0) 0) eqn:Et.
  - apply touchb_cell in Et. destruct Et as (y' & Hy' & Hc'). inversion Hy'; subst y'.
    exists (S i0). split; auto. intro H2.
    assert (S (S i0) = S i0) by (eapply cells_adjacent; eauto). lia.
  - exists i0. split; auto. intro H. assert (touchb yi [Some y] (S i0) 0 = true); [|congruence].
    apply touchb_cell. exists y. split; auto. reflexivity.
Qed.

Lemma linear_spec_bounded v yi yo out :
  increasing yi -> List.length v = List.length yi -> linear_row_spec v yi yo out ->
  forall j x, val out j x ->
    exists y i p q, val yo j y /\ in_cell yi i y /\ val v i p /\ val v (S i) q /\
      (Qmin p q <= x <= Qmax p q)%Q.
Proof.
  intros Hinc Hlv (Hl & Hin & Hout) j x Hx.
  assert (Hj : j < List.length yo).
  { rewrite <- Hl. apply valid_lt. now exists x. }
  assert (Hdec : (exists y i, val yo j y /\ in_cell yi i y)
                 \/ ~ (exists y i, val yo j y /\ in_cell yi i y)).
  { destruct (best_some (touchb yi yo) (fun _ _ => nan) j (List.length yi))
      as [(i & _ & Ht & _)|[Hn _]].
    - left. apply touchb_cell in Ht. destruct Ht as (y & Hy & Hc). eauto.
    - right. intros (y & i & Hy & Hc).
      assert (touchb yi yo i j = true) by (apply touchb_cell; eauto).
      rewrite Hn in H; [discriminate|]. apply in_cell_lt in Hc. lia. }
  destruct Hdec as [(y & i0 & Hy & Hc0)|Hn].
  - destruct (upper_cell yi i0 y Hinc Hc0) as (i & Hc & Hnc).
    destruct Hc as (a & b & Ha & Hb & Hle).
    assert (Hab : (a < b)%Q) by (apply (Hinc i (S i)); auto).
    assert (Hil : S i < List.length yi) by (apply valid_lt; now exists b).
    destruct (nth_error v i) as [u|] eqn:Eu.
    2:{ apply nth_error_None in Eu. lia. }
    destruct (nth_error v (S i)) as [w|] eqn:Ew.
    2:{ apply nth_error_None in Ew. lia. }
    destruct (Hin j y i a b u w Hy Ha Hb Hle Hnc Eu Ew) as (x' & Hx' & Hfe).
    unfold val in Hx. rewrite Hx in Hx'. inversion Hx'; subst x'.
    destruct u as [u|]; [|contradiction]. destruct w as [w|]; [|contradiction].
    exists y, i, u, w. repeat split; auto.
    + exists a, b; auto.
    + simpl in Hfe. rewrite Hfe.
      set (t := ((y - a) / (b - a))%Q).
      assert (Ht : (0 <= t <= 1)%Q).
      { unfold t. split.
        - apply Qle_shift_div_l; lra.
        - apply Qle_shift_div_r; lra. }
      destruct (Q.min_spec u w) as [[H1 H2]|[H1 H2]]; rewrite H2; nra.
    + simpl in Hfe. rewrite Hfe.
      set (t := ((y - a) / (b - a))%Q).
      assert (Ht : (0 <= t <= 1)%Q).
      { unfold t. split.
        - apply Qle_shift_div_l; lra.
        - apply Qle_shift_div_r; lra. }
      destruct (Q.max_spec u w) as [[H1 H2]|[H1 H2]]; rewrite H2; nra.
  - unfold val in Hx. rewrite (Hout j Hj Hn) in Hx. inversion Hx.
Qed.

Lemma linear_spec_affine v yi yo out (al be : Q) :
  increasing yi -> List.length v = List.length yi -> linear_row_spec v yi yo out ->
  (forall i a, val yi i a -> exists p, val v i p /\ (p == al * a + be)%Q) ->
  forall j y, val yo j y -> (exists i, in_cell yi i y) ->
    exists x, val out j x /\ (x == al * y + be)%Q.
Proof.
  intros Hinc Hlv (Hl & Hin & Hout) Haff j y Hy [i0 Hc0].
  destruct (upper_cell yi i0 y Hinc Hc0) as (i & Hc & Hnc).
  destruct Hc as (a & b & Ha & Hb & Hle).
  assert (Hab : (a < b)%Q) by (apply (Hinc i (S i)); auto).
  destruct (Haff i a Ha) as (p & Hp & Ep). destruct (Haff (S i) b Hb) as (q & Hq & Eq).
  destruct (Hin j y i a b (Some p) (Some q) Hy Ha Hb Hle Hnc Hp Hq) as (x & Hx & Hf).
  destruct x as [x|]; [|contradiction]. exists x. split; auto.
  simpl in Hf. rewrite Hf, Ep, Eq. field. intro Hz; lra.
Qed.

(** ** cubic and hermit *)
Definition polyW (poly : fl -> fl -> fl -> fl -> fl -> fl) (v yi yo : list fl)
    (imin imax i j : nat) : fl :=
  let dy0 := fsub (yat yo j) (yat yi i) in
  let dy1 := fsub (yat yi (S i)) (yat yo j) in
  let mu := match fdiv dy0 (fadd dy0 dy1) with Ok x => x | Raise _ => nan end in
  let vc0 := if i =? imin then fsub (fmul (fc 2) (yat v i)) (yat v (S i)) else yat v (i - 1) in
  let vc1 := if S i =? imax then fsub (fmul (fc 2) (yat v (S i))) (yat v i)
             else yat v (S (S i)) in
  poly mu vc0 (yat v i) (yat v (S i)) vc1.

Lemma get2_row vari ix v i :
  pyget vari ix = Ok v -> i < List.length v -> get2 vari ix (Z.of_nat i) = Ok (yat v i).
Proof. intros H Hi. unfold get2. rewrite H. cbn [bind]. now apply pyget_yat. Qed.

Lemma outer_values_ok vari ix v i imin imax :
  pyget vari ix = Ok v -> imin <= i -> i < imax -> imax < List.length v ->
  outer_values vari ix ix (Z.of_nat i) (Z.of_nat imin) (Z.of_nat imax) =
  Ok (if i =? imin then fsub (fmul (fc 2) (yat v i)) (yat v (S i)) else yat v (i - 1),
      if S i =? imax then fsub (fmul (fc 2) (yat v (S i))) (yat v i) else yat v (S (S i))).
Proof.
  intros Hv H1 H2 H3. unfold outer_values.
  replace (Z.of_nat i + 1)%Z with (Z.of_nat (S i)) by lia.
  replace (Z.of_nat i + 2)%Z with (Z.of_nat (S (S i))) by lia.
  replace (Z.of_nat i =? Z.of_nat imin)%Z with (i =? imin)
    by (destruct (Nat.eqb_spec i imin), (Z.eqb_spec (Z.of_nat i) (Z.of_nat imin)); auto; lia).
  replace (Z.of_nat i =? Z.of_nat imax - 1)%Z with (S i =? imax)
    by (destruct (Nat.eqb_spec (S i) imax), (Z.eqb_spec (Z.of_nat i) (Z.of_nat imax - 1));
        auto; lia).
  destruct (Nat.eqb_spec i imin).
  - rewrite !(get2_row vari ix v) by (auto; lia). cbn [bind].
    destruct (Nat.eqb_spec (S i) imax).
    + cbn [bind]. reflexivity.
    + rewrite (get2_row vari ix v) by (auto; lia). reflexivity.
  - replace (Z.of_nat i - 1)%Z with (Z.of_nat (i - 1)) by lia.
    rewrite !(get2_row vari ix v) by (auto; lia). cbn [bind].
    destruct (Nat.eqb_spec (S i) imax).
    + cbn [bind]. reflexivity.
    + rewrite (get2_row vari ix v) by (auto; lia). reflexivity.
Qed.

Lemma poly_step_ok poly vari ix v yi yo imin imax i j m jmax out :
  increasing yi -> increasing yo -> pyget vari ix = Ok v ->
  List.length v = List.length yi ->
  (forall k, valid yo k -> k <= jmax) ->
  imin <= i -> i < imax -> imax < List.length yi -> j < List.length yo -> m <= j ->
  List.length out = List.length yo ->
  match poly_step poly vari ix ix (Z.of_nat imin) (Z.of_nat imax) yi yo
          (Z.of_nat i) (Z.of_nat j) (Z.of_nat m, out) with
  | Fail _ => False
  | Break st => st = (Z.of_nat m, out) /\ above yi yo i j = true
  | Next (m2, out2) =>
    out2 = (if touchb yi yo i j then upd out j (polyW poly v yi yo imin imax i j) else out) /\
    exists m', m2 = Z.of_nat m' /\
      (m' = m \/ (m <= m' /\ m' <= S j /\ m' <= jmax /\
                  forall i' j', i < i' -> j' < m' -> touchb yi yo i' j' = false))
  end.
Proof.
  intros Hinc Hinco Hv Hlv Hjm Hi1 Hi2 Hi3 Hj Hmj Hlo.
  unfold poly_step.
  replace (Z.of_nat i + 1)%Z with (Z.of_nat (S i)) by lia.
  rewrite !pyget_yat by lia. cbn [bindc].
  fold (above yi yo i j). destruct (above yi yo i j) eqn:Ea; [auto|].
  fold (touchb yi yo i j). destruct (touchb yi yo i j) eqn:Et.
  - apply touchb_vals in Et. destruct Et as (a & b & y & Ha & Hb & Hy & Hle).
    assert (a < b)%Q by (apply (Hinc i (S i)); auto).
    unfold polyW. pose proof Ha as Ha'. pose proof Hb as Hb'. pose proof Hy as Hy'.
    apply yat_val in Ha, Hb, Hy. rewrite Ha, Hb, Hy. cbn [fsub fadd f2].
    rewrite fdiv_pos by lra. cbn [bindc].
    rewrite (outer_values_ok vari ix v) by (auto; lia). cbn [bindc fst snd].
    rewrite !(get2_row vari ix v) by (auto; lia). cbn [bindc].
    rewrite pyset_nat by lia. cbn [bindc]. split; [reflexivity|].
    exists j. split; [reflexivity|]. right. repeat split; try lia.
    + apply Hjm. now exists y.
    + intros i' j' Hi' Hj'. destruct (touchb yi yo i' j') eqn:Et; auto. exfalso.
      apply touchb_vals in Et. destruct Et as (a2 & b2 & y2 & Ha2 & Hb2 & Hy2 & Hle2).
      assert (y2 < y)%Q by (apply (Hinco j' j); auto).
      assert (b <= a2)%Q by (apply (increasing_le yi (S i) i'); auto). lra.
  - split; auto. exists m; auto.
Qed.

Lemma increasing_nd l : increasing l -> nondecreasing l.
Proof. intros H i j a b Hij Ha Hb. apply Qlt_le_weak. eapply H; eauto. Qed.

(** First and last valid indices *)
Definition first_valid (l : list fl) (a : nat) : Prop :=
  valid l a /\ forall k, valid l k -> a <= k.
Definition last_valid (l : list fl) (b : nat) : Prop :=
  valid l b /\ forall k, valid l k -> k <= b.

Lemma poly_row_best poly vari ix v yi yo :
  increasing yi -> increasing yo -> pyget vari ix = Ok v ->
  List.length v = List.length yi -> 0 < List.length yo ->
  exists out, poly_row poly vari ix ix yi yo (List.repeat nan (List.length yo)) = Ok out /\
    List.length out = List.length yo /\
    ((forall k, ~ valid yi k) /\ out = List.repeat nan (List.length yo) \/
     exists imin imax, first_valid yi imin /\ last_valid yi imax /\
     forall j, j < List.length yo ->
      nth_error out j
      = Some (best (touchb yi yo) (polyW poly v yi yo imin imax) j (List.length yi))).
Proof.
  intros Hinc Hinco Hv Hlv Hpos.
  assert (Hrep : forall j, j < List.length yo ->
            nth_error (List.repeat nan (List.length yo)) j = Some nan).
  { intros j Hj. now apply nth_error_repeat. }
  unfold poly_row.
  destruct (get_iminmax_ok yi) as ([imin imax] & -> & Hi).
  destruct (get_iminmax_ok yo) as ([jmin jmax] & -> & Hj). cbn [bind].
  destruct Hi as [[Hi Hno]|(a & b & Hi & Hva & Hvb & Hab)]; inversion Hi; subst; clear Hi.
  - change (pyrange (-1) (-1)) with (@nil Z). cbn [for_each bind snd].
    eexists; split; [reflexivity|]. split; [apply repeat_length|]. left. auto.
  - destruct Hj as [[Hj Hno]|(c & d & Hj & Hvc & Hvd & Hcd)]; inversion Hj; subst; clear Hj.
    + rewrite scan_nan_yo; auto; try lia.
      * cbn [bind snd]. eexists; split; [reflexivity|]. split; [apply repeat_length|].
        right. exists a, b. split; [split; auto; intros k Hk; apply Hab in Hk; lia|].
        split; [split; auto; intros k Hk; apply Hab in Hk; lia|].
        intros j Hj'. rewrite Hrep by auto. f_equal. symmetry. apply best_none.
        intros i _. destruct (touchb yi yo i j) eqn:Et; auto. apply touchb_vals in Et.
        destruct Et as (x & x' & y & _ & _ & Hy & _). exfalso. apply (Hno j). now exists y.
      * pose proof (valid_lt _ _ Hvb). lia.
      * intros i j [m out] Hi0 Hi1 Hjr. unfold poly_step.
        destruct (pyget_ok yo j) as [y Hy]; [lia|].
        destruct (pyget_ok yi i) as [y0 Hy0]; [lia|].
        destruct (pyget_ok yi (i + 1)) as [y1 Hy1]; [lia|].
        rewrite Hy, Hy0, Hy1. cbn [bindc].
        assert (y = None) as ->.
        { unfold pyget in Hy. destruct (pyidx (List.length yo) j) as [k|]; [|discriminate].
          destruct (nth_error yo k) as [[q|]|] eqn:E; inversion Hy; subst; auto.
          exfalso. apply (Hno k). now exists q. }
        replace (fsub y1 None) with (@None Q) by (destruct y1; reflexivity).
        reflexivity.
    + destruct (scan_ok yi yo
          (poly_step poly vari ix ix (Z.of_nat a) (Z.of_nat b) yi yo)
          (touchb yi yo) (polyW poly v yi yo a b)
                  a b c d (List.length yo)) with (out0 := List.repeat nan (List.length yo))
        as (st & Hst & Hl & Hout); auto.
      * now apply increasing_nd.
      * pose proof (valid_lt _ _ Hvd). lia.
      * intros i j Ht. apply touchb_vals in Ht. exact Ht.
      * intros i j m out Hi Hm Hmd Hj Hlo Hnb.
        pose proof (valid_lt _ _ Hvb).
        apply poly_step_ok; auto; try lia.
        intros k Hk. apply Hcd in Hk. lia.
      * apply repeat_length.
      * rewrite Hst. cbn [bind]. eexists; split; [reflexivity|]. split; auto.
        right. exists a, b. split; [split; auto; intros k Hk; apply Hab in Hk; lia|].
        split; [split; auto; intros k Hk; apply Hab in Hk; lia|]. auto.
Qed.

(** Interpolating polynomial: values at the two ends. *)
Definition interpolating (poly : fl -> fl -> fl -> fl -> fl -> fl) : Prop :=
  forall mu p0 p1 p2 p3 : Q,
    exists x, poly (Some mu) (Some p0) (Some p1) (Some p2) (Some p3) = Some x /\
      ((mu == 0)%Q -> (x == p1)%Q) /\ ((mu == 1)%Q -> (x == p2)%Q).
(** Exact on values in arithmetic progression. *)
Definition affine_exact (poly : fl -> fl -> fl -> fl -> fl -> fl) : Prop :=
  forall mu p0 p1 p2 p3 d : Q,
    (p1 == p0 + d)%Q -> (p2 == p0 + 2 * d)%Q -> (p3 == p0 + 3 * d)%Q ->
    exists x, poly (Some mu) (Some p0) (Some p1) (Some p2) (Some p3) = Some x /\
      (x == p1 + mu * d)%Q.

Lemma cubic_interpolating : interpolating cubic_formula.
Proof.
  intros mu p0 p1 p2 p3. unfold cubic_formula, fsq, fcub. cbn [fadd fsub fmul f2].
  eexists. split; [reflexivity|]. split; intro E; rewrite E; ring.
Qed.
Lemma hermit_interpolating b t : interpolating (hermit_formula (Some b) (Some t)).
Proof.
  intros mu p0 p1 p2 p3. unfold hermit_formula, fsq, fcub, fc, fadd, fsub, fmul, f2. cbv beta iota zeta.
  eexists. split; [reflexivity|]. split; intro E; rewrite E; ring.
Qed.
Lemma hermit_affine b : affine_exact (hermit_formula (Some b) (Some 0%Q)).
Proof.
  intros mu p0 p1 p2 p3 d E1 E2 E3. unfold hermit_formula, fsq, fcub, fc, fadd, fsub, fmul, f2.
  cbv beta iota zeta.
  eexists. split; [reflexivity|]. rewrite E1, E2, E3; ring.
Qed.




Lemma yat_valid l i : all_valid l -> i < List.length l -> exists x, yat l i = Some x /\ val l i x.
Proof. intros Ha Hi. destruct (Ha i Hi) as [x Hx]. exists x. split; auto. now apply yat_val. Qed.

Lemma polyW_form poly v yi yo imin imax i j a b y :
  increasing yi -> all_valid v -> List.length v = List.length yi ->
  imin <= i -> i < imax -> imax < List.length yi ->
  val yi i a -> val yi (S i) b -> val yo j y ->
  exists p0 p1 p2 p3,
    val v i p1 /\ val v (S i) p2 /\
    (i <> imin -> val v (i - 1) p0) /\ (i = imin -> (p0 == 2 * p1 - p2)%Q) /\
    (S i <> imax -> val v (S (S i)) p3) /\ (S i = imax -> (p3 == 2 * p2 - p1)%Q) /\
    polyW poly v yi yo imin imax i j
    = poly (Some ((y - a) / (y - a + (b - y)))%Q) (Some p0) (Some p1) (Some p2) (Some p3).
Proof.
  intros Hinc Hav Hlv H1 H2 H3 Ha Hb Hy.
  assert (Hab : (a < b)%Q) by (apply (Hinc i (S i)); auto).
  destruct (yat_valid v i Hav ltac:(lia)) as (p1 & E1 & V1).
  destruct (yat_valid v (S i) Hav ltac:(lia)) as (p2 & E2 & V2).
  destruct (yat_valid v (i - 1) Hav ltac:(lia)) as (q0 & E0 & V0).
  unfold polyW.
  rewrite (proj2 (yat_val yi i a) Ha), (proj2 (yat_val yi (S i) b) Hb),
    (proj2 (yat_val yo j y) Hy). cbn [fsub fadd f2]. rewrite fdiv_pos by lra.
  rewrite E1, E2, E0. cbn [fsub fmul f2 fc].
  destruct (Nat.eqb_spec i imin) as [Ei|Ei];
  destruct (Nat.eqb_spec (S i) imax) as [Em|Em].
  - exists (2 * p1 - p2)%Q, p1, p2, (2 * p2 - p1)%Q. repeat split; auto; try contradiction; intro; try contradiction; reflexivity.
  - destruct (yat_valid v (S (S i)) Hav ltac:(lia)) as (p3 & E3 & V3). rewrite E3.
    exists (2 * p1 - p2)%Q, p1, p2, p3. repeat split; auto; try contradiction; intro; try contradiction; reflexivity.
  - exists q0, p1, p2, (2 * p2 - p1)%Q. repeat split; auto; try contradiction; intro; try contradiction; reflexivity.
  - destruct (yat_valid v (S (S i)) Hav ltac:(lia)) as (p3 & E3 & V3). rewrite E3.
    exists q0, p1, p2, p3. repeat split; auto; try contradiction; intro; try contradiction; reflexivity.
Qed.

Lemma poly_row_correct poly vari ix v yi yo :
  interpolating poly ->
  increasing yi -> increasing yo -> pyget vari ix = Ok v ->
  List.length v = List.length yi -> all_valid v -> 0 < List.length yo ->
  exists out, poly_row poly vari ix ix yi yo (List.repeat nan (List.length yo)) = Ok out /\
    nodes_row_spec v yi yo out.
Proof.
  intros Hpoly Hinc Hinco Hv Hlv Hav Hpos.
  destruct (poly_row_best poly vari ix v yi yo Hinc Hinco Hv Hlv Hpos)
    as (out & Ho & Hl & Hcase).
  exists out. split; auto.
  destruct Hcase as [[Hno ->]|(imin & imax & [Hv1 Hf] & [Hv2 Hla] & Hb)].
  - repeat split; auto.
    + intros j y _ (i & a & b & Ha & _). exfalso. apply (Hno i). now exists a.
    + intros j y k c p _ _ _ (i & a & b & Ha & _). exfalso. apply (Hno i). now exists a.
    + intros j Hj _. now apply nth_error_repeat.
  - assert (Hmain : forall j y, val yo j y -> (exists i, in_cell yi i y) ->
        exists i a b p1 p2 x, val yi i a /\ val yi (S i) b /\ (a <= y <= b)%Q /\
          val v i p1 /\ val v (S i) p2 /\ val out j x /\
          ((y == a)%Q -> (x == p1)%Q) /\ ((y == b)%Q -> (x == p2)%Q)).
    { intros j y Hy [i0 Hc0].
      destruct (upper_cell yi i0 y Hinc Hc0) as (i & Hc & Hnc).
      pose proof Hc as Hc'. destruct Hc' as (a & b & Ha & Hb' & Hle).
      assert (Hab : (a < b)%Q) by (apply (Hinc i (S i)); auto).
      assert (imin <= i) by (apply Hf; now exists a).
      assert (S i <= imax) by (apply Hla; now exists b).
      pose proof (valid_lt _ _ Hv2).
      destruct (polyW_form poly v yi yo imin imax i j a b y) as
        (p0 & p1 & p2 & p3 & V1 & V2 & _ & _ & _ & _ & E); auto.
      destruct (Hpoly ((y - a) / (y - a + (b - y)))%Q p0 p1 p2 p3) as (x & Ex & HX0 & HX1).
      exists i, a, b, p1, p2, x. repeat split; auto; try lra.
      + unfold val. rewrite Hb by (apply valid_lt; now exists y).
        rewrite (best_cell _ yi yo i j y) by auto. rewrite E, Ex. reflexivity.
      + intro Ey. apply HX0. rewrite Ey. field. intro Hz; lra.
      + intro Ey. apply HX1. rewrite Ey. field. intro Hz; lra. }
    repeat split; auto.
    + intros j y Hy Hex. destruct (Hmain j y Hy Hex) as (i & a & b & p1 & p2 & x & H).
      exists x. tauto.
    + intros j y k c p Hy Hc Eyc Hex Hp.
      destruct (Hmain j y Hy Hex) as (i & a & b & p1 & p2 & x & Ha & Hb' & Hle & V1 & V2 & Hx & X1 & X2).
      exists x. split; auto.
      assert (Hab : (a < b)%Q) by (apply (Hinc i (S i)); auto).
      destruct (lt_eq_lt_dec k i) as [[Hk|Hk]|Hk].
      * assert (c < a)%Q by (apply (Hinc k i); auto). lra.
      * subst k. pose proof (val_fun _ _ _ _ Ha Hc); subst c.
        pose proof (val_fun _ _ _ _ V1 Hp); subst p1. auto.
      * destruct (Nat.eq_dec k (S i)) as [->|Hne].
        -- pose proof (val_fun _ _ _ _ Hb' Hc); subst c.
           pose proof (val_fun _ _ _ _ V2 Hp); subst p2. auto.
        -- assert (b < c)%Q by (apply (Hinc (S i) k); auto; lia). lra.
    + intros j Hj Hn. rewrite Hb by auto. now rewrite best_out.
Qed.

Lemma poly_row_affine poly vari ix v yi yo al be y0 h :
  affine_exact poly ->
  increasing yi -> increasing yo -> pyget vari ix = Ok v ->
  List.length v = List.length yi -> all_valid v -> 0 < List.length yo ->
  all_valid yi -> regular yi y0 h ->
  (forall i a p, val yi i a -> val v i p -> (p == al * a + be)%Q) ->
  forall out, poly_row poly vari ix ix yi yo (List.repeat nan (List.length yo)) = Ok out ->
  forall j y, val yo j y -> (exists i, in_cell yi i y) ->
    exists x, val out j x /\ (x == al * y + be)%Q.
Proof.
  intros Hpoly Hinc Hinco Hv Hlv Hav Hpos Havy [Hh Hreg] Haff out Hout j y Hy [i0 Hc0].
  destruct (poly_row_best poly vari ix v yi yo Hinc Hinco Hv Hlv Hpos)
    as (out' & Ho & Hl & Hcase).
  rewrite Hout in Ho. inversion Ho; subst out'. clear Ho.
  destruct Hcase as [[Hno _]|(imin & imax & [Hv1 Hf] & [Hv2 Hla] & Hb)].
  { destruct Hc0 as (a & _ & Ha & _). exfalso. apply (Hno i0). now exists a. }
  destruct (upper_cell yi i0 y Hinc Hc0) as (i & Hc & Hnc).
  pose proof Hc as Hc'. destruct Hc' as (a & b & Ha & Hb' & Hle).
  assert (Hab : (a < b)%Q) by (apply (Hinc i (S i)); auto).
  assert (imin <= i) by (apply Hf; now exists a).
  assert (S i <= imax) by (apply Hla; now exists b).
  pose proof (valid_lt _ _ Hv2) as Him.
  destruct (polyW_form poly v yi yo imin imax i j a b y) as
    (p0 & p1 & p2 & p3 & V1 & V2 & V0 & V0' & V3 & V3' & E); auto.
  assert (Ep1 := Haff i a p1 Ha V1). assert (Ep2 := Haff (S i) b p2 Hb' V2).
  assert (Ea := Hreg i a Ha). assert (Eb := Hreg (S i) b Hb').
  assert (Einj : (inject_Z (Z.of_nat (S i)) == inject_Z (Z.of_nat i) + 1)%Q).
  { rewrite Nat2Z.inj_succ. unfold Z.succ. rewrite inject_Z_plus. reflexivity. }
  assert (Ebh : (b == a + h)%Q) by (rewrite Ea, Eb, Einj; ring).
  assert (E0 : (p0 == p1 - al * h)%Q).
  { destruct (Nat.eq_dec i imin) as [Ei|Ei].
    - rewrite (V0' Ei), Ep2, Ep1, Ebh. ring.
    - destruct (Havy (i - 1)) as [c Hc1]; [lia|].
      rewrite (Haff (i - 1) c p0 Hc1 (V0 Ei)), Ep1.
      rewrite (Hreg (i - 1) c Hc1), Ea.
      assert (Ei1 : (inject_Z (Z.of_nat i) == inject_Z (Z.of_nat (i - 1)) + 1)%Q).
      { replace (Z.of_nat i) with (Z.of_nat (i - 1) + 1)%Z by lia.
        rewrite inject_Z_plus. reflexivity. }
      rewrite Ei1. ring. }
  assert (E3 : (p3 == p2 + al * h)%Q).
  { destruct (Nat.eq_dec (S i) imax) as [Ei|Ei].
    - rewrite (V3' Ei), Ep2, Ep1, Ebh. ring.
    - destruct (Havy (S (S i))) as [c Hc1]; [lia|].
      rewrite (Haff (S (S i)) c p3 Hc1 (V3 Ei)), Ep2.
      rewrite (Hreg (S (S i)) c Hc1), Eb.
      assert (Ei1 : (inject_Z (Z.of_nat (S (S i))) == inject_Z (Z.of_nat (S i)) + 1)%Q).
      { replace (Z.of_nat (S (S i))) with (Z.of_nat (S i) + 1)%Z by lia.
        rewrite inject_Z_plus. reflexivity. }
      rewrite Ei1. ring. }
  destruct (Hpoly ((y - a) / (y - a + (b - y)))%Q p0 p1 p2 p3 (al * h)%Q) as (x & Ex & Hx).
  - rewrite E0. ring.
  - rewrite E0, Ep2, Ep1, Ebh. ring.
  - rewrite E3, E0, Ep2, Ep1, Ebh. ring.
  - exists x. split.
    + unfold val. rewrite Hb by (apply valid_lt; now exists y).
      rewrite (best_cell _ yi yo i j y) by auto. rewrite E, Ex. reflexivity.
    + rewrite Hx, Ep1. setoid_replace h with (b - a)%Q by (rewrite Ebh; ring).
      field. intro Hz; lra.
Qed.
