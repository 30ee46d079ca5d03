From Verif Require Export PyBaseFacts GeoSpec.
From Coq Require Import Sorted.
From Coq Require Import Lra.
Open Scope R_scope.

Lemma rltb_true x y : rltb x y = true <-> x < y.
Proof. unfold rltb. destruct (Rlt_dec x y); split; auto; discriminate. Qed.
Lemma rltb_false x y : rltb x y = false <-> y <= x.
Proof. unfold rltb. destruct (Rlt_dec x y); split; auto; try discriminate; intros; lra. Qed.
Lemma rleb_true x y : rleb x y = true <-> x <= y.
Proof. unfold rleb. destruct (Rle_dec x y); split; auto; discriminate. Qed.

(** ** haversine is the great-circle distance *)
Lemma sin_half_sq x : (sin (x * (1 / 2)))^2 = (1 - cos x) / 2.
Proof.
  assert (H := cos_2a_sin (x * (1/2))). replace (2 * (x * (1/2))) with x in H by lra. rewrite H. lra.
Qed.
Lemma hav_arg lon0 lat0 lon1 lat1 :
  (sin (deg2rad * (lat0 - lat1) * (1 / 2)))^2 +
  cos (deg2rad * lat0) * cos (deg2rad * lat1) * (sin (deg2rad * (lon0 - lon1) * (1 / 2)))^2
  = (let '(x, y, z) := sphere lon0 lat0 in let '(x', y', z') := sphere lon1 lat1 in
     (x - x')^2 + (y - y')^2 + (z - z')^2) / 4.
Proof.
  unfold sphere. fold deg2rad. rewrite !sin_half_sq.
  replace (deg2rad * (lat0 - lat1)) with (deg2rad * lat0 - deg2rad * lat1) by ring.
  replace (deg2rad * (lon0 - lon1)) with (deg2rad * lon0 - deg2rad * lon1) by ring.
  rewrite !cos_minus.
  assert (H1 := sin2_cos2 (deg2rad * lat0)). assert (H2 := sin2_cos2 (deg2rad * lat1)).
  assert (H3 := sin2_cos2 (deg2rad * lon0)). assert (H4 := sin2_cos2 (deg2rad * lon1)).
  unfold Rsqr in *.
  set (s0 := sin (deg2rad * lat0)) in *. set (c0 := cos (deg2rad * lat0)) in *.
  set (s1 := sin (deg2rad * lat1)) in *. set (c1 := cos (deg2rad * lat1)) in *.
  set (s2 := sin (deg2rad * lon0)) in *. set (c2 := cos (deg2rad * lon0)) in *.
  set (s3 := sin (deg2rad * lon1)) in *. set (c3 := cos (deg2rad * lon1)) in *.
  transitivity ((2 - 2 * (c0 * c1 * (c2 * c3 + s2 * s3) + s0 * s1)) / 4); [lra|].
  f_equal.
  transitivity (c0 * c0 * (s2 * s2 + c2 * c2) + c1 * c1 * (s3 * s3 + c3 * c3) + s0 * s0 + s1 * s1
    - 2 * (c0 * c1 * (c2 * c3 + s2 * s3) + s0 * s1)); [|ring].
  rewrite H3, H4. lra.
Qed.
Lemma haversine_chord lon0 lat0 lon1 lat1 :
  haversine lon0 lat0 lon1 lat1 = 2 * asin (chord (sphere lon0 lat0) (sphere lon1 lat1) / 2).
Proof.
  unfold haversine. rewrite hav_arg. unfold chord.
  destruct (sphere lon0 lat0) as [[x y] z], (sphere lon1 lat1) as [[x' y'] z'].
  do 2 f_equal. rewrite sqrt_div_alt by lra. f_equal.
  replace 4 with (2 * 2) by lra. apply sqrt_square. lra.
Qed.
Lemma chord_bounds lon0 lat0 lon1 lat1 : 0 <= chord (sphere lon0 lat0) (sphere lon1 lat1) <= 2.
Proof.
  split.
  - unfold chord. destruct (sphere lon0 lat0) as [[x y] z], (sphere lon1 lat1) as [[x' y'] z'].
    apply sqrt_pos.
  - unfold chord, sphere. fold deg2rad. replace 2 with (sqrt (2 * 2)) by (apply sqrt_square; lra).
    apply sqrt_le_1_alt.
    assert (H1 := sin2_cos2 (deg2rad * lat0)). assert (H2 := sin2_cos2 (deg2rad * lat1)).
    assert (H3 := sin2_cos2 (deg2rad * lon0)). assert (H4 := sin2_cos2 (deg2rad * lon1)).
    unfold Rsqr in *.
    set (s0 := sin (deg2rad * lat0)) in *. set (c0 := cos (deg2rad * lat0)) in *.
    set (s1 := sin (deg2rad * lat1)) in *. set (c1 := cos (deg2rad * lat1)) in *.
    set (s2 := sin (deg2rad * lon0)) in *. set (c2 := cos (deg2rad * lon0)) in *.
    set (s3 := sin (deg2rad * lon1)) in *. set (c3 := cos (deg2rad * lon1)) in *.
    assert (Hs : forall u v : R, 0 <= (u + v) ^ 2) by (intros; apply pow2_ge_0).
    assert (E : (c0 * c2 - c1 * c3) ^ 2 + (c0 * s2 - c1 * s3) ^ 2 + (s0 - s1) ^ 2
      = 2 * (c0 * c0 * (s2 * s2 + c2 * c2) + c1 * c1 * (s3 * s3 + c3 * c3) + s0 * s0 + s1 * s1)
        - ((c0 * c2 + c1 * c3) ^ 2 + (c0 * s2 + c1 * s3) ^ 2 + (s0 + s1) ^ 2)) by ring.
    rewrite E, H3, H4. clear E.
    pose proof (Hs (c0 * c2) (c1 * c3)). pose proof (Hs (c0 * s2) (c1 * s3)). pose proof (Hs s0 s1).
    lra.
Qed.
Lemma asin_lt u v : -1 <= u -> u < v -> v <= 1 -> asin u < asin v.
Proof.
  intros H1 H2 H3. destruct (asin_bound u) as [A1 A2]. destruct (asin_bound v) as [B1 B2].
  apply sin_increasing_0; try lra. rewrite !sin_asin by lra. lra.
Qed.
Lemma dist_lt u v : 0 <= u <= 2 -> 0 <= v <= 2 -> (2 * asin (u / 2) < 2 * asin (v / 2) <-> u < v).
Proof.
  intros Hu Hv. split; intro H.
  - destruct (Rlt_or_le u v) as [|H']; auto. exfalso.
    destruct (Req_dec u v) as [->|Hne]; [lra|].
    assert (asin (v / 2) < asin (u / 2)) by (apply asin_lt; lra). lra.
  - assert (asin (u / 2) < asin (v / 2)) by (apply asin_lt; lra). lra.
Qed.
Lemma dist_pi u : 0 <= u <= 2 -> (2 * asin (u / 2) < PI <-> u < 2).
Proof.
  intro Hu. assert (E : PI = 2 * asin (2 / 2)).
  { replace (2 / 2) with 1 by lra. rewrite asin_1. lra. }
  rewrite E at 1. apply dist_lt; lra.
Qed.

(** ** Scan for a minimum *)
Section Scan.
  Context {A : Type} (D : A -> R).
  Definition scan_step (s : option A * R) (x : A) : option A * R :=
    if rltb (D x) (snd s) then (Some x, D x) else s.
  Lemma scan_min l : forall o m, let s := fold_left scan_step l (o, m) in
    snd s <= m /\ (forall x, In x l -> snd s <= D x) /\
    (s = (o, m) \/
     exists x l1 l2, l = l1 ++ x :: l2 /\ s = (Some x, D x) /\ D x < m /\ forall y, In y l1 -> D x < D y).
  Proof.
    induction l as [|x l IH]; intros o m s.
    - cbn in s. subst s. cbn. split; [lra|]. split; [intros x []|auto].
    - unfold s. cbn [fold_left]. unfold scan_step at 2 4 6. cbn [snd].
      destruct (rltb (D x) m) eqn:E.
      + apply rltb_true in E. destruct (IH (Some x) (D x)) as (H1 & H2 & H3). cbn zeta in *.
        assert (Hst : scan_step (o, m) x = (Some x, D x)).
        { unfold scan_step. cbn [snd]. assert (Hr : rltb (D x) m = true) by (now apply rltb_true).
          now rewrite Hr. }
        rewrite !Hst in *.
        split; [lra|]. split; [intros y [<-|Hy]; auto|]. right.
        destruct H3 as [H3|(z & l1 & l2 & Hl & H3 & H4 & H5)].
        * exists x, [], l. split; auto. split; auto. split; auto. intros y [].
        * exists z, (x :: l1), l2. split; [rewrite Hl; reflexivity|]. split; auto. split; [lra|].
          intros y [<-|Hy]; auto.
      + apply rltb_false in E.
        assert (Hst : scan_step (o, m) x = (o, m)).
        { unfold scan_step. cbn [snd]. assert (Hr : rltb (D x) m = false) by (now apply rltb_false).
          now rewrite Hr. }
        rewrite !Hst. destruct (IH o m) as (H1 & H2 & H3). cbn zeta in *.
        split; auto. split; [intros y [<-|Hy]; [lra|auto]|].
        destruct H3 as [H3|(z & l1 & l2 & Hl & H3 & H4 & H5)]; auto. right.
        exists z, (x :: l1), l2. split; [rewrite Hl; reflexivity|]. split; auto. split; auto.
        intros y [<-|Hy]; auto. lra.
  Qed.
End Scan.

(** The positions in scan order *)
Definition lex (x y : nat * nat) : Prop :=
  (fst x < fst y)%nat \/ (fst x = fst y /\ (snd x < snd y)%nat).
Definition scan_order (nxi nyi : nat) : list (nat * nat) :=
  flat_map (fun i => map (fun j => (i, j)) (seq 0 nyi)) (seq 0 nxi).
Lemma sorted_app {A} (R : A -> A -> Prop) l1 l2 :
  StronglySorted R l1 -> StronglySorted R l2 -> (forall x y, In x l1 -> In y l2 -> R x y) ->
  StronglySorted R (l1 ++ l2).
Proof.
  induction l1 as [|x l1 IH]; intros H1 H2 H; [exact H2|]. cbn [app].
  inversion H1 as [|? ? Hs Hf]; subst. constructor.
  - apply IH; auto. intros; apply H; simpl; auto.
  - rewrite Forall_forall in *. intros y Hy. apply in_app_or in Hy. destruct Hy; [auto|].
    apply H; simpl; auto.
Qed.
Lemma scan_sorted a m n :
  StronglySorted lex (flat_map (fun i => map (fun j => (i, j)) (seq 0 n)) (seq a m)).
Proof.
  revert a; induction m as [|m IH]; intro a; cbn [seq flat_map]; [constructor|].
  apply sorted_app; [|apply IH|].
  - clear IH. generalize 0%nat. induction n as [|n IHn]; intro b; cbn [seq map]; constructor; [apply IHn|].
    apply Forall_forall. intros [i j] H. apply in_map_iff in H. destruct H as (j' & E & Hj).
    injection E as <- <-. apply in_seq in Hj. right. simpl. lia.
  - intros [i j] [i' j'] H1 H2. apply in_map_iff in H1. destruct H1 as (? & E & _). injection E as <- _.
    apply in_flat_map in H2. destruct H2 as (k & Hk & H2). apply in_map_iff in H2.
    destruct H2 as (? & E & _). injection E as <- _. apply in_seq in Hk. left. simpl. lia.
Qed.
Lemma scan_in nxi nyi i j : In (i, j) (scan_order nxi nyi) <-> (i < nxi /\ j < nyi)%nat.
Proof.
  unfold scan_order. rewrite in_flat_map. split.
  - intros (k & Hk & H). apply in_map_iff in H. destruct H as (j' & E & Hj). injection E as <- <-.
    apply in_seq in Hk, Hj. lia.
  - intros [H1 H2]. exists i. split; [apply in_seq; lia|]. apply in_map_iff. exists j. split; auto.
    apply in_seq. lia.
Qed.
Lemma scan_before nxi nyi l1 x l2 y : scan_order nxi nyi = l1 ++ x :: l2 ->
  In y (scan_order nxi nyi) -> lex y x -> In y l1.
Proof.
  intros E Hy Hl. assert (Hs := scan_sorted 0 nxi nyi). fold (scan_order nxi nyi) in Hs.
  rewrite E in Hs, Hy. apply in_app_or in Hy. destruct Hy as [Hy|Hy]; auto. exfalso.
  assert (Hx : StronglySorted lex (x :: l2)).
  { clear -Hs. induction l1 as [|z l1 IH]; [exact Hs|]. inversion Hs; auto. }
  inversion Hx as [|? ? _ Hf]; subst. rewrite Forall_forall in Hf. unfold lex in *.
  destruct Hy as [<-|Hy]; [lia|]. specialize (Hf y Hy). lia.
Qed.

(** ** closest2d *)
Section Closest.
  Variables (xxi yyi : rarr) (nyi nxi : nat).
  Hypothesis Hx : rect xxi nyi nxi.
  Hypothesis Hy : rect yyi nyi nxi.
  Lemma nth_at a j i : rect a nyi nxi -> (j < nyi)%nat -> (i < nxi)%nat ->
    aget a (Z.of_nat j) (Z.of_nat i) = Ok (at_ a j i).
  Proof.
    intros [H1 H2] Hj Hi. unfold aget, at_.
    destruct (nth_error a j) as [r|] eqn:E; [|apply nth_error_None in E; lia].
    rewrite (pyget_nat a j r E). cbn [bind]. rewrite (nth_error_nth a j [] E).
    rewrite Forall_forall in H2. specialize (H2 r (nth_error_In _ _ E)).
    destruct (nth_error r i) as [x|] eqn:E2; [|apply nth_error_None in E2; lia].
    rewrite (pyget_nat r i x E2). now rewrite (nth_error_nth r i 0 E2).
  Qed.
  Lemma nx_eq a : rect a nyi nxi -> (0 < nyi)%nat -> nx a = nxi.
  Proof.
    intros [H1 H2] H. unfold nx. destruct a as [|r a]; [simpl in H1; lia|]. now inversion H2.
  Qed.
  Variables xo yo : R.
  Definition gdist (ij : nat * nat) : R :=
    haversine xo yo (at_ xxi (snd ij) (fst ij)) (at_ yyi (snd ij) (fst ij)).
  Definition zs (s : option (nat * nat) * R) : closest_state :=
    (match fst s with Some (i, j) => Some (Z.of_nat i, Z.of_nat j) | None => None end, snd s).
  Lemma closest_inner i js s : (i < nxi)%nat -> (forall j, In j js -> (j < nyi)%nat) ->
    for_each (map Z.of_nat js) (fun jt s => closest_step xxi yyi xo yo (Z.of_nat i) jt s) (zs s) =
    Ok (zs (fold_left (scan_step gdist) (map (fun j => (i, j)) js) s)).
  Proof.
    intros Hi. revert s. induction js as [|j js IH]; intros s Hj; [reflexivity|].
    cbn [map for_each fold_left]. unfold closest_step at 1.
    rewrite (nth_at xxi j i Hx), (nth_at yyi j i Hy) by (auto; apply Hj; simpl; auto).
    cbn [bindc].
    replace (if rltb (haversine xo yo (at_ xxi j i) (at_ yyi j i)) (snd (zs s))
             then Next (Some (Z.of_nat i, Z.of_nat j), haversine xo yo (at_ xxi j i) (at_ yyi j i))
             else Next (zs s)) with (Next (zs (scan_step gdist s (i, j)))).
    - apply IH. intros; apply Hj; simpl; auto.
    - unfold scan_step, gdist. cbn [fst snd zs]. destruct (rltb _ _); reflexivity.
  Qed.
  Lemma closest_outer is s : (forall i, In i is -> (i < nxi)%nat) ->
    for_each (map Z.of_nat is) (fun it s =>
      next_of (for_each (pyrange 0 (Z.of_nat nyi)) (fun jt s => closest_step xxi yyi xo yo it jt s) s)) (zs s) =
    Ok (zs (fold_left (scan_step gdist) (flat_map (fun i => map (fun j => (i, j)) (seq 0 nyi)) is) s)).
  Proof.
    assert (Hr : pyrange 0 (Z.of_nat nyi) = map Z.of_nat (seq 0 nyi)).
    { change 0%Z with (Z.of_nat 0). now rewrite pyrange_nat, Nat.sub_0_r. }
    rewrite Hr. clear Hr.
    revert s. induction is as [|i is IH]; intros s Hi; [reflexivity|].
    cbn [map for_each flat_map]. rewrite fold_left_app.
    rewrite closest_inner; [|apply Hi; simpl; auto|intros j Hj; apply in_seq in Hj; lia].
    cbn [next_of]. apply IH. intros; apply Hi; simpl; auto.
  Qed.
  Lemma closest2d_scan : (0 < nyi)%nat ->
    closest2d xxi yyi xo yo =
    match fst (fold_left (scan_step gdist) (scan_order nxi nyi) (None, PI)) with
    | Some (i, j) => Ok (Z.of_nat i, Z.of_nat j)
    | None => Raise UnboundLocalError
    end.
  Proof.
    intro H. unfold closest2d. rewrite (nx_eq xxi Hx H). unfold ny. rewrite (proj1 Hx).
    change (pyrange 0 (Z.of_nat nxi)) with (pyrange (Z.of_nat 0) (Z.of_nat nxi)).
    rewrite pyrange_nat, Nat.sub_0_r. change (@None (Z * Z), PI) with (zs (None, PI)).
    rewrite closest_outer by (intros i Hi; apply in_seq in Hi; lia).
    cbn [bind]. unfold scan_order, zs. cbn [fst].
    destruct (fst (fold_left _ _ _)) as [[i j]|]; reflexivity.
  Qed.
End Closest.

(** ** cell2relloc *)
Lemma rdiv_ok x y r : rdiv x y = Ok r -> y <> 0 /\ r * y = x.
Proof.
  unfold rdiv. destruct (Req_EM_T y 0) as [|Hn]; [discriminate|]. intro E. injection E as <-.
  split; auto. field. auto.
Qed.
Lemma rdiv_ne x y : y <> 0 -> rdiv x y = Ok (x / y).
Proof. intro H. unfold rdiv. destruct (Req_EM_T y 0); [contradiction|reflexivity]. Qed.
Lemma rdiv_raise x y e : rdiv x y = Raise e -> e = ZeroDivisionError /\ y = 0.
Proof. unfold rdiv. destruct (Req_EM_T y 0); [|discriminate]. intro E. injection E as <-. auto. Qed.

Lemma eps_pos : 0 < eps.
Proof. unfold eps. apply Rinv_0_lt_compat. apply pow_lt. lra. Qed.

Section Cell.
  Variables x1 x2 x3 x4 y1 y2 y3 y4 x y : R.
  Let a := x4 - x1.  Let b := x2 - x1.  Let c := x3 - x4 - x2 + x1.
  Let d := y4 - y1.  Let e := y2 - y1.  Let f := y3 - y4 - y2 + y1.
  Let yy := y - y1.  Let xx := x - x1.
  Let AA := c * d - a * f.
  Let BB := - c * yy + b * d + xx * f - a * e.
  Let CC := - yy * b + e * xx.
  (** Non parallelism of the sides 1-4 and 2-3 *)
  Definition skew : R := (x3 - x2) * (y4 - y1) - (x4 - x1) * (y3 - y2).
  Lemma skew_AA : AA = skew.
  Proof. unfold AA, skew, a, c, d, f. ring. Qed.
  Definition jac p q : R := (a + c * q) * (e + f * p) - (b + c * p) * (d + f * q).

  Definition q_of p : res R :=
    if rltb (eps * 2) (Rabs (b + c * p)) then rdiv (xx - a * p) (b + c * p)
    else rdiv (yy - d * p) (e + f * p).
  Definition roots : res (R * R) :=
    if rltb (Rabs AA) (eps * 2) then let* p1 := rdiv (- CC) BB in Ok (p1, p1)
    else
      let* sDD := rsqrt (BB ^ 2 - 4 * AA * CC) in
      let* p1 := rdiv (- BB - sDD) (2 * AA) in
      let* p2 := rdiv (- BB + sDD) (2 * AA) in
      Ok (p1, p2).
  Lemma cell2relloc_eq : cell2relloc x1 x2 x3 x4 y1 y2 y3 y4 x y =
    let* (p1, p2) := roots in
    let* q1 := q_of p1 in
    if rltb p1 0 || rltb 1 p1 || rltb q1 0 || rltb 1 q1 then
      let* q2 := q_of p2 in Ok (p2, q2)
    else Ok (p1, q1).
  Proof. reflexivity. Qed.

  Definition sol p q : Prop := xx = a * p + b * q + c * p * q /\ yy = d * p + e * q + f * p * q.
  Lemma sol_bilin p q : sol p q <-> bilin x1 x2 x3 x4 p q = x /\ bilin y1 y2 y3 y4 p q = y.
  Proof.
    unfold sol, bilin, xx, yy, a, b, c, d, e, f. split; intros [H1 H2]; split; lra.
  Qed.
  Lemma sol_quad p q : sol p q -> AA * p ^ 2 + BB * p + CC = 0.
  Proof.
    intros [H1 H2]. unfold AA, BB, CC. rewrite H1, H2. ring.
  Qed.
  Lemma sol_deriv p q : sol p q -> 2 * AA * p + BB = - jac p q.
  Proof. intros [H1 H2]. unfold AA, BB, jac. rewrite H1, H2. ring. Qed.
  Lemma q_of_sol p q : AA * p ^ 2 + BB * p + CC = 0 -> q_of p = Ok q -> sol p q.
  Proof.
    intros H. assert (K : (yy - d * p) * (b + c * p) = (xx - a * p) * (e + f * p)).
    { unfold AA, BB, CC in H.
      apply Rminus_diag_uniq. transitivity (- ((c * d - a * f) * p ^ 2 + (- c * yy + b * d + xx * f - a * e) * p + (- yy * b + e * xx))); [ring|].
      rewrite H. ring. }
    unfold q_of. destruct (rltb _ _); intro E; apply rdiv_ok in E; destruct E as [Hne E].
    - unfold sol. split; [lra|].
      assert (yy - d * p = q * (e + f * p)); [|lra].
      apply Rmult_eq_reg_r with (b + c * p); auto. rewrite K, <- E. ring.
    - unfold sol. split; [|lra].
      assert (xx - a * p = q * (b + c * p)); [|lra].
      apply Rmult_eq_reg_r with (e + f * p); auto. rewrite <- K, <- E. ring.
  Qed.
  Lemma q_of_exact p q r : sol p q -> q_of p = Ok r -> r = q.
  Proof.
    intros [H1 H2]. unfold q_of. destruct (rltb _ _); intro E; apply rdiv_ok in E; destruct E as [Hne E].
    - apply Rmult_eq_reg_r with (b + c * p); auto. rewrite E, H1. ring.
    - apply Rmult_eq_reg_r with (e + f * p); auto. rewrite E, H2. ring.
  Qed.
  Lemma q_of_raise p er : q_of p = Raise er -> er = ZeroDivisionError.
  Proof. unfold q_of. destruct (rltb _ _); intro E; now apply rdiv_raise in E. Qed.

  Lemma roots_quad p1 p2 : AA = 0 \/ eps * 2 <= Rabs AA -> roots = Ok (p1, p2) ->
    AA * p1 ^ 2 + BB * p1 + CC = 0 /\ AA * p2 ^ 2 + BB * p2 + CC = 0.
  Proof.
    intros HA. unfold roots. assert (He := eps_pos). destruct (rltb (Rabs AA) (eps * 2)) eqn:Es.
    - apply rltb_true in Es. destruct HA as [HA|HA]; [|lra].
      destruct (rdiv (- CC) BB) as [p|] eqn:Ep; [|discriminate]. cbn [bind].
      intro E. injection E as <- <-. apply rdiv_ok in Ep. destruct Ep as [Hb Hp].
      rewrite HA. split; lra.
    - apply rltb_false in Es. assert (Hne : AA <> 0).
      { intro H. rewrite H, Rabs_R0 in Es. lra. }
      unfold rsqrt. destruct (rltb _ 0) eqn:Ed; [discriminate|]. apply rltb_false in Ed. cbn [bind].
      set (s := sqrt _). assert (Hs : s * s = BB ^ 2 - 4 * AA * CC) by (apply sqrt_sqrt; exact Ed).
      rewrite !rdiv_ne by lra. cbn [bind]. intro E. injection E as <- <-.
      assert (E : forall t, t * t = BB ^ 2 - 4 * AA * CC ->
        AA * ((- BB + t) / (2 * AA)) ^ 2 + BB * ((- BB + t) / (2 * AA)) + CC = 0).
      { intros t Ht. apply Rmult_eq_reg_l with (4 * AA); [|lra].
        transitivity (t * t - (BB ^ 2 - 4 * AA * CC)); [field; exact Hne|rewrite Ht; ring]. }
      split; [|now apply E]. replace (- BB - s) with (- BB + - s) by ring. apply E. rewrite <- Hs. ring.
  Qed.

  Lemma cell_sound p q : skew = 0 \/ eps * 2 <= Rabs skew ->
    cell2relloc x1 x2 x3 x4 y1 y2 y3 y4 x y = Ok (p, q) -> sol p q.
  Proof.
    rewrite <- skew_AA. intro HA. rewrite cell2relloc_eq.
    destruct roots as [[p1 p2]|] eqn:Er; [|discriminate]. cbn [bind].
    destruct (roots_quad p1 p2 HA Er) as [H1 H2].
    destruct (q_of p1) as [q1|] eqn:E1; [|discriminate]. cbn [bind].
    destruct (_ || _)%bool.
    - destruct (q_of p2) as [q2|] eqn:E2; [|discriminate]. cbn [bind]. intro E. injection E as <- <-.
      now apply q_of_sol.
    - intro E. injection E as <- <-. now apply q_of_sol.
  Qed.

  (** The Jacobian is positive on a counterclockwise convex cell, negative on a clockwise one *)
  Lemma jac_corners p q : jac p q =
    (1 - p) * (1 - q) * cross x1 y1 x4 y4 x2 y2 + (1 - p) * q * cross x2 y2 x1 y1 x3 y3 +
    p * q * cross x3 y3 x2 y2 x4 y4 + p * (1 - q) * cross x4 y4 x3 y3 x1 y1.
  Proof. unfold jac, cross, a, b, c, d, e, f. ring. Qed.
  Lemma weights_pos w1 w2 w3 w4 p q : 0 <= p <= 1 -> 0 <= q <= 1 ->
    0 < w1 -> 0 < w2 -> 0 < w3 -> 0 < w4 ->
    0 < (1 - p) * (1 - q) * w1 + (1 - p) * q * w2 + p * q * w3 + p * (1 - q) * w4.
  Proof.
    intros Hp Hq H1 H2 H3 H4.
    set (m := Rmin (Rmin w1 w2) (Rmin w3 w4)).
    assert (Hm : 0 < m) by (unfold m; repeat apply Rmin_glb_lt; auto).
    assert (M1 : m <= w1) by (unfold m; eapply Rle_trans; [apply Rmin_l|apply Rmin_l]).
    assert (M2 : m <= w2) by (unfold m; eapply Rle_trans; [apply Rmin_l|apply Rmin_r]).
    assert (M3 : m <= w3) by (unfold m; eapply Rle_trans; [apply Rmin_r|apply Rmin_l]).
    assert (M4 : m <= w4) by (unfold m; eapply Rle_trans; [apply Rmin_r|apply Rmin_r]).
    assert (P1 : 0 <= (1 - p) * (1 - q)) by (apply Rmult_le_pos; lra).
    assert (P2 : 0 <= (1 - p) * q) by (apply Rmult_le_pos; lra).
    assert (P3 : 0 <= p * q) by (apply Rmult_le_pos; lra).
    assert (P4 : 0 <= p * (1 - q)) by (apply Rmult_le_pos; lra).
    assert (E : m = (1 - p) * (1 - q) * m + (1 - p) * q * m + p * q * m + p * (1 - q) * m) by ring.
    assert (L1 := Rmult_le_compat_l _ _ _ P1 M1). assert (L2 := Rmult_le_compat_l _ _ _ P2 M2).
    assert (L3 := Rmult_le_compat_l _ _ _ P3 M3). assert (L4 := Rmult_le_compat_l _ _ _ P4 M4).
    lra.
  Qed.
  Definition ccw : Prop := 0 < cross x1 y1 x4 y4 x2 y2 /\ 0 < cross x4 y4 x3 y3 x1 y1 /\
   0 < cross x3 y3 x2 y2 x4 y4 /\ 0 < cross x2 y2 x1 y1 x3 y3.
  Definition cw : Prop := cross x1 y1 x4 y4 x2 y2 < 0 /\ cross x4 y4 x3 y3 x1 y1 < 0 /\
   cross x3 y3 x2 y2 x4 y4 < 0 /\ cross x2 y2 x1 y1 x3 y3 < 0.
  Lemma jac_ccw p q : ccw -> 0 <= p <= 1 -> 0 <= q <= 1 -> 0 < jac p q.
  Proof.
    intros (H1 & H2 & H3 & H4) Hp Hq. rewrite jac_corners. apply weights_pos; auto.
  Qed.
  Lemma jac_cw p q : cw -> 0 <= p <= 1 -> 0 <= q <= 1 -> jac p q < 0.
  Proof.
    intros (H1 & H2 & H3 & H4) Hp Hq. rewrite jac_corners.
    assert (H := weights_pos (- cross x1 y1 x4 y4 x2 y2) (- cross x2 y2 x1 y1 x3 y3)
      (- cross x3 y3 x2 y2 x4 y4) (- cross x4 y4 x3 y3 x1 y1) p q Hp Hq).
    assert (H' := H ltac:(lra) ltac:(lra) ltac:(lra) ltac:(lra)). lra.
  Qed.

  Lemma outside_false p q : 0 <= p <= 1 -> 0 <= q <= 1 ->
    (rltb p 0 || rltb 1 p || rltb q 0 || rltb 1 q)%bool = false.
  Proof.
    intros Hp Hq. rewrite !orb_false_iff, !rltb_false. lra.
  Qed.
  Lemma outside_iff p q : (rltb p 0 || rltb 1 p || rltb q 0 || rltb 1 q)%bool = false ->
    0 <= p <= 1 /\ 0 <= q <= 1.
  Proof. rewrite !orb_false_iff, !rltb_false. lra. Qed.

  Section Inverse.
    Variables p0 q0 : R.
    Hypothesis Hp : 0 <= p0 <= 1.
    Hypothesis Hq : 0 <= q0 <= 1.
    Hypothesis Hsol : sol p0 q0.
    Hypothesis HA : AA = 0 \/ eps * 2 <= Rabs AA.
    Lemma roots_exact : jac p0 q0 <> 0 ->
      exists p1 p2, roots = Ok (p1, p2) /\
        (AA = 0 -> p1 = p0 /\ p2 = p0) /\
        (0 < jac p0 q0 -> p1 = p0) /\
        (jac p0 q0 < 0 -> p2 = p0 /\ (AA <> 0 -> 2 * AA * p1 + BB = jac p0 q0)).
    Proof.
      intro Hj. assert (HD := sol_deriv p0 q0 Hsol). assert (HQ := sol_quad p0 q0 Hsol).
      unfold roots. assert (He := eps_pos). destruct (rltb (Rabs AA) (eps * 2)) eqn:Es.
      - apply rltb_true in Es. destruct HA as [HA0|HA0]; [|lra].
        rewrite HA0 in HD, HQ. rewrite rdiv_ne by lra. cbn [bind].
        assert (Ep : - CC / BB = p0).
        { apply Rmult_eq_reg_r with BB; [|lra]. unfold Rdiv. rewrite Rmult_assoc, Rinv_l by lra. lra. }
        rewrite Ep. exists p0, p0. split; auto. split; auto. split; auto. intro; split; auto.
        intro; contradiction.
      - apply rltb_false in Es. assert (Hne : AA <> 0).
        { intro H. rewrite H, Rabs_R0 in Es. lra. }
        assert (Edd : BB ^ 2 - 4 * AA * CC = (jac p0 q0)²).
        { unfold Rsqr. replace (jac p0 q0) with (- (2 * AA * p0 + BB)) by lra.
          replace CC with (- (AA * p0 ^ 2 + BB * p0)) by lra. ring. }
        rewrite Edd. unfold rsqrt. assert (Hr : rltb (jac p0 q0)² 0 = false).
        { apply rltb_false. apply Rle_0_sqr. }
        rewrite Hr. cbn [bind]. rewrite sqrt_Rsqr_abs. rewrite !rdiv_ne by lra. cbn [bind].
        eexists _, _. split; [reflexivity|]. split; [contradiction|].
        assert (Eb : BB = - jac p0 q0 - 2 * AA * p0) by lra.
        split.
        + intro Hpos. rewrite (Rabs_right (jac p0 q0)) by lra.
          replace (- BB - jac p0 q0) with (2 * AA * p0) by lra. field. lra.
        + intro Hneg. rewrite (Rabs_left (jac p0 q0)) by lra. split.
          * replace (- BB + - jac p0 q0) with (2 * AA * p0) by lra. field. lra.
          * intros _. field_simplify; lra.
    Qed.
    Lemma cell_ccw : ccw ->
      q_of p0 = Ok q0 \/ q_of p0 = Raise ZeroDivisionError ->
      cell2relloc x1 x2 x3 x4 y1 y2 y3 y4 x y =
      let* q := q_of p0 in Ok (p0, q0).
    Proof.
      intros Hc Hqo. assert (Hj := jac_ccw p0 q0 Hc Hp Hq).
      destruct roots_exact as (p1 & p2 & Er & _ & H1 & _); [lra|].
      rewrite cell2relloc_eq, Er. cbn [bind]. rewrite (H1 Hj).
      destruct Hqo as [Eq|Eq]; rewrite Eq; cbn [bind]; auto.
      now rewrite outside_false.
    Qed.
    Lemma cell_exact r : ccw \/ cw ->
      cell2relloc x1 x2 x3 x4 y1 y2 y3 y4 x y = Ok r -> r = (p0, q0).
    Proof.
      intros Hc. rewrite cell2relloc_eq.
      assert (Hj : jac p0 q0 <> 0).
      { destruct Hc as [Hc|Hc]; [assert (H := jac_ccw p0 q0 Hc Hp Hq)|assert (H := jac_cw p0 q0 Hc Hp Hq)]; lra. }
      destruct (roots_exact Hj) as (p1 & p2 & Er & H0 & H1 & H2). rewrite Er. cbn [bind].
      destruct (q_of p1) as [q1|] eqn:E1; [|discriminate]. cbn [bind].
      destruct (Req_dec p1 p0) as [Hp1|Hp1].
      - rewrite Hp1 in *. rewrite (q_of_exact p0 q0 q1 Hsol E1). rewrite outside_false by auto. congruence.
      - assert (Hneg : jac p0 q0 < 0).
        { destruct (Rtotal_order (jac p0 q0) 0) as [|[|H]]; auto; [contradiction|]. now apply H1 in H. }
        destruct Hc as [Hc|Hc]; [assert (H := jac_ccw p0 q0 Hc Hp Hq); lra|].
        destruct (H2 Hneg) as [-> HAp]. destruct (Req_dec AA 0) as [HA0|HA0]; [now apply H0 in HA0|].
        specialize (HAp HA0).
        destruct (_ || _)%bool eqn:Eo.
        + destruct (q_of p0) as [q2|] eqn:E2; [|discriminate]. cbn [bind].
          rewrite (q_of_exact p0 q0 q2 Hsol E2). congruence.
        + apply outside_iff in Eo. destruct Eo as [O1 O2]. exfalso.
          assert (Hs1 : sol p1 q1).
          { apply q_of_sol; auto. now apply (roots_quad p1 p0 HA). }
          assert (HD := sol_deriv p1 q1 Hs1). assert (HJ := jac_cw p1 q1 Hc O1 O2). lra.
    Qed.
    Lemma cell_raise er : ccw \/ cw ->
      cell2relloc x1 x2 x3 x4 y1 y2 y3 y4 x y = Raise er -> er = ZeroDivisionError.
    Proof.
      intros Hc. rewrite cell2relloc_eq.
      assert (Hj : jac p0 q0 <> 0).
      { destruct Hc as [Hc|Hc]; [assert (H := jac_ccw p0 q0 Hc Hp Hq)|assert (H := jac_cw p0 q0 Hc Hp Hq)]; lra. }
      destruct (roots_exact Hj) as (p1 & p2 & Er & _). rewrite Er. cbn [bind].
      destruct (q_of p1) as [q1|] eqn:E1; cbn [bind].
      - destruct (_ || _)%bool; [|discriminate].
        destruct (q_of p2) as [q2|] eqn:E2; cbn [bind]; [discriminate|].
        intro E. injection E as <-. now apply q_of_raise in E2.
      - intro E. injection E as <-. now apply q_of_raise in E1.
    Qed.
    Lemma q_of_cases : e + f * p0 <> 0 \/ eps * 2 < Rabs (b + c * p0) -> q_of p0 = Ok q0.
    Proof.
      intro H. destruct (q_of p0) as [r|er] eqn:E.
      - f_equal. now apply q_of_exact with p0.
      - exfalso. unfold q_of in E. assert (He := eps_pos). destruct (rltb _ _) eqn:El.
        + apply rdiv_raise in E. destruct E as [_ E]. apply rltb_true in El. rewrite E, Rabs_R0 in El. lra.
        + apply rdiv_raise in E. destruct E as [_ E]. apply rltb_false in El.
          destruct H; [contradiction|lra].
    Qed.
  End Inverse.
End Cell.
