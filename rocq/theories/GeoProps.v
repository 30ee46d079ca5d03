(** C11 (closest2d), C12 (cell2relloc), C13 (grid2relloc), on real numbers. *)
From Verif Require Import GeoProofs.
From Coq Require Import Lra.
Open Scope R_scope.

(** ** C11 *)
(** [haversine] is the great-circle distance on the unit sphere... *)
Theorem C11_haversine : forall lon0 lat0 lon1 lat1,
  haversine lon0 lat0 lon1 lat1 = 2 * asin (chord (sphere lon0 lat0) (sphere lon1 lat1) / 2) /\
  0 <= chord (sphere lon0 lat0) (sphere lon1 lat1) <= 2 /\
  0 <= haversine lon0 lat0 lon1 lat1 <= PI.
Proof.
  intros. split; [apply haversine_chord|]. assert (H := chord_bounds lon0 lat0 lon1 lat1).
  split; [exact H|]. rewrite haversine_chord. set (u := chord _ _) in *.
  assert (E0 : 0 = 2 * asin (0 / 2)). { replace (0 / 2) with 0 by lra. rewrite asin_0. lra. }
  assert (E1 : PI = 2 * asin (2 / 2)). { replace (2 / 2) with 1 by lra. rewrite asin_1. lra. }
  split.
  - rewrite E0 at 1. destruct (Req_dec u 0) as [->|]; [lra|]. left. apply dist_lt; lra.
  - rewrite E1. destruct (Req_dec u 2) as [->|]; [lra|]. left. apply dist_lt; lra.
Qed.
Print Assumptions C11_haversine.
(** ... so closest2d returns the first grid point, in scan order (column by column), at
    minimal distance, if the grid has a point that is not antipodal to the target. *)
Theorem C11_closest2d : forall xxi yyi nyi nxi xo yo i0 j0,
  rect xxi nyi nxi -> rect yyi nyi nxi ->
  let dist i j := chord (sphere xo yo) (sphere (at_ xxi j i) (at_ yyi j i)) in
  (i0 < nxi)%nat -> (j0 < nyi)%nat -> dist i0 j0 < 2 ->
  exists i j, closest2d xxi yyi xo yo = Ok (Z.of_nat i, Z.of_nat j) /\
    (i < nxi)%nat /\ (j < nyi)%nat /\
    (forall i' j', (i' < nxi)%nat -> (j' < nyi)%nat -> dist i j <= dist i' j') /\
    (forall i' j', (i' < nxi)%nat -> (j' < nyi)%nat ->
       (i' < i)%nat \/ (i' = i /\ (j' < j)%nat) -> dist i j < dist i' j').
Proof.
  intros xxi yyi nyi nxi xo yo i0 j0 Hx Hy dist Hi0 Hj0 Hd.
  assert (Hb : forall i j, 0 <= dist i j <= 2) by (intros; apply chord_bounds).
  assert (Hg : forall i j, gdist xxi yyi xo yo (i, j) = 2 * asin (dist i j / 2)).
  { intros. unfold gdist. cbn [fst snd]. apply haversine_chord. }
  rewrite (closest2d_scan xxi yyi nyi nxi Hx Hy xo yo) by lia.
  destruct (scan_min (gdist xxi yyi xo yo) (scan_order nxi nyi) None PI) as (H1 & H2 & H3).
  cbn zeta in *. destruct H3 as [H3|([i j] & l1 & l2 & Hl & H3 & H4 & H5)].
  - exfalso. rewrite H3 in H2. cbn [snd] in H2.
    specialize (H2 (i0, j0) (proj2 (scan_in _ _ _ _) (conj Hi0 Hj0))). rewrite Hg in H2.
    apply dist_pi in Hd; auto. lra.
  - rewrite H3 in *. cbn [fst snd] in *. exists i, j. split; [reflexivity|].
    assert (Hin : In (i, j) (scan_order nxi nyi)) by (rewrite Hl; apply in_or_app; simpl; auto).
    apply scan_in in Hin. destruct Hin as [Hi Hj]. split; auto. split; auto. split.
    + intros i' j' Hi' Hj'. specialize (H2 (i', j') (proj2 (scan_in _ _ _ _) (conj Hi' Hj'))).
      rewrite !Hg in H2. apply Rnot_lt_le. intro H. apply dist_lt in H; auto. lra.
    + intros i' j' Hi' Hj' Hlex. assert (Hbef : In (i', j') l1).
      { apply (scan_before nxi nyi l1 (i, j) l2); auto. apply scan_in; auto. }
      specialize (H5 _ Hbef). rewrite !Hg in H5. exact (proj1 (dist_lt _ _ (Hb _ _) (Hb _ _)) H5).
Qed.
Print Assumptions C11_closest2d.
(** Otherwise it raises: the indices are never set. *)
Theorem C11_antipodal : forall xxi yyi nyi nxi xo yo,
  rect xxi nyi nxi -> rect yyi nyi nxi -> (0 < nyi)%nat ->
  (closest2d xxi yyi xo yo = Raise UnboundLocalError <->
   forall i j, (i < nxi)%nat -> (j < nyi)%nat ->
     chord (sphere xo yo) (sphere (at_ xxi j i) (at_ yyi j i)) = 2).
Proof.
  intros xxi yyi nyi nxi xo yo Hx Hy Hn. split.
  - intros H i j Hi Hj. assert (Hb := chord_bounds xo yo (at_ xxi j i) (at_ yyi j i)).
    destruct (Req_dec (chord (sphere xo yo) (sphere (at_ xxi j i) (at_ yyi j i))) 2) as [|Hne]; auto.
    destruct (C11_closest2d xxi yyi nyi nxi xo yo i j Hx Hy Hi Hj) as (i' & j' & E & _); [lra|].
    congruence.
  - intro H. rewrite (closest2d_scan xxi yyi nyi nxi Hx Hy xo yo Hn).
    destruct (scan_min (gdist xxi yyi xo yo) (scan_order nxi nyi) None PI) as (H1 & H2 & H3).
    cbn zeta in *. destruct H3 as [->|([i j] & l1 & l2 & Hl & H3 & H4 & H5)]; [reflexivity|].
    exfalso. assert (Hin : In (i, j) (scan_order nxi nyi)) by (rewrite Hl; apply in_or_app; simpl; auto).
    apply scan_in in Hin. destruct Hin as [Hi Hj]. specialize (H i j Hi Hj).
    unfold gdist in H4. cbn [fst snd] in H4. rewrite haversine_chord, H in H4.
    replace (2 / 2) with 1 in H4 by lra. rewrite asin_1 in H4. lra.
Qed.
Print Assumptions C11_antipodal.
(** A target that is a grid node is found at distance zero. *)
Lemma chord_self p : chord p p = 0.
Proof.
  destruct p as [[x y] z]. unfold chord.
  replace ((x - x)^2 + (y - y)^2 + (z - z)^2) with 0 by ring. apply sqrt_0.
Qed.
Theorem C11_node : forall xxi yyi nyi nxi i0 j0,
  rect xxi nyi nxi -> rect yyi nyi nxi -> (i0 < nxi)%nat -> (j0 < nyi)%nat ->
  let xo := at_ xxi j0 i0 in let yo := at_ yyi j0 i0 in
  exists i j, closest2d xxi yyi xo yo = Ok (Z.of_nat i, Z.of_nat j) /\
    sphere (at_ xxi j i) (at_ yyi j i) = sphere xo yo.
Proof.
  intros xxi yyi nyi nxi i0 j0 Hx Hy Hi Hj xo yo.
  destruct (C11_closest2d xxi yyi nyi nxi xo yo i0 j0 Hx Hy Hi Hj) as (i & j & E & _ & _ & Hm & _).
  { unfold xo, yo. rewrite chord_self. lra. }
  exists i, j. split; auto. specialize (Hm i0 j0 Hi Hj). unfold xo, yo in Hm. rewrite chord_self in Hm.
  assert (Hb := chord_bounds xo yo (at_ xxi j i) (at_ yyi j i)). fold xo yo in Hm.
  assert (E0 : chord (sphere xo yo) (sphere (at_ xxi j i) (at_ yyi j i)) = 0) by lra.
  unfold chord in E0. destruct (sphere xo yo) as [[x y] z], (sphere (at_ xxi j i) (at_ yyi j i)) as [[x' y'] z'].
  pose proof (pow2_ge_0 (x - x')). pose proof (pow2_ge_0 (y - y')). pose proof (pow2_ge_0 (z - z')).
  apply sqrt_eq_0 in E0; [|lra].
  assert (Hz : forall u, u ^ 2 = 0 -> u = 0).
  { intros u Hu. replace (u ^ 2) with (u * u) in Hu by ring. apply Rmult_integral in Hu. tauto. }
  assert (A1 : x - x' = 0) by (apply Hz; lra). assert (A2 : y - y' = 0) by (apply Hz; lra).
  assert (A3 : z - z' = 0) by (apply Hz; lra). f_equal; [f_equal|]; lra.
Qed.
Print Assumptions C11_node.
Example C11_ex : exists i j,
  closest2d [[0; 10; 20]; [0; 10; 20]] [[40; 40; 40]; [50; 50; 50]] 10 50 = Ok (i, j).
Proof.
  destruct (C11_node [[0; 10; 20]; [0; 10; 20]] [[40; 40; 40]; [50; 50; 50]] 2 3 1 1)
    as (i & j & E & _); try lia.
  - split; [reflexivity|]. repeat constructor.
  - split; [reflexivity|]. repeat constructor.
  - exists (Z.of_nat i), (Z.of_nat j). exact E.
Qed.

(** ** C12 *)
(** A returned pair is a solution of the bilinear equations, if the sides 1-4 and 2-3 are
    parallel or clearly not ([skew] is their cross product). *)
Theorem C12_sound : forall x1 x2 x3 x4 y1 y2 y3 y4 x y p q,
  let skew := (x3 - x2) * (y4 - y1) - (x4 - x1) * (y3 - y2) in
  skew = 0 \/ 2 * / 2 ^ 52 <= Rabs skew ->
  cell2relloc x1 x2 x3 x4 y1 y2 y3 y4 x y = Ok (p, q) ->
  bilin x1 x2 x3 x4 p q = x /\ bilin y1 y2 y3 y4 p q = y.
Proof.
  change (/ 2 ^ 52) with eps.
  intros x1 x2 x3 x4 y1 y2 y3 y4 x y p q sk Hs E. apply sol_bilin.
  apply cell_sound in E; auto. unfold skew. fold sk. lra.
Qed.
Print Assumptions C12_sound.
(** In a strictly convex cell of any orientation, for a point of the cell, the returned
    pair can only be the weights of this point; the only exception is ZeroDivisionError. *)
Theorem C12_inverse : forall x1 x2 x3 x4 y1 y2 y3 y4 p q,
  let skew := (x3 - x2) * (y4 - y1) - (x4 - x1) * (y3 - y2) in
  skew = 0 \/ 2 * / 2 ^ 52 <= Rabs skew ->
  convex x1 x2 x3 x4 y1 y2 y3 y4 -> 0 <= p <= 1 -> 0 <= q <= 1 ->
  let r := cell2relloc x1 x2 x3 x4 y1 y2 y3 y4
             (bilin x1 x2 x3 x4 p q) (bilin y1 y2 y3 y4 p q) in
  r = Ok (p, q) \/ r = Raise ZeroDivisionError.
Proof.
  change (/ 2 ^ 52) with eps.
  intros x1 x2 x3 x4 y1 y2 y3 y4 p q sk Hs Hc Hp Hq r.
  assert (Hsol : sol x1 x2 x3 x4 y1 y2 y3 y4 (bilin x1 x2 x3 x4 p q) (bilin y1 y2 y3 y4 p q) p q)
    by (apply sol_bilin; auto).
  assert (HA := skew_AA x1 x2 x3 x4 y1 y2 y3 y4). unfold skew in HA. fold sk in HA.
  assert (Hs' : (x3 - x4 - x2 + x1) * (y4 - y1) - (x4 - x1) * (y3 - y4 - y2 + y1) = 0 \/
    eps * 2 <= Rabs ((x3 - x4 - x2 + x1) * (y4 - y1) - (x4 - x1) * (y3 - y4 - y2 + y1))).
  { rewrite HA. lra. }
  destruct r as [r'|e] eqn:E; unfold r in E.
  - left. f_equal. exact (cell_exact _ _ _ _ _ _ _ _ _ _ p q Hp Hq Hsol Hs' r' Hc E).
  - right. f_equal. exact (cell_raise _ _ _ _ _ _ _ _ _ _ p q Hp Hq Hsol Hs' e Hc E).
Qed.
Print Assumptions C12_inverse.
(** In a counterclockwise cell (1-4-3-2, e.g. increasing longitudes and latitudes) it is
    returned, if the segment that joins the two sides through the point is not reduced to
    a horizontal one smaller than the precision. *)
Theorem C12_inverse_ccw : forall x1 x2 x3 x4 y1 y2 y3 y4 p q,
  let skew := (x3 - x2) * (y4 - y1) - (x4 - x1) * (y3 - y2) in
  skew = 0 \/ 2 * / 2 ^ 52 <= Rabs skew ->
  0 < cross x1 y1 x4 y4 x2 y2 -> 0 < cross x4 y4 x3 y3 x1 y1 ->
  0 < cross x3 y3 x2 y2 x4 y4 -> 0 < cross x2 y2 x1 y1 x3 y3 ->
  0 <= p <= 1 -> 0 <= q <= 1 ->
  bilin y1 y2 y3 y4 p 1 <> bilin y1 y2 y3 y4 p 0 \/
  2 * / 2 ^ 52 < Rabs (bilin x1 x2 x3 x4 p 1 - bilin x1 x2 x3 x4 p 0) ->
  cell2relloc x1 x2 x3 x4 y1 y2 y3 y4
    (bilin x1 x2 x3 x4 p q) (bilin y1 y2 y3 y4 p q) = Ok (p, q).
Proof.
  change (/ 2 ^ 52) with eps.
  intros x1 x2 x3 x4 y1 y2 y3 y4 p q sk Hs C1 C2 C3 C4 Hp Hq Hd.
  assert (Hsol : sol x1 x2 x3 x4 y1 y2 y3 y4 (bilin x1 x2 x3 x4 p q) (bilin y1 y2 y3 y4 p q) p q)
    by (apply sol_bilin; auto).
  assert (HA := skew_AA x1 x2 x3 x4 y1 y2 y3 y4). unfold skew in HA. fold sk in HA.
  assert (Hs' : (x3 - x4 - x2 + x1) * (y4 - y1) - (x4 - x1) * (y3 - y4 - y2 + y1) = 0 \/
    eps * 2 <= Rabs ((x3 - x4 - x2 + x1) * (y4 - y1) - (x4 - x1) * (y3 - y4 - y2 + y1))).
  { rewrite HA. lra. }
  assert (Hq0 : q_of x1 x2 x3 x4 y1 y2 y3 y4 (bilin x1 x2 x3 x4 p q) (bilin y1 y2 y3 y4 p q) p = Ok q).
  { apply q_of_cases; auto. unfold bilin in Hd. destruct Hd as [Hd|Hd].
    - left. intro H. apply Hd. lra.
    - right. replace (x2 - x1 + (x3 - x4 - x2 + x1) * p) with
        ((1 - p) * (1 - 1) * x1 + (1 - p) * 1 * x2 + p * 1 * x3 + p * (1 - 1) * x4 -
         ((1 - p) * (1 - 0) * x1 + (1 - p) * 0 * x2 + p * 0 * x3 + p * (1 - 0) * x4)) by ring.
      lra. }
  assert (H := cell_ccw _ _ _ _ _ _ _ _ _ _ p q Hp Hq Hsol Hs'
    (conj C1 (conj C2 (conj C3 C4))) (or_introl Hq0)).
  rewrite Hq0 in H. exact H.
Qed.
Print Assumptions C12_inverse_ccw.
(** Parallelograms, of any orientation. *)
Theorem C12_parallelogram : forall x1 x2 x4 y1 y2 y4 p q,
  (x4 - x1) * (y2 - y1) - (x2 - x1) * (y4 - y1) <> 0 ->
  y2 <> y1 \/ 2 * / 2 ^ 52 < Rabs (x2 - x1) -> 0 <= p <= 1 -> 0 <= q <= 1 ->
  cell2relloc x1 x2 (x2 + x4 - x1) x4 y1 y2 (y2 + y4 - y1) y4
    (x1 + p * (x4 - x1) + q * (x2 - x1)) (y1 + p * (y4 - y1) + q * (y2 - y1)) = Ok (p, q).
Proof.
  change (/ 2 ^ 52) with eps.
  intros x1 x2 x4 y1 y2 y4 p q Hdet Hd Hp Hq.
  set (x := x1 + p * (x4 - x1) + q * (x2 - x1)). set (y := y1 + p * (y4 - y1) + q * (y2 - y1)).
  assert (Hsol : sol x1 x2 (x2 + x4 - x1) x4 y1 y2 (y2 + y4 - y1) y4 x y p q).
  { split; unfold x, y; ring. }
  set (AA := ((x2 + x4 - x1) - x4 - x2 + x1) * (y4 - y1) - (x4 - x1) * ((y2 + y4 - y1) - y4 - y2 + y1)).
  assert (HA0 : AA = 0) by (unfold AA; ring).
  assert (Hj : jac x1 x2 (x2 + x4 - x1) x4 y1 y2 (y2 + y4 - y1) y4 p q <> 0).
  { unfold jac. intro H. apply Hdet. rewrite <- H. ring. }
  destruct (roots_exact x1 x2 (x2 + x4 - x1) x4 y1 y2 (y2 + y4 - y1) y4 x y p q Hsol (or_introl HA0) Hj)
    as (p1 & p2 & Er & H0 & _). destruct (H0 HA0) as [-> ->].
  assert (Hq0 : q_of x1 x2 (x2 + x4 - x1) x4 y1 y2 (y2 + y4 - y1) y4 x y p = Ok q).
  { apply q_of_cases; auto. destruct Hd as [Hd|Hd].
    - left. intro H. apply Hd. lra.
    - right. replace (x2 - x1 + ((x2 + x4 - x1) - x4 - x2 + x1) * p) with (x2 - x1) by ring. lra. }
  rewrite cell2relloc_eq, Er. cbn [bind]. rewrite Hq0. cbn [bind]. now rewrite outside_false.
Qed.
Print Assumptions C12_parallelogram.
Lemma eps_small : eps < / 1000.
Proof. unfold eps. apply Rinv_lt_contravar; lra. Qed.
(** Instances: a counterclockwise cell with sides that are not parallel, and the
    parallelogram of the documentation of cell2relloc. *)
Example C12_ex : cell2relloc 0 0 2 1 0 1 2 0 (bilin 0 0 2 1 (1/4) (1/2)) (bilin 0 1 2 0 (1/4) (1/2))
  = Ok (1/4, 1/2).
Proof.
  assert (He := eps_small). apply C12_inverse_ccw; unfold cross, bilin; try lra.
  right. replace ((2 - 0) * (0 - 0) - (1 - 0) * (2 - 1)) with (-1) by lra.
  rewrite Rabs_left by lra. lra.
Qed.
Example C12_ex_doc : cell2relloc 0 (-2) 0 2 0 1 1 0 0 (1/2) = Ok (1/2, 1/2).
Proof.
  assert (H := C12_parallelogram 0 (-2) 2 0 1 0 (1/2) (1/2)).
  replace (-2 + 2 - 0) with 0 in H by lra. replace (1 + 0 - 0) with 1 in H by lra.
  replace (0 + 1 / 2 * (2 - 0) + 1 / 2 * (-2 - 0)) with 0 in H by lra.
  replace (0 + 1 / 2 * (0 - 0) + 1 / 2 * (1 - 0)) with (1/2) in H by lra. apply H; lra.
Qed.
(** Clockwise cells: a division by zero for a point in the middle of a trapezoid. *)
Theorem C12_clockwise_refuted : exists x1 x2 x3 x4 y1 y2 y3 y4,
  convex x1 x2 x3 x4 y1 y2 y3 y4 /\
  2 * / 2 ^ 52 <= Rabs ((x3 - x2) * (y4 - y1) - (x4 - x1) * (y3 - y2)) /\
  cell2relloc x1 x2 x3 x4 y1 y2 y3 y4
    (bilin x1 x2 x3 x4 (1/2) (1/2)) (bilin y1 y2 y3 y4 (1/2) (1/2)) = Raise ZeroDivisionError.
Proof.
  change (/ 2 ^ 52) with eps.
  exists 0, 0, (-1), (-1), 0, 1, 2, 0. assert (He := eps_small). assert (He0 := eps_pos).
  split; [|split].
  - right. unfold cross. lra.
  - replace ((-1 - 0) * (0 - 0) - (-1 - 0) * (2 - 1)) with 1 by lra. rewrite Rabs_right by lra. lra.
  - rewrite cell2relloc_eq.
    replace (bilin 0 0 (-1) (-1) (1/2) (1/2)) with (-1/2) by (unfold bilin; lra).
    replace (bilin 0 1 2 0 (1/2) (1/2)) with (3/4) by (unfold bilin; lra).
    assert (Er : roots 0 0 (-1) (-1) 0 1 2 0 (-1/2) (3/4) = Ok (-1, 1/2)).
    { unfold roots. replace ((-1 - -1 - 0 + 0) * (0 - 0) - (-1 - 0) * (2 - 0 - 1 + 0)) with 1 by lra.
      rewrite Rabs_right by lra. assert (E : rltb 1 (eps * 2) = false) by (apply rltb_false; lra).
      rewrite E.
      replace (- (-1 - -1 - 0 + 0) * (3 / 4 - 0) + (0 - 0) * (0 - 0) + (-1 / 2 - 0) * (2 - 0 - 1 + 0) - (-1 - 0) * (1 - 0))
        with (1/2) by lra.
      replace (- (3 / 4 - 0) * (0 - 0) + (1 - 0) * (-1 / 2 - 0)) with (-1/2) by lra.
      replace ((1 / 2) ^ 2 - 4 * 1 * (-1 / 2)) with ((3/2) * (3/2)) by lra.
      unfold rsqrt. assert (E2 : rltb (3 / 2 * (3 / 2)) 0 = false) by (apply rltb_false; lra).
      rewrite E2. cbn [bind]. rewrite sqrt_square by lra.
      rewrite !rdiv_ne by lra. cbn [bind]. f_equal. f_equal; lra. }
    rewrite Er. cbn [bind]. unfold q_of at 1.
    replace (0 - 0 + (-1 - -1 - 0 + 0) * -1) with 0 by lra. rewrite Rabs_R0.
    assert (E : rltb (eps * 2) 0 = false) by (apply rltb_false; lra). rewrite E.
    replace (1 - 0 + (2 - 0 - 1 + 0) * -1) with 0 by lra.
    unfold rdiv at 1. destruct (Req_EM_T 0 0); [reflexivity|lra].
Qed.
Print Assumptions C12_clockwise_refuted.

(** ** C13 *)
Lemma pyrange_one a b : pyrange (Z.max (a - 1) 0) (Z.min a b) =
  if ((1 <=? a) && (a <=? b))%Z then [a - 1]%Z else [].
Proof.
  unfold pyrange. destruct (1 <=? a)%Z eqn:E1; cbn [andb].
  - apply Z.leb_le in E1. rewrite Z.max_l by lia. destruct (a <=? b)%Z eqn:E2.
    + apply Z.leb_le in E2. rewrite Z.min_l by lia.
      replace (Z.to_nat (a - (a - 1))) with 1%nat by lia. cbn [seq map]. f_equal. lia.
    + apply Z.leb_gt in E2. rewrite Z.min_r by lia.
      replace (Z.to_nat (b - (a - 1))) with 0%nat by lia. reflexivity.
  - apply Z.leb_gt in E1. rewrite Z.max_r by lia.
    replace (Z.to_nat (Z.min a b - 0)) with 0%nat by lia. reflexivity.
Qed.
(** A location that is returned is true: integer part (i, j) is the cell whose upper right
    corner is the closest node, fractional part (a, b) is the relative location. *)
Theorem C13_sound : forall xxi yyi nyi nxi xo yo p q,
  rect xxi nyi nxi -> rect yyi nyi nxi -> (0 < nyi)%nat ->
  grid2relloc xxi yyi xo yo = Ok (p, q) ->
  (p, q) = (-1, -1) \/
  exists i j a b,
    closest2d xxi yyi xo yo = Ok (Z.of_nat (S i), Z.of_nat (S j)) /\
    (i + 2 < nxi)%nat /\ (j + 2 < nyi)%nat /\
    p = INR i + a /\ q = INR j + b /\ - / 2 ^ 52 <= a <= 1 + / 2 ^ 52 /\ - / 2 ^ 52 <= b <= 1 + / 2 ^ 52 /\
    let X k l := at_ xxi (j + l) (i + k) in let Y k l := at_ yyi (j + l) (i + k) in
    let skew := (X 1%nat 1%nat - X 0%nat 1%nat) * (Y 1%nat 0%nat - Y 0%nat 0%nat)
                - (X 1%nat 0%nat - X 0%nat 0%nat) * (Y 1%nat 1%nat - Y 0%nat 1%nat) in
    (skew = 0 \/ 2 * / 2 ^ 52 <= Rabs skew ->
     bilin (X 0%nat 0%nat) (X 0%nat 1%nat) (X 1%nat 1%nat) (X 1%nat 0%nat) a b = xo /\
     bilin (Y 0%nat 0%nat) (Y 0%nat 1%nat) (Y 1%nat 1%nat) (Y 1%nat 0%nat) a b = yo).
Proof.
  change (/ 2 ^ 52) with eps.
  intros xxi yyi nyi nxi xo yo p q Hx Hy Hn. unfold grid2relloc.
  rewrite (nx_eq nyi nxi xxi Hx Hn). unfold ny. rewrite (proj1 Hx).
  destruct (closest2d xxi yyi xo yo) as [[ic jc]|] eqn:Ec; [|discriminate]. cbn [bind].
  rewrite !pyrange_one.
  destruct ((1 <=? ic) && (ic <=? Z.of_nat nxi - 2))%Z eqn:Ei.
  2:{ cbn [for_each bind]. intro E. injection E as <- <-. auto. }
  apply andb_true_iff in Ei. destruct Ei as [I1 I2]. apply Z.leb_le in I1, I2.
  destruct ((1 <=? jc) && (jc <=? Z.of_nat nyi - 2))%Z eqn:Ej.
  2:{ cbn [for_each bind]. intro E. injection E as <- <-. auto. }
  apply andb_true_iff in Ej. destruct Ej as [J1 J2]. apply Z.leb_le in J1, J2.
  set (i := Z.to_nat (ic - 1)). set (j := Z.to_nat (jc - 1)).
  assert (Hi : (ic - 1)%Z = Z.of_nat i) by (unfold i; lia).
  assert (Hj : (jc - 1)%Z = Z.of_nat j) by (unfold j; lia).
  rewrite Hi, Hj. cbn [for_each]. unfold relloc_step.
  replace (Z.of_nat i + 1)%Z with (Z.of_nat (i + 1)) by lia.
  replace (Z.of_nat j + 1)%Z with (Z.of_nat (j + 1)) by lia.
  rewrite (nth_at nyi nxi xxi j i Hx), (nth_at nyi nxi xxi (j+1) i Hx),
    (nth_at nyi nxi xxi (j+1) (i+1) Hx), (nth_at nyi nxi xxi j (i+1) Hx),
    (nth_at nyi nxi yyi j i Hy), (nth_at nyi nxi yyi (j+1) i Hy),
    (nth_at nyi nxi yyi (j+1) (i+1) Hy), (nth_at nyi nxi yyi j (i+1) Hy) by lia.
  cbn [bindc].
  destruct (cell2relloc _ _ _ _ _ _ _ _ xo yo) as [[a b]|e] eqn:E2; [|discriminate]. cbn [bindc].
  destruct (rleb _ _ && _ && _ && _)%bool eqn:Eb.
  2:{ cbn [for_each bind]. intro E. injection E as <- <-. auto. }
  cbn [for_each bind]. intro E. injection E as <- <-. right. exists i, j, a, b.
  rewrite !andb_true_iff, !rleb_true in Eb.
  split; [do 2 f_equal; lia|]. split; [lia|]. split; [lia|].
  split; [now rewrite INR_IZR_INZ|]. split; [now rewrite INR_IZR_INZ|].
  split; [lra|]. split; [lra|]. rewrite !Nat.add_0_r. intro Hsk.
  exact (C12_sound _ _ _ _ _ _ _ _ _ _ a b Hsk E2).
Qed.
Print Assumptions C13_sound.
(** A case that meets it: the central node of a 3x3 grid. *)
Lemma lat_inj l l' : -90 <= l <= 90 -> -90 <= l' <= 90 -> sin (PI / 180 * l) = sin (PI / 180 * l') -> l = l'.
Proof.
  intros H H' E. assert (HP := PI_RGT_0).
  assert (B : forall u, -90 <= u <= 90 -> - (PI / 2) <= PI / 180 * u <= PI / 2).
  { intros u Hu. assert (L1 : PI * (- (1 / 2)) <= PI * (u / 180)) by (apply Rmult_le_compat_l; lra).
    assert (L2 : PI * (u / 180) <= PI * (1 / 2)) by (apply Rmult_le_compat_l; lra).
    split; lra. }
  apply sin_inj in E; auto. apply Rmult_eq_reg_l with (PI / 180); lra.
Qed.
Definition gx : rarr := [[0; 1; 2]; [0; 1; 2]; [0; 1; 2]].
Definition gy : rarr := [[0; 0; 0]; [1; 1; 1]; [2; 2; 2]].
Example C13_ex : grid2relloc gx gy 1 1 = Ok (1, 1).
Proof.
  assert (Hx : rect gx 3 3) by (split; [reflexivity|repeat constructor]).
  assert (Hy : rect gy 3 3) by (split; [reflexivity|repeat constructor]).
  assert (Ec : closest2d gx gy 1 1 = Ok (1, 1)%Z).
  { destruct (C11_closest2d gx gy 3 3 1 1 1 1 Hx Hy) as (i & j & E & Hi & Hj & Hm & _); try lia.
    { unfold at_, gx, gy. cbn [nth]. rewrite chord_self. lra. }
    rewrite E. specialize (Hm 1%nat 1%nat ltac:(lia) ltac:(lia)).
    unfold at_ at 3 4 in Hm. unfold gx at 2 in Hm. unfold gy at 2 in Hm. cbn [nth] in Hm.
    rewrite chord_self in Hm.
    assert (Hv : exists lon lat, at_ gx j i = lon /\ at_ gy j i = lat /\
      lon = INR i /\ lat = INR j /\ 0 <= lon <= 2 /\ 0 <= lat <= 2).
    { do 3 (destruct i as [|i]; [do 3 (destruct j as [|j]; [do 2 eexists; unfold at_, gx, gy; cbn [nth];
        repeat split; simpl; lra|]); lia|]). lia. }
    destruct Hv as (lon & lat & E1 & E2 & E3 & E4 & H1 & H2). rewrite E1, E2 in Hm.
    unfold chord, sphere in Hm.
    set (cl := cos (PI / 180 * lon)) in *. set (sl := sin (PI / 180 * lon)) in *.
    set (ct := cos (PI / 180 * lat)) in *. set (st := sin (PI / 180 * lat)) in *.
    set (c1 := cos (PI / 180 * 1)) in *. set (s1 := sin (PI / 180 * 1)) in *.
    pose proof (pow2_ge_0 (c1 * c1 - ct * cl)). pose proof (pow2_ge_0 (c1 * s1 - ct * sl)).
    pose proof (pow2_ge_0 (s1 - st)).
    match type of Hm with sqrt ?z <= 0 => assert (Hs : sqrt z = 0) by (pose proof (sqrt_pos z); lra) end.
    apply sqrt_eq_0 in Hs; [|lra].
    assert (Hz : forall u, u ^ 2 = 0 -> u = 0).
    { intros u Hu. replace (u ^ 2) with (u * u) in Hu by ring. apply Rmult_integral in Hu. tauto. }
    assert (A3 : s1 - st = 0) by (apply Hz; lra). assert (A2 : c1 * s1 - ct * sl = 0) by (apply Hz; lra).
    assert (HP := PI_RGT_0).
    assert (L1 : lat = 1). { apply lat_inj; try lra. fold st s1. lra. }
    assert (Ect : ct = c1) by (unfold ct, c1; now rewrite L1).
    assert (Hc1 : 0 < c1) by (unfold c1; apply cos_gt_0; lra).
    assert (L2 : lon = 1).
    { apply lat_inj; try lra. fold sl s1. rewrite Ect in A2. apply Rmult_eq_reg_l with c1; lra. }
    rewrite L2 in E3. rewrite L1 in E4. change 1 with (INR 1) in E3, E4. apply INR_eq in E3, E4.
    subst i j. reflexivity. }
  unfold grid2relloc. rewrite Ec. cbn [bind]. rewrite !pyrange_one. cbn [nx ny gx List.length].
  replace ((1 <=? 1) && (1 <=? Z.of_nat 3 - 2))%Z with true by reflexivity.
  cbn [for_each]. change (1 - 1)%Z with 0%Z.
  assert (E : cell2relloc 0 0 1 1 0 1 1 0 1 1 = Ok (1, 1)).
  { assert (H := C12_parallelogram 0 0 1 0 1 0 1 1).
    replace (0 + 1 - 0) with 1 in H by lra. replace (1 + 0 - 0) with 1 in H by lra.
    replace (0 + 1 * (1 - 0) + 1 * (0 - 0)) with 1 in H by lra.
    replace (0 + 1 * (0 - 0) + 1 * (1 - 0)) with 1 in H by lra. apply H; lra. }
  unfold relloc_step.
  change 0%Z with (Z.of_nat 0). change (Z.of_nat 0 + 1)%Z with (Z.of_nat 1).
  rewrite !(nth_at 3 3 gx) by (auto; lia). rewrite !(nth_at 3 3 gy) by (auto; lia).
  unfold at_ at 1 2 3 4 5 6 7 8. unfold gx, gy. cbn [nth bindc].
  rewrite E. cbn [bindc].
  assert (He := eps_pos).
  assert (B : forall u v, u <= v -> rleb u v = true) by (intros; now apply rleb_true).
  change (IZR (Z.of_nat 0)) with 0. rewrite !B by lra. cbn [andb for_each bind]. f_equal. f_equal; lra.
Qed.
(** The last cell of each row and column is never searched; in particular nothing is ever
    found in a grid of two columns (one column of cells). *)
Theorem C13_two_columns_refuted : forall xxi yyi nyi xo yo r,
  rect xxi nyi 2 -> rect yyi nyi 2 -> (0 < nyi)%nat ->
  grid2relloc xxi yyi xo yo = Ok r -> r = (-1, -1).
Proof.
  intros xxi yyi nyi xo yo [p q] Hx Hy Hn E.
  destruct (C13_sound xxi yyi nyi 2 xo yo p q Hx Hy Hn E) as [H|(i & j & a & b & _ & H & _)]; auto. lia.
Qed.
Print Assumptions C13_two_columns_refuted.
(** For instance the center of the only cell of this grid is not found, although
    cell2relloc locates it. *)
Theorem C13_center_refuted :
  grid2relloc [[0; 1]; [0; 1]] [[0; 0]; [1; 1]] (1/2) (1/2) = Ok (-1, -1) /\
  cell2relloc 0 0 1 1 0 1 1 0 (1/2) (1/2) = Ok (1/2, 1/2).
Proof.
  assert (Hx : rect [[0; 1]; [0; 1]] 2 2) by (split; [reflexivity|repeat constructor]).
  assert (Hy : rect [[0; 0]; [1; 1]] 2 2) by (split; [reflexivity|repeat constructor]).
  split.
  - destruct (grid2relloc [[0; 1]; [0; 1]] [[0; 0]; [1; 1]] (1/2) (1/2)) as [r|e] eqn:E.
    + f_equal. exact (C13_two_columns_refuted _ _ 2 _ _ r Hx Hy ltac:(lia) E).
    + exfalso. unfold grid2relloc in E. cbn [nx ny List.length] in E.
      destruct (closest2d [[0; 1]; [0; 1]] [[0; 0]; [1; 1]] (1/2) (1/2)) as [[ic jc]|e'] eqn:Ec.
      * cbn [bind] in E. rewrite !pyrange_one in E. cbn [Z.of_nat] in E.
        destruct ((1 <=? ic) && (ic <=? Z.pos (Pos.of_succ_nat 1) - 2))%Z eqn:Ei.
        { apply andb_true_iff in Ei. destruct Ei as [I1 I2]. apply Z.leb_le in I1, I2. simpl in I2. lia. }
        cbn [for_each bind] in E. discriminate.
      * assert (Hu : e' = UnboundLocalError).
        { rewrite (closest2d_scan _ _ 2 2 Hx Hy) in Ec by lia.
          destruct (fst _) as [[? ?]|]; [discriminate|congruence]. }
        subst e'. apply (C11_antipodal _ _ 2 2 _ _ Hx Hy ltac:(lia)) with (i := 0%nat) (j := 0%nat) in Ec; try lia.
        (* both in the hemisphere x > 0 *)
        unfold at_ in Ec. cbn [nth] in Ec.
        assert (Hc : chord (sphere (1/2) (1/2)) (sphere 0 0) < 2).
        { unfold chord, sphere. rewrite !Rmult_0_r, cos_0, sin_0.
          match goal with |- sqrt ?z < 2 => apply Rlt_le_trans with (sqrt (2 * 2)); [|rewrite sqrt_square; lra] end.
          apply sqrt_lt_1_alt.
          set (t := PI / 180 * (1 / 2)). assert (Ht : 0 < t < PI / 2).
          { assert (HP := PI_RGT_0). unfold t. split; lra. }
          assert (Hcos : 0 < cos t) by (apply cos_gt_0; lra).
          assert (H1 := sin2_cos2 t). unfold Rsqr in H1.
          assert (Hcc : 0 < cos t * cos t) by (apply Rmult_lt_0_compat; auto).
          assert (HH : (cos t * cos t - 1 * 1) ^ 2 + (cos t * sin t - 1 * 0) ^ 2 + (sin t - 0) ^ 2
            = cos t * cos t * (sin t * sin t + cos t * cos t) + 1 - 2 * (cos t * cos t) + sin t * sin t) by ring.
          assert (Hss : 0 <= sin t * sin t) by (apply Rle_0_sqr).
          rewrite HH, H1. split; lra. }
        lra.
  - assert (H := C12_parallelogram 0 0 1 0 1 0 (1/2) (1/2)).
    replace (0 + 1 - 0) with 1 in H by lra. replace (1 + 0 - 0) with 1 in H by lra.
    replace (0 + 1 / 2 * (1 - 0) + 1 / 2 * (0 - 0)) with (1/2) in H by lra.
    replace (0 + 1 / 2 * (0 - 0) + 1 / 2 * (1 - 0)) with (1/2) in H by lra.
    apply H; lra.
Qed.
Print Assumptions C13_center_refuted.
(** grid2rellocs is grid2relloc point by point. *)
Theorem C13_points : forall xxi yyi xo yo rs, List.length xo = List.length yo ->
  grid2rellocs xxi yyi xo yo = Ok rs <->
  List.length rs = List.length xo /\
  forall k x y r, nth_error xo k = Some x -> nth_error yo k = Some y -> nth_error rs k = Some r ->
    grid2relloc xxi yyi x y = Ok r.
Proof.
  intros xxi yyi xo. induction xo as [|x xo IH]; intros [|y yo] rs Hl; try discriminate.
  - cbn [grid2rellocs]. split.
    + intro E. injection E as <-. split; auto. intros [|k]; discriminate.
    + intros [H _]. destruct rs; [reflexivity|discriminate].
  - cbn [grid2rellocs]. simpl in Hl. assert (Hl' : List.length xo = List.length yo) by lia. split.
    + destruct (grid2relloc xxi yyi x y) as [r|] eqn:E1; [|discriminate]. cbn [bind].
      destruct (grid2rellocs xxi yyi xo yo) as [rs'|] eqn:E2; [|discriminate]. cbn [bind].
      intro E. injection E as <-. apply IH in E2; auto. destruct E2 as [L H]. split; [simpl; lia|].
      intros [|k] x' y' r'; cbn [nth_error].
      * congruence.
      * apply H.
    + intros [L H]. destruct rs as [|r rs]; [discriminate|].
      rewrite (H 0%nat x y r eq_refl eq_refl eq_refl). cbn [bind].
      assert (E : grid2rellocs xxi yyi xo yo = Ok rs).
      { apply IH; auto. split; [simpl in L; lia|]. intros k. apply (H (S k)). }
      rewrite E. reflexivity.
Qed.
Print Assumptions C13_points.
(** With fewer second coordinates than first ones, the code reads after the end of the array. *)
Theorem C13_points_short : forall xxi yyi xo yo, (List.length yo < List.length xo)%nat ->
  (forall k x y, nth_error xo k = Some x -> nth_error yo k = Some y -> exists r, grid2relloc xxi yyi x y = Ok r) ->
  grid2rellocs xxi yyi xo yo = Raise IndexError.
Proof.
  intros xxi yyi xo. induction xo as [|x xo IH]; intros [|y yo] Hl H; simpl in Hl; try lia; [reflexivity|].
  cbn [grid2rellocs]. destruct (H 0%nat x y eq_refl eq_refl) as [r ->]. cbn [bind]. rewrite IH; [reflexivity|lia|]. intros k. apply (H (S k)).
Qed.
Print Assumptions C13_points_short.
