(** Facts on binary64 for C80: adding a double to itself four times; sums of small dyadic numbers are exact. *)
From Verif Require Import Float64PolyErr Edges64Spec Sigma64 Sigma64Props Sigma64Order Edges64Props Float64Poly.
From Flocq Require Import Core BinarySingleNaN.
From Coq Require Import Reals Lra Psatz ZArith.
Open Scope R_scope.
Notation ZE := (ZnearestE).
Lemma RN_scaled n p e : (-1074 <= e)%Z -> (0 <= p)%Z -> (2 ^ (52 + p) <= n < 2 ^ (53 + p))%Z ->
  RN (IZR n * bpow radix2 e) = IZR (ZE (IZR n * bpow radix2 (- p))) * bpow radix2 (e + p).
Proof.
  intros He Hp [L H]. assert (M : mag radix2 (IZR n * bpow radix2 e) = (53 + p + e)%Z :> Z).
  { apply mag_unique. rewrite Rabs_mult, (Rabs_pos_eq (bpow radix2 e)) by apply bpow_ge_0. rewrite Rabs_pos_eq.
    2:{ apply IZR_le. eapply Z.le_trans; [|exact L]. apply Z.pow_nonneg. lia. }
    replace (53 + p + e - 1)%Z with (52 + p + e)%Z by lia. rewrite !bpow_plus with (e2 := e). split.
    - apply Rmult_le_compat_r; [apply bpow_ge_0|]. rewrite <- IZR_Zpower by lia. apply IZR_le. exact L.
    - apply Rmult_lt_compat_r; [apply bpow_gt_0|]. rewrite <- IZR_Zpower by lia. apply IZR_lt. exact H. }
  unfold round, F2R, scaled_mantissa, cexp. cbn [Fnum Fexp]. rewrite M.
  assert (X : fexp64 (53 + p + e) = (e + p)%Z) by (change fexp64 with (FLT_exp (-1074) 53); unfold FLT_exp; lia). rewrite X.
  f_equal. rewrite Rmult_assoc, <- bpow_plus. replace (e + - (e + p))%Z with (- p)%Z by lia. reflexivity.
Qed.
Lemma RN_scaled_small n e : (-1074 <= e)%Z -> (Z.abs n <= 2 ^ 53)%Z -> RN (IZR n * bpow radix2 e) = IZR n * bpow radix2 e.
Proof.
  intros He H. destruct (Z.eq_dec (Z.abs n) (2 ^ 53)) as [Q|Q].
  - assert (E : IZR n * bpow radix2 e = IZR (n / 2) * bpow radix2 (e + 1)).
    { assert (n = 2 ^ 53 \/ n = - 2 ^ 53)%Z as [-> | ->] by lia; rewrite bpow_plus; change (bpow radix2 1) with 2; cbn -[bpow]; lra. }
    rewrite E. apply round_generic; auto with typeclass_instances. change fexp64 with (FLT_exp (-1074) 53). apply generic_format_FLT.
    exists (Float radix2 (n / 2) (e + 1)); [reflexivity| |cbn; lia]. cbn [Fnum]. change (radix2 ^ 53)%Z with (2 ^ 53)%Z. assert (n = 2 ^ 53 \/ n = - 2 ^ 53)%Z as [-> | ->] by lia; cbn; lia.
  - apply round_generic; auto with typeclass_instances. change fexp64 with (FLT_exp (-1074) 53). apply generic_format_FLT.
    exists (Float radix2 n e); [reflexivity| |cbn; lia]. cbn [Fnum]. change (radix2 ^ 53)%Z with (2 ^ 53)%Z. lia.
Qed.
Lemma ZE_near x m : Rabs (x - IZR m) < / 2 -> ZE x = m.
Proof. intro H. now apply Znearest_imp. Qed.
Lemma ZE_int m : ZE (IZR m) = m.
Proof. apply ZE_near. rewrite Rminus_diag_eq, Rabs_R0 by reflexivity. lra. Qed.
Lemma ZE_half_up m : Z.even m = true -> ZE (IZR m + / 2) = m.
Proof.
  intro E. unfold Znearest. assert (F : Zfloor (IZR m + / 2) = m) by (apply Zfloor_imp; rewrite plus_IZR; lra). rewrite F.
  rewrite Rcompare_Eq by lra. now rewrite E.
Qed.
Lemma ZE_half_down m : Z.even m = true -> ZE (IZR m - / 2) = m.
Proof.
  intro E. unfold Znearest. assert (F : Zfloor (IZR m - / 2) = (m - 1)%Z) by (apply Zfloor_imp; rewrite plus_IZR, minus_IZR; lra). rewrite F.
  rewrite Rcompare_Eq by (rewrite minus_IZR; lra). replace (Z.even (m - 1)) with false by (rewrite Z.even_sub, E; reflexivity). cbn [negb].
  apply Zceil_imp. rewrite !minus_IZR. lra.
Qed.
Lemma ZE_dist x : Rabs (x - IZR (ZE x)) <= / 2.
Proof. apply Znearest_half. Qed.
Lemma abs_le_inv a b : Rabs a <= b -> - b <= a <= b.
Proof. apply Rabs_le_inv. Qed.
(** the nearest integer of n/2, of n/4 *)
Lemma ZE_2 n : (n - 1 <= 2 * ZE (IZR n * bpow radix2 (-1)) <= n + 1)%Z.
Proof.
  assert (H := ZE_dist (IZR n * bpow radix2 (-1))). set (k := ZE _) in *. change (bpow radix2 (-1)) with (/ 2) in H. apply abs_le_inv in H.
  split; apply le_IZR; rewrite ?minus_IZR, ?plus_IZR, ?mult_IZR; lra.
Qed.
Lemma ZE_4 n : (n - 2 <= 4 * ZE (IZR n * bpow radix2 (-2)) <= n + 2)%Z.
Proof.
  assert (H := ZE_dist (IZR n * bpow radix2 (-2))). set (k := ZE _) in *. change (bpow radix2 (-2)) with (/ 4) in H. apply abs_le_inv in H.
  split; apply le_IZR; rewrite ?minus_IZR, ?plus_IZR, ?mult_IZR; lra.
Qed.
Lemma RN_3_plus_pos m e : (-1074 <= e)%Z -> (0 < m < 2 ^ 53)%Z ->
  RN (RN (IZR (3 * m) * bpow radix2 e) + IZR m * bpow radix2 e) = IZR (4 * m) * bpow radix2 e.
Proof.
  intros He Hm.
  assert (Q4 : RN (IZR (4 * m) * bpow radix2 e) = IZR (4 * m) * bpow radix2 e).
  { replace (IZR (4 * m) * bpow radix2 e) with (IZR m * bpow radix2 (e + 2)) by (rewrite bpow_plus, mult_IZR; change (bpow radix2 2) with 4; ring). apply RN_scaled_small; lia. }
  destruct (Z.lt_ge_cases (3 * m) (2 ^ 53)) as [A|A].
  - rewrite (RN_scaled_small (3 * m) e) by lia. rewrite <- Rmult_plus_distr_r, <- plus_IZR. replace (3 * m + m)%Z with (4 * m)%Z by lia. exact Q4.
  - destruct (Z.lt_ge_cases (3 * m) (2 ^ 54)) as [B|B].
    + rewrite (RN_scaled (3 * m) 1 e) by (change (52 + 1)%Z with 53%Z; change (53 + 1)%Z with 54%Z; lia).
      change (- (1))%Z with (-1)%Z. assert (D := ZE_2 (3 * m)). set (k := ZE _) in *. clearbody k.
      replace (IZR k * bpow radix2 (e + 1) + IZR m * bpow radix2 e) with (IZR (2 * k + m) * bpow radix2 e) by (rewrite bpow_plus, plus_IZR, mult_IZR; change (bpow radix2 1) with 2; ring).
      destruct (Z.eq_dec (2 * k + m) (4 * m)) as [E|E]; [now rewrite E|].
      assert (C : (2 * k + m = 4 * m + 1 \/ 2 * k + m = 4 * m - 1)%Z) by lia.
      assert (Od : (m mod 2 = 1)%Z). { destruct (Z.eq_dec (m mod 2) 1); auto. assert (m mod 2 = 0)%Z by (assert (0 <= m mod 2 < 2)%Z by (apply Z.mod_pos_bound; lia); lia). assert (m = 2 * (m / 2))%Z by (rewrite (Z.div_mod m 2) at 1; lia). lia. }
      assert (N52 : (m <> 2 ^ 52)%Z) by (intros ->; discriminate).
      destruct (Z.lt_ge_cases (4 * m) (2 ^ 54)) as [F|F].
      * rewrite (RN_scaled (2 * k + m) 1 e) by (change (52 + 1)%Z with 53%Z; change (53 + 1)%Z with 54%Z; lia). change (- (1))%Z with (-1)%Z. change (bpow radix2 (-1)) with (/ 2).
        assert (V : ZE (IZR (2 * k + m) * / 2) = (2 * m)%Z).
        { destruct C as [-> | ->].
          - replace (IZR (4 * m + 1) * / 2) with (IZR (2 * m) + / 2) by (rewrite plus_IZR, !mult_IZR; lra). apply ZE_half_up. apply Z.even_mul.
          - replace (IZR (4 * m - 1) * / 2) with (IZR (2 * m) - / 2) by (rewrite minus_IZR, !mult_IZR; lra). apply ZE_half_down. apply Z.even_mul. }
        rewrite V, bpow_plus, !mult_IZR. change (bpow radix2 1) with 2. ring.
      * rewrite (RN_scaled (2 * k + m) 2 e) by (change (52 + 2)%Z with 54%Z; change (53 + 2)%Z with 55%Z; lia). change (bpow radix2 (- (2))) with (/ 4).
        assert (V : ZE (IZR (2 * k + m) * / 4) = m).
        { apply ZE_near. destruct C as [-> | ->].
          - replace (IZR (4 * m + 1) * / 4 - IZR m) with (/ 4) by (rewrite plus_IZR, !mult_IZR; lra). rewrite Rabs_pos_eq; lra.
          - replace (IZR (4 * m - 1) * / 4 - IZR m) with (- / 4) by (rewrite minus_IZR, !mult_IZR; lra). rewrite Rabs_Ropp, Rabs_pos_eq; lra. }
        rewrite V, bpow_plus, !mult_IZR. change (bpow radix2 2) with 4. ring.
    + rewrite (RN_scaled (3 * m) 2 e) by (change (52 + 2)%Z with 54%Z; change (53 + 2)%Z with 55%Z; lia).
      change (- (2))%Z with (-2)%Z. assert (D := ZE_4 (3 * m)). set (k := ZE _) in *. clearbody k.
      replace (IZR k * bpow radix2 (e + 2) + IZR m * bpow radix2 e) with (IZR (4 * k + m) * bpow radix2 e) by (rewrite bpow_plus, plus_IZR, mult_IZR; change (bpow radix2 2) with 4; ring).
      rewrite (RN_scaled (4 * k + m) 2 e) by (change (52 + 2)%Z with 54%Z; change (53 + 2)%Z with 55%Z; lia). change (bpow radix2 (- (2))) with (/ 4).
      assert (V : ZE (IZR (4 * k + m) * / 4) = m).
      { set (t := (4 * k + m - 4 * m)%Z). assert (T : (-2 <= t <= 2)%Z) by (unfold t; lia). replace (4 * k + m)%Z with (4 * m + t)%Z by (unfold t; lia).
        destruct (Z.eq_dec t 2) as [T2|T2]; [|destruct (Z.eq_dec t (-2)) as [T3|T3]].
        - assert (Ev : Z.even m = true). { destruct (Z.even m) eqn:X; auto. exfalso. rewrite <- Z.negb_odd in X. apply Bool.negb_false_iff in X. apply Z.odd_spec in X. destruct X as [w ->]. unfold t in T2. lia. }
          rewrite T2. replace (IZR (4 * m + 2) * / 4) with (IZR m + / 2) by (rewrite plus_IZR, !mult_IZR; lra). now apply ZE_half_up.
        - assert (Ev : Z.even m = true). { destruct (Z.even m) eqn:X; auto. exfalso. rewrite <- Z.negb_odd in X. apply Bool.negb_false_iff in X. apply Z.odd_spec in X. destruct X as [w ->]. unfold t in T3. lia. }
          rewrite T3. replace (IZR (4 * m + -2) * / 4) with (IZR m - / 2) by (rewrite plus_IZR, !mult_IZR; lra). now apply ZE_half_down.
        - apply ZE_near. rewrite plus_IZR, mult_IZR. replace ((4 * IZR m + IZR t) * / 4 - IZR m) with (IZR t * / 4) by lra.
          assert (-1 <= t <= 1)%Z by lia. assert (-1 <= IZR t <= 1) by (split; apply (IZR_le _ _); lia). apply Rabs_def1; lra. }
      rewrite V, bpow_plus, !mult_IZR. change (bpow radix2 2) with 4. ring.
Qed.

Lemma RN_opp x : RN (- x) = - RN x.
Proof. apply round_NE_opp. Qed.
(** Three times a double and once more: four times exactly, whatever the rounding of the triple *)
Lemma RN_four x : generic_format radix2 fexp64 x -> RN (RN (3 * x) + x) = 4 * x.
Proof.
  assert (P : forall x, 0 < x -> generic_format radix2 fexp64 x -> RN (RN (3 * x) + x) = 4 * x).
  { intros y Py Fy. change fexp64 with (FLT_exp (-1074) 53) in Fy. apply FLT_format_generic in Fy; [|reflexivity]. destruct Fy as [[m e] -> Hm He]. cbn [Fnum Fexp] in *.
    change (radix2 ^ 53)%Z with (2 ^ 53)%Z in Hm. assert (0 < m)%Z. { exact (gt_0_F2R radix2 _ _ Py). }
    unfold F2R. cbn [Fnum Fexp]. replace (3 * (IZR m * bpow radix2 e)) with (IZR (3 * m) * bpow radix2 e) by (rewrite mult_IZR; ring).
    rewrite RN_3_plus_pos by lia. rewrite mult_IZR. ring. }
  intro F. destruct (Rtotal_order x 0) as [L|[->|G]].
  - assert (H := P (- x) ltac:(lra) (generic_format_opp _ _ _ F)). replace (3 * - x) with (- (3 * x)) in H by ring. rewrite RN_opp in H.
    replace (- RN (3 * x) + - x) with (- (RN (3 * x) + x)) in H by ring. rewrite RN_opp in H. lra.
  - rewrite Rmult_0_r, RN_0, Rplus_0_l, RN_0. ring.
  - now apply P.
Qed.
Lemma RN_twice x : generic_format radix2 fexp64 x -> RN (2 * x) = 2 * x.
Proof.
  intro Fy. change fexp64 with (FLT_exp (-1074) 53) in Fy. apply FLT_format_generic in Fy; [|reflexivity]. destruct Fy as [[m e] -> Hm He]. cbn [Fnum Fexp] in *.
  change (radix2 ^ 53)%Z with (2 ^ 53)%Z in Hm. unfold F2R. cbn [Fnum Fexp].
  replace (2 * (IZR m * bpow radix2 e)) with (IZR m * bpow radix2 (e + 1)) by (rewrite bpow_plus; change (bpow radix2 1) with 2; ring). apply RN_scaled_small; lia.
Qed.
(** The rounded sum of four numbers above a double [m], in the order of the program, is at least 4 m *)
Lemma sum4_ge m a b c d : generic_format radix2 fexp64 m -> m <= a -> m <= b -> m <= c -> m <= d -> 4 * m <= RN (RN (RN (a + b) + c) + d).
Proof.
  intros F A B C D. rewrite <- (RN_four m F). apply RN_le. apply Rplus_le_compat; auto. apply RN_le.
  replace (3 * m) with (2 * m + m) by ring. apply Rplus_le_compat; auto. rewrite <- (RN_twice m F). apply RN_le. lra.
Qed.
Lemma sum4_le m a b c d : generic_format radix2 fexp64 m -> a <= m -> b <= m -> c <= m -> d <= m -> RN (RN (RN (a + b) + c) + d) <= 4 * m.
Proof.
  intros F A B C D. rewrite <- (RN_four m F). apply RN_le. apply Rplus_le_compat; auto. apply RN_le.
  replace (3 * m) with (2 * m + m) by ring. apply Rplus_le_compat; auto. rewrite <- (RN_twice m F). apply RN_le. lra.
Qed.

(** ** Small dyadic numbers: [x] is the double z / 2^p with |z| <= B *)
Definition dy (p B : Z) (x : f64) (r : R) : Prop := is_finite x = true /\ B2R x = r /\ exists z, (Z.abs z <= B)%Z /\ r = IZR z * bpow radix2 (- p).
Lemma dy_value p B x r : dy p B x r -> value x r.
Proof. intros (F & V & _). apply value_iff. auto. Qed.
Lemma dy_fin p B x r : (0 <= p <= 100)%Z -> (B <= 2 ^ 53)%Z -> dy p B x r -> fin 53 x.
Proof.
  intros Hp HB (F & V & z & Hz & E). split; auto. rewrite V, E, Rabs_mult, <- abs_IZR, (Rabs_pos_eq (bpow _ _)) by apply bpow_ge_0.
  apply Rle_trans with (IZR (2 ^ 53) * 1); [|rewrite Rmult_1_r; apply Rle_refl]. apply Rmult_le_compat; [apply IZR_le; lia|apply bpow_ge_0|apply IZR_le; lia|].
  change 1 with (bpow radix2 0). apply bpow_le. lia.
Qed.
Lemma dy_exact p z : (0 <= p <= 100)%Z -> (Z.abs z <= 2 ^ 53)%Z -> RN (IZR z * bpow radix2 (- p)) = IZR z * bpow radix2 (- p).
Proof. intros. apply RN_scaled_small; lia. Qed.
Lemma dy_int p B x z : (0 <= p <= 100)%Z -> value x (IZR z) -> (Z.abs z * 2 ^ p <= B)%Z -> dy p B x (IZR z).
Proof.
  intros Hp V H. apply value_iff in V. destruct V as [F V]. split; auto. split; auto. exists (z * 2 ^ p)%Z. split; [rewrite Z.abs_mul, (Z.abs_eq (2 ^ p)); auto; apply Z.pow_nonneg; lia|].
  rewrite mult_IZR, Rmult_assoc. change 2%Z with (radix_val radix2) at 1. rewrite IZR_Zpower by lia. rewrite <- bpow_plus. replace (p + - p)%Z with 0%Z by lia. cbn. ring.
Qed.
Lemma dy_add p B C x y r s : (0 <= p <= 100)%Z -> (0 <= B)%Z -> (0 <= C)%Z -> (B + C <= 2 ^ 53)%Z -> dy p B x r -> dy p C y s -> dy p (B + C) (add64 x y) (r + s).
Proof.
  intros Hp PB PC HB Hx Hy. assert (Fx := dy_fin p B x r Hp ltac:(lia) Hx). assert (Fy := dy_fin p C y s Hp ltac:(lia) Hy).
  assert (F : fin 54 (add64 x y)) by (apply (fin_ops_add 54 53 53); auto; lia).
  destruct Hx as (F1 & V1 & z1 & H1 & E1), Hy as (F2 & V2 & z2 & H2 & E2). split; [apply F|].
  assert (Q : r + s = IZR (z1 + z2) * bpow radix2 (- p)) by (rewrite plus_IZR, E1, E2; ring).
  split; [|exists (z1 + z2)%Z; split; auto; lia]. rewrite add_fin_inv by (auto; apply F). rewrite V1, V2, Q. apply dy_exact; lia.
Qed.
Lemma dy_sub p B C x y r s : (0 <= p <= 100)%Z -> (0 <= B)%Z -> (0 <= C)%Z -> (B + C <= 2 ^ 53)%Z -> dy p B x r -> dy p C y s -> dy p (B + C) (sub64 x y) (r - s).
Proof.
  intros Hp PB PC HB Hx Hy. assert (Fx := dy_fin p B x r Hp ltac:(lia) Hx). assert (Fy := dy_fin p C y s Hp ltac:(lia) Hy).
  assert (F : fin 54 (sub64 x y)) by (apply (fin_ops_sub 54 53 53); auto; lia).
  destruct Hx as (F1 & V1 & z1 & H1 & E1), Hy as (F2 & V2 & z2 & H2 & E2). split; [apply F|].
  assert (Q : r - s = IZR (z1 - z2) * bpow radix2 (- p)) by (rewrite minus_IZR, E1, E2; ring).
  split; [|exists (z1 - z2)%Z; split; auto; lia]. rewrite sub_fin_inv by (auto; apply F). rewrite V1, V2, Q. apply dy_exact; lia.
Qed.
Lemma dy_mul p q B C x y r s : (0 <= p)%Z -> (0 <= q)%Z -> (p + q <= 100)%Z -> (0 <= B <= 2 ^ 53)%Z -> (0 <= C <= 2 ^ 53)%Z -> (B * C <= 2 ^ 53)%Z -> dy p B x r -> dy q C y s -> dy (p + q) (B * C) (mul64 x y) (r * s).
Proof.
  intros Hp Hq Hpq PB PC HB Hx Hy. assert (Fx : fin 53 x) by (apply (dy_fin p B x r); auto; lia). assert (Fy : fin 53 y) by (apply (dy_fin q C y s); auto; lia).
  assert (F : fin 106 (mul64 x y)) by (apply (fin_ops_mul 106 53 53); auto; lia).
  destruct Hx as (F1 & V1 & z1 & H1 & E1), Hy as (F2 & V2 & z2 & H2 & E2). split; [apply F|].
  assert (Q : r * s = IZR (z1 * z2) * bpow radix2 (- (p + q))) by (rewrite mult_IZR, E1, E2; replace (- (p + q))%Z with (- p + - q)%Z by lia; rewrite bpow_plus; ring).
  assert (A : (Z.abs (z1 * z2) <= B * C)%Z) by (rewrite Z.abs_mul; apply Z.mul_le_mono_nonneg; lia).
  split; [|exists (z1 * z2)%Z; split; auto]. rewrite mul_fin_inv by (auto; apply F). rewrite V1, V2, Q. apply dy_exact; lia.
Qed.
Lemma dy_up p q B C x r : (0 <= p <= q)%Z -> (q <= 100)%Z -> (B * 2 ^ (q - p) <= C)%Z -> dy p B x r -> dy q C x r.
Proof.
  intros Hp Hq HC (F & V & z & Hz & E). split; auto. split; auto. exists (z * 2 ^ (q - p))%Z. assert (0 <= 2 ^ (q - p))%Z by (apply Z.pow_nonneg; lia).
  split; [rewrite Z.abs_mul, (Z.abs_eq (2 ^ _)) by auto; eapply Z.le_trans; [|exact HC]; apply Z.mul_le_mono_nonneg_r; auto|].
  rewrite E, mult_IZR, Rmult_assoc. f_equal. change 2%Z with (radix_val radix2) at 1. rewrite IZR_Zpower by lia. rewrite <- bpow_plus. f_equal. lia.
Qed.
