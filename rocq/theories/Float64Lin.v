(** The linear interpolation of one cell in binary64. *)
From Verif Require Export Float64Err InterpGArrays Float64Spec.
From Coq Require Import Reals Lra Psatz.
Open Scope R_scope.

Lemma gap64 (a b : f64) : B2R a < B2R b -> bpow radix2 (-1074) <= B2R b - B2R a.
Proof.
  intro H.
  assert (A := format64 a). assert (B := format64 b).
  change (SpecFloat.fexp 53 1024) with (FLT_exp (-1074) 53) in A, B.
  apply (generic_inclusion_le radix2 (FLT_exp (-1074) 53) (FIX_exp (-1074))) with (e2 := 1024%Z) in A, B.
  2,4: (intros e He; unfold FLT_exp, FIX_exp; lia).
  2,3: (apply Rlt_le, finite_bound).
  apply FIX_format_generic in A, B. destruct A as [fa Ea Xa], B as [fb Eb Xb].
  rewrite Ea, Eb in *. unfold F2R in *. rewrite Xa, Xb in *.
  rewrite <- Rmult_minus_distr_r. assert (P := bpow_gt_0 radix2 (-1074)).
  assert (L : IZR (Fnum fa) < IZR (Fnum fb)) by (apply Rmult_lt_reg_r with (bpow radix2 (-1074)); auto).
  apply lt_IZR in L. rewrite <- minus_IZR. assert (1 <= IZR (Fnum fb - Fnum fa)) by (apply IZR_le; lia). nra.
Qed.

Lemma bp2 k : bpow radix2 (k + 1) = 2 * bpow radix2 k.
Proof. rewrite bpow_plus. change (bpow radix2 1) with 2. ring. Qed.

Lemma bp3 k k' : (k' = k + 1)%Z -> bpow radix2 k' = 2 * bpow radix2 k.
Proof. intros ->. apply bp2. Qed.

Lemma glin64 (u w a y b : f64) :
  is_finite u = true -> is_finite w = true -> is_finite a = true -> is_finite y = true -> is_finite b = true ->
  Rabs (B2R u) <= bpow radix2 500 -> Rabs (B2R w) <= bpow radix2 500 ->
  Rabs (B2R a) <= bpow radix2 500 -> Rabs (B2R b) <= bpow radix2 500 ->
  B2R a <= B2R y <= B2R b -> B2R a < B2R b ->
  is_finite (glin ops64 u w a y b) = true /\
  Rabs (B2R (glin ops64 u w a y b) - (B2R u + (B2R w - B2R u) * ((B2R y - B2R a) / (B2R b - B2R a)))) <=
    7 * u64 * Rmax (Rabs (B2R u)) (Rabs (B2R w)) + 3 * h64 / (B2R b - B2R a) + h64.
Proof.
  intros Fu Fw Fa Fy Fb Bu Bw Ba Bb Hy Hab.
  set (k := bpow radix2 500) in *. assert (Pk : 0 < k) by apply bpow_gt_0.
  assert (K1 : bpow radix2 501 = 2 * k) by apply (bp3 500 501 eq_refl).
  assert (K2 : bpow radix2 502 = 4 * k) by (rewrite (bp3 501 502 eq_refl), K1; ring).
  apply Rabs_le_iff in Ba, Bb.
  destruct (sub_ok y a 501) as [F0 V0]; auto; try lia.
  { rewrite K1. apply Rabs_le_iff. lra. }
  destruct (sub_ok b y 501) as [F1 V1]; auto; try lia.
  { rewrite K1. apply Rabs_le_iff. lra. }
  destruct (RN_sub_err (B2R y) (B2R a) (format64 _) (format64 _)) as (e0 & E0 & X0).
  destruct (RN_sub_err (B2R b) (B2R y) (format64 _) (format64 _)) as (e1 & E1 & X1).
  rewrite X0 in V0. rewrite X1 in V1.
  set (D0 := B2R y - B2R a) in *. set (D1 := B2R b - B2R y) in *.
  set (d0 := sub64 y a) in *. set (d1 := sub64 b y) in *.
  assert (Us := u64_small). assert (Up := u64_pos). assert (Hp := h64_pos).
  assert (QD0 : 0 <= D0) by (unfold D0; lra). assert (QD1 : 0 <= D1) by (unfold D1; lra).
  assert (QS : 0 < D0 + D1) by (unfold D0, D1; lra).
  assert (QS2 : D0 + D1 <= 2 * k) by (unfold D0, D1; lra).
  assert (B0 : 0 <= B2R d0 <= 4 * k). { rewrite V0. apply Rabs_le_iff in E0. split; nra. }
  assert (B1 : 0 <= B2R d1 <= 4 * k). { rewrite V1. apply Rabs_le_iff in E1. split; nra. }
  assert (PP : forall v d, Rabs v <= k -> 0 <= d <= 4 * k -> Rabs (v * d) <= bpow radix2 1002).
  { intros v d Hv Hd. rewrite Rabs_mult, (Rabs_pos_eq d) by lra. change 1002%Z with (500 + 502)%Z. rewrite bpow_plus, K2. fold k.
    apply Rmult_le_compat; auto; try lra. apply Rabs_pos. }
  destruct (mul_ok u d1 1002) as [F2 V2]; auto; try lia.
  destruct (mul_ok w d0 1002) as [F3 V3]; auto; try lia.
  assert (G2 : Rabs (B2R (mul64 u d1)) <= bpow radix2 1002) by (rewrite V2; apply RN_bound; auto; lia).
  assert (G3 : Rabs (B2R (mul64 w d0)) <= bpow radix2 1002) by (rewrite V3; apply RN_bound; auto; lia).
  destruct (add_ok (mul64 u d1) (mul64 w d0) 1003) as [F4 V4]; auto; try lia.
  { change 1003%Z with (1002 + 1)%Z. rewrite bp2. apply Rabs_le_iff in G2, G3. apply Rabs_le_iff. lra. }
  destruct (add_ok d0 d1 504) as [F5 V5]; auto; try lia.
  { rewrite (bp3 503 504 eq_refl), (bp3 502 503 eq_refl), K2. apply Rabs_le_iff. lra. }
  destruct (RN_add_err _ _ (format64 (mul64 u d1)) (format64 (mul64 w d0))) as (e4 & E4 & X4).
  destruct (RN_add_err _ _ (format64 d0) (format64 d1)) as (e5 & E5 & X5).
  destruct (RN_err (B2R u * B2R d1)) as (e2 & h2 & E2 & H2 & X2).
  destruct (RN_err (B2R w * B2R d0)) as (e3 & h3 & E3 & H3 & X3).
  set (MM := Rmax (Rabs (B2R u)) (Rabs (B2R w))).
  assert (MU : Rabs (B2R u) <= MM) by apply Rmax_l. assert (MW : Rabs (B2R w) <= MM) by apply Rmax_r.
  assert (MK : MM <= k) by (apply Rmax_lub; auto).
  set (N := add64 (mul64 u d1) (mul64 w d0)) in *. set (DEN := add64 d0 d1) in *.
  assert (VN : B2R N = ((B2R u * (D1 * (1 + e1)) * (1 + e2) + h2) + (B2R w * (D0 * (1 + e0)) * (1 + e3) + h3)) * (1 + e4)).
  { rewrite V4, X4, V2, V3, X2, X3, V0, V1. reflexivity. }
  assert (VD : B2R DEN = (D0 * (1 + e0) + D1 * (1 + e1)) * (1 + e5)) by (rewrite V5, X5, V0, V1; reflexivity).
  assert (PD : 0 < B2R DEN).
  { rewrite VD. apply Rabs_le_iff in E0, E1, E5. apply Rmult_lt_0_compat; [|lra]. nra. }
  assert (HU : 0 < u64 <= / 1024) by (split; auto).
  assert (C := fun e6 h6 => core u64 (B2R u) (B2R w) D0 D1 MM HU QD0 QD1 QS MU MW e0 e1 e2 e3 E0 E1 E2 E3 h64 h2 h3 h6 e4 e5 e6 (Rlt_le _ _ Hp) H2 H3).
  replace (B2R b - B2R a) with (D0 + D1) by (unfold D0, D1; ring).
  cbv zeta in C. rewrite <- VN, <- VD in C.
  assert (GAP := gap64 a b Hab). replace (B2R b - B2R a) with (D0 + D1) in GAP by (unfold D0, D1; ring).
  assert (H2a : 3 * h64 / (D0 + D1) <= 2).
  { apply Rmult_le_reg_r with (D0 + D1); auto. unfold Rdiv. rewrite Rmult_assoc, Rinv_l, Rmult_1_r by lra.
    change (-1074)%Z with (-1075 + 1)%Z in GAP. rewrite bp2 in GAP. fold h64 in GAP. lra. }
  assert (Hk1 : 1 <= k) by (change 1 with (bpow radix2 0); apply bpow_le; lia).
  assert (Hh1 : h64 <= 1) by (change 1 with (bpow radix2 0); apply bpow_le; lia).
  assert (CE : Rabs (B2R u + (B2R w - B2R u) * (D0 / (D0 + D1))) <= MM) by (apply (core_E (B2R u) (B2R w) D0 D1 MM); auto).
  assert (Q : Rabs (B2R N / B2R DEN) <= bpow radix2 504).
  { assert (Z0 : Rabs 0 <= u64) by (rewrite Rabs_R0; lra). assert (Z1 : Rabs 0 <= h64) by (rewrite Rabs_R0; lra).
    specialize (C 0 0 Z1 E4 E5 Z0). replace (B2R N / B2R DEN * (1 + 0) + 0) with (B2R N / B2R DEN) in C by ring.
    rewrite (bp3 503 504 eq_refl), (bp3 502 503 eq_refl), K2. apply Rabs_le_iff in C, CE. apply Rabs_le_iff.
    assert (7 * u64 * MM <= k). { assert (0 <= MM) by (eapply Rle_trans; [apply Rabs_pos|exact MU]). nra. }
    lra. }
  assert (NZ : B2R DEN <> 0) by lra.
  destruct (div_ok N DEN 504) as [F6 V6]; auto; try lia.
  destruct (RN_err (B2R N / B2R DEN)) as (e6 & h6 & E6 & H6 & X6).
  assert (EQ : glin ops64 u w a y b = div64 N DEN).
  { unfold glin, gden. cbn [n_div ops64 n_add n_mul n_sub]. fold d0 d1. fold N DEN. unfold pydiv64.
    rewrite pos_not_zero; [reflexivity|]. right. auto. }
  rewrite EQ. split; auto. rewrite V6, X6. apply C; auto.
Qed.
Lemma glin64_nan (u w a y b : f64) : u = B754_nan \/ w = B754_nan -> glin ops64 u w a y b = B754_nan.
Proof.
  intro H. unfold glin. cbn [n_div ops64 n_add n_mul n_sub]. unfold pydiv64.
  destruct (Beqb _ _); [reflexivity|].
  assert (E : add64 (mul64 u (sub64 b y)) (mul64 w (sub64 y a)) = B754_nan).
  { destruct H as [-> | ->].
    - change (mul64 B754_nan (sub64 b y)) with (@B754_nan 53 1024). reflexivity.
    - change (mul64 B754_nan (sub64 y a)) with (@B754_nan 53 1024). destruct (mul64 u (sub64 b y)); reflexivity. }
  rewrite E. reflexivity.
Qed.
