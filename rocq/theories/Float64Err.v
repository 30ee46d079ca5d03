(** Rounding errors of the linear interpolation in binary64. *)
From Verif Require Export Float64Facts.
From Coq Require Import Reals Lra Psatz.
Open Scope R_scope.

(** Unit roundoff and half the smallest number *)
Definition u64 : R := bpow radix2 (-53).
Definition h64 : R := bpow radix2 (-1075).
Lemma u64_pos : 0 < u64.
Proof. apply bpow_gt_0. Qed.
Lemma u64_small : u64 <= / 1024.
Proof. change (/ 1024) with (/ IZR (2 ^ 10)). unfold u64. replace (/ IZR (2 ^ 10)) with (bpow radix2 (-10)) by (cbn; lra). apply bpow_le. lia. Qed.
Lemma h64_pos : 0 < h64.
Proof. apply bpow_gt_0. Qed.

Lemma RN_err x : exists e h, Rabs e <= u64 /\ Rabs h <= h64 /\ RN x = x * (1 + e) + h.
Proof.
  destruct (error_N_FLT radix2 (-1074) 53 eq_refl (fun x => negb (Z.even x)) x) as (e & h & He & Hh & _ & E).
  exists e, h. split; [|split].
  - eapply Rle_trans; [exact He|]. unfold u64. change (-53)%Z with (-1 + (-52))%Z. rewrite bpow_plus. cbn. lra.
  - eapply Rle_trans; [exact Hh|]. unfold h64. change (-1075)%Z with (-1 + (-1074))%Z. rewrite bpow_plus. cbn [bpow]. change (Z.pow_pos radix2 1) with 2%Z. lra.
  - exact E.
Qed.
Lemma RN_add_err x y : generic_format radix2 fexp64 x -> generic_format radix2 fexp64 y ->
  exists e, Rabs e <= u64 /\ RN (x + y) = (x + y) * (1 + e).
Proof.
  intros Fx Fy. destruct (@FLT_plus_error_N_ex radix2 (-1074) 53 Hprec64 (fun x => negb (Z.even x)) x y Fx Fy) as (e & He & E).
  exists e. split; [|exact E]. eapply Rle_trans; [exact He|].
  assert (U : u_ro radix2 53 = u64).
  { unfold u_ro, u64. change (-53)%Z with (-1 + (-52))%Z. rewrite bpow_plus. cbn. lra. }
  rewrite U. assert (P := u64_pos). apply Rmult_le_reg_r with (1 + u64); [lra|]. unfold Rdiv. rewrite Rmult_assoc, Rinv_l by lra. nra.
Qed.
Lemma RN_sub_err x y : generic_format radix2 fexp64 x -> generic_format radix2 fexp64 y ->
  exists e, Rabs e <= u64 /\ RN (x - y) = (x - y) * (1 + e).
Proof. intros Fx Fy. apply (RN_add_err x (- y)); auto. now apply generic_format_opp. Qed.
(** No overflow *)
Lemma RN_bound x k : (-1074 <= k)%Z -> Rabs x <= bpow radix2 k -> Rabs (RN x) <= bpow radix2 k.
Proof.
  intros Hk H. apply abs_round_le_generic; auto with typeclass_instances.
  apply generic_format_bpow. unfold SpecFloat.fexp, SpecFloat.emin. lia.
Qed.
Lemma fits x k : (-1074 <= k < 1024)%Z -> Rabs x <= bpow radix2 k -> Rlt_bool (Rabs (RN x)) (bpow radix2 1024) = true.
Proof.
  intros Hk H. apply Rlt_bool_true. apply Rle_lt_trans with (bpow radix2 k); [now apply RN_bound|]. apply bpow_lt. lia.
Qed.
Lemma sub_ok x y k : (-1074 <= k < 1024)%Z -> is_finite x = true -> is_finite y = true -> Rabs (B2R x - B2R y) <= bpow radix2 k ->
  is_finite (sub64 x y) = true /\ B2R (sub64 x y) = RN (B2R x - B2R y).
Proof.
  intros Hk Fx Fy H. assert (C := Bminus_correct 53 1024 Hprec64 Hmax64 mode_NE x y Fx Fy). rewrite (fits _ k Hk H) in C. unfold sub64. tauto.
Qed.
Lemma add_ok x y k : (-1074 <= k < 1024)%Z -> is_finite x = true -> is_finite y = true -> Rabs (B2R x + B2R y) <= bpow radix2 k ->
  is_finite (add64 x y) = true /\ B2R (add64 x y) = RN (B2R x + B2R y).
Proof.
  intros Hk Fx Fy H. assert (C := Bplus_correct 53 1024 Hprec64 Hmax64 mode_NE x y Fx Fy). rewrite (fits _ k Hk H) in C. unfold add64. tauto.
Qed.
Lemma mul_ok x y k : (-1074 <= k < 1024)%Z -> is_finite x = true -> is_finite y = true -> Rabs (B2R x * B2R y) <= bpow radix2 k ->
  is_finite (mul64 x y) = true /\ B2R (mul64 x y) = RN (B2R x * B2R y).
Proof.
  intros Hk Fx Fy H. assert (C := Bmult_correct 53 1024 Hprec64 Hmax64 mode_NE x y). rewrite (fits _ k Hk H), Fx, Fy in C. unfold mul64. tauto.
Qed.
Lemma div_ok x y k : (-1074 <= k < 1024)%Z -> is_finite x = true -> B2R y <> 0 -> Rabs (B2R x / B2R y) <= bpow radix2 k ->
  is_finite (div64 x y) = true /\ B2R (div64 x y) = RN (B2R x / B2R y).
Proof.
  intros Hk Fx Ny H. assert (C := Bdiv_correct 53 1024 Hprec64 Hmax64 mode_NE x y Ny). rewrite (fits _ k Hk H), Fx in C. unfold div64. tauto.
Qed.

(** The computation, on the reals *)
Lemma Rabs_le_iff x y : Rabs x <= y <-> - y <= x <= y.
Proof. split; [apply Rabs_le_inv|apply Rabs_le]. Qed.
Section Core.
  Variables u U W D0 D1 M : R.
  Hypotheses (Hu : 0 < u <= / 1024) (H0 : 0 <= D0) (H1 : 0 <= D1) (HS : 0 < D0 + D1) (HU : Rabs U <= M) (HW : Rabs W <= M).
  Variables e0 e1 e2 e3 : R.
  Hypotheses (E0 : Rabs e0 <= u) (E1 : Rabs e1 <= u) (E2 : Rabs e2 <= u) (E3 : Rabs e3 <= u).
  Let d0 := D0 * (1 + e0).
  Let d1 := D1 * (1 + e1).
  Let s := d0 + d1.
  Let S := D0 + D1.
  Let E := U + (W - U) * (D0 / S).
  Lemma core_s : S * (1 - u) <= s <= S * (1 + u).
  Proof.
    apply Rabs_le_iff in E0, E1. unfold s, S, d0, d1. nra.
  Qed.
  Lemma core_d : 0 <= d0 /\ 0 <= d1 /\ 0 < s.
  Proof. assert (X := core_s). apply Rabs_le_iff in E0, E1. unfold d0, d1. split; [nra|]. split; [nra|]. fold S in HS. nra. Qed.
  Lemma core_M : 0 <= M.
  Proof. assert (X := Rabs_pos U). lra. Qed.
  (** Weighted means *)
  Lemma mean_bound a b x y B : 0 <= x -> 0 <= y -> 0 < x + y -> Rabs a <= B -> Rabs b <= B -> Rabs ((a * x + b * y) / (x + y)) <= B.
  Proof.
    intros Hx Hy Hxy Ha Hb. unfold Rdiv. rewrite Rabs_mult, Rabs_inv, (Rabs_pos_eq (x + y)) by lra.
    apply Rmult_le_reg_r with (x + y); [lra|]. rewrite Rmult_assoc, Rinv_l, Rmult_1_r by lra.
    apply Rabs_le_iff in Ha, Hb. apply Rabs_le_iff. nra.
  Qed.
  Lemma core_E : Rabs E <= M.
  Proof.
    replace E with ((U * D1 + W * D0) / (D1 + D0)) by (unfold E, S; field; lra). apply mean_bound; auto; lra.
  Qed.
  (** The weights *)
  Lemma core_w : Rabs ((U * d1 + W * d0) / s - E) <= M * u * (1 + 2 * u).
  Proof.
    assert (Ps := core_s). destruct core_d as (Q0 & Q1 & Qs). assert (QM := core_M).
    replace ((U * d1 + W * d0) / s - E) with ((U - W) * (e1 - e0) * ((D0 * D1) / (s * S))).
    2:{ unfold E. assert (S <> 0) by (unfold S; lra). assert (s <> 0) by lra. unfold s, d0, d1 in *. unfold S in *. field. auto. }
    rewrite !Rabs_mult.
    assert (X1 : Rabs (U - W) <= 2 * M) by (apply Rabs_le_iff in HU, HW; apply Rabs_le_iff; lra).
    assert (X2 : Rabs (e1 - e0) <= 2 * u) by (apply Rabs_le_iff in E0, E1; apply Rabs_le_iff; lra).
    assert (X3 : Rabs (D0 * D1 / (s * S)) <= / 4 * (1 + 2 * u)).
    { assert (PS : 0 < S) by (unfold S; lra). assert (Pp : 0 < s * S) by (apply Rmult_lt_0_compat; auto).
      rewrite Rabs_pos_eq; [|apply Rmult_le_pos; [apply Rmult_le_pos; auto|apply Rlt_le, Rinv_0_lt_compat; auto]].
      apply Rmult_le_reg_r with (s * S); auto. unfold Rdiv. rewrite Rmult_assoc, Rinv_l, Rmult_1_r by lra.
      assert (A : D0 * D1 <= / 4 * (S * S)) by (unfold S; assert (Z := Rle_0_sqr (D0 - D1)); unfold Rsqr in Z; lra).
      assert (B : S * S <= (1 + 2 * u) * (s * S)).
      { assert (S <= (1 + 2 * u) * s); [|nra]. assert (1 <= (1 + 2 * u) * (1 - u)) by nra. nra. }
      lra. }
    assert (A1 := Rabs_pos (U - W)). assert (A2 := Rabs_pos (e1 - e0)). assert (A3 := Rabs_pos (D0 * D1 / (s * S))).
    apply Rle_trans with (2 * M * (2 * u) * (/ 4 * (1 + 2 * u))); [|right; field].
    apply Rmult_le_compat; auto; [apply Rmult_le_pos; auto|]. apply Rmult_le_compat; auto.
  Qed.
  (** The products *)
  Lemma core_p : Rabs ((U * d1 * (1 + e2) + W * d0 * (1 + e3)) / s - (U * d1 + W * d0) / s) <= M * u.
  Proof.
    destruct core_d as (Q0 & Q1 & Qs). assert (QM := core_M).
    replace ((U * d1 * (1 + e2) + W * d0 * (1 + e3)) / s - (U * d1 + W * d0) / s) with ((U * e2 * d1 + W * e3 * d0) / (d1 + d0)) by (unfold s; field; unfold s in Qs; lra).
    apply mean_bound; auto; [unfold s in Qs; lra| |]; rewrite Rabs_mult; apply Rmult_le_compat; auto using Rabs_pos.
  Qed.
  Variables h h2 h3 h6 e4 e5 e6 : R.
  Hypotheses (Hh : 0 <= h) (Hh2 : Rabs h2 <= h) (Hh3 : Rabs h3 <= h) (Hh6 : Rabs h6 <= h) (E4 : Rabs e4 <= u) (E5 : Rabs e5 <= u) (E6 : Rabs e6 <= u).
  Let n := ((U * d1 * (1 + e2) + h2) + (W * d0 * (1 + e3) + h3)) * (1 + e4).
  Let den := s * (1 + e5).
  Lemma core_factor : Rabs ((1 + e4) * (1 + e6) / (1 + e5) - 1) <= 4 * u.
  Proof.
    apply Rabs_le_iff in E4, E5, E6. assert (P : 0 < 1 + e5) by lra.
    replace ((1 + e4) * (1 + e6) / (1 + e5) - 1) with ((e4 + e6 + e4 * e6 - e5) / (1 + e5)) by (field; lra).
    apply Rabs_le_iff. split.
    - apply Rmult_le_reg_r with (1 + e5); auto. unfold Rdiv. rewrite Rmult_assoc, Rinv_l, Rmult_1_r by lra. nra.
    - apply Rmult_le_reg_r with (1 + e5); auto. unfold Rdiv. rewrite Rmult_assoc, Rinv_l, Rmult_1_r by lra. nra.
  Qed.
  Lemma core : Rabs (n / den * (1 + e6) + h6 - E) <= 7 * u * M + 3 * h / S + h.
  Proof.
    assert (Ps := core_s). destruct core_d as (Q0 & Q1 & Qs). assert (QM := core_M). assert (PS : 0 < S) by (unfold S; lra).
    set (A := (U * d1 * (1 + e2) + W * d0 * (1 + e3)) / s).
    set (H := (h2 + h3) / s).
    set (f := (1 + e4) * (1 + e6) / (1 + e5) - 1).
    assert (Pe : 0 < 1 + e5) by (apply Rabs_le_iff in E5; lra).
    replace (n / den * (1 + e6) + h6 - E) with ((A - E) + A * f + H * (1 + f) + h6) by (unfold n, den, A, H, f; field; split; lra).
    assert (BA : Rabs (A - E) <= M * u * (2 + 2 * u)).
    { replace (A - E) with ((A - (U * d1 + W * d0) / s) + ((U * d1 + W * d0) / s - E)) by ring.
      eapply Rle_trans; [apply Rabs_triang|]. assert (X := core_p). assert (Y := core_w). fold A in X. lra. }
    assert (BE := core_E). assert (Bf := core_factor). fold f in Bf.
    assert (BM : Rabs A <= M * (1 + 3 * u)).
    { replace A with ((A - E) + E) by ring. eapply Rle_trans; [apply Rabs_triang|]. assert (M * u * (2 + 2 * u) <= M * (3 * u)); [|lra]. rewrite Rmult_assoc. apply Rmult_le_compat_l; auto. nra. }
    assert (BH : Rabs H <= (2 + 4 * u) * h / S).
    { unfold H, Rdiv. rewrite Rabs_mult, Rabs_inv, (Rabs_pos_eq s) by lra.
      assert (X : Rabs (h2 + h3) <= 2 * h) by (apply Rabs_le_iff in Hh2, Hh3; apply Rabs_le_iff; lra).
      apply Rle_trans with (2 * h * / s); [apply Rmult_le_compat_r; auto; apply Rlt_le, Rinv_0_lt_compat; auto|].
      apply Rmult_le_reg_r with (s * S); [apply Rmult_lt_0_compat; auto|].
      replace (2 * h * / s * (s * S)) with (2 * h * S) by (field; lra). replace ((2 + 4 * u) * h * / S * (s * S)) with ((2 + 4 * u) * h * s) by (field; lra).
      assert (2 * S <= (2 + 4 * u) * s); [|nra]. assert (2 <= (2 + 4 * u) * (1 - u)) by nra. nra. }
    assert (B1 : Rabs (A * f) <= M * (1 + 3 * u) * (4 * u)).
    { rewrite Rabs_mult. apply Rmult_le_compat; auto using Rabs_pos. }
    assert (Phs : 0 <= h / S) by (apply Rmult_le_pos; auto; apply Rlt_le, Rinv_0_lt_compat; auto).
    assert (B2 : Rabs (H * (1 + f)) <= (2 + 4 * u) * (h / S) * (1 + 4 * u)).
    { rewrite Rabs_mult. apply Rmult_le_compat; auto using Rabs_pos; [unfold Rdiv in *; lra|]. apply Rabs_le_iff in Bf. apply Rabs_le_iff. lra. }
    eapply Rle_trans; [apply Rabs_triang|]. eapply Rle_trans; [apply Rplus_le_compat_r, Rabs_triang|]. eapply Rle_trans; [apply Rplus_le_compat_r, Rplus_le_compat_r, Rabs_triang|].
    assert (C1 : M * u * (2 + 2 * u) + M * (1 + 3 * u) * (4 * u) <= 7 * u * M).
    { replace (M * u * (2 + 2 * u) + M * (1 + 3 * u) * (4 * u)) with (M * (u * (6 + 14 * u))) by ring. replace (7 * u * M) with (M * (u * 7)) by ring.
      apply Rmult_le_compat_l; auto. apply Rmult_le_compat_l; lra. }
    assert (C2 : (2 + 4 * u) * (h / S) * (1 + 4 * u) <= 3 * h / S).
    { unfold Rdiv in *. replace (3 * h * / S) with (3 * (h * / S)) by ring. assert ((2 + 4 * u) * (1 + 4 * u) <= 3) by nra. nra. }
    lra.
  Qed.
End Core.
