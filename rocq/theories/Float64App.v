(** Propagation of rounding errors: a small calculus, and the two polynomials. *)
From Verif Require Export Float64PolyRows.
From Coq Require Import Reals Lra Psatz.
Open Scope R_scope.

Definition tiny : R := / 1000000000.
Lemma u64_tiny : u64 <= tiny.
Proof.
  unfold u64, tiny. apply Rle_trans with (bpow radix2 (-30)); [apply bpow_le; lia|]. cbn. lra.
Qed.
(** [x] approximates [r], of magnitude at most [a M], within [k] half-units of [M] *)
Definition app (M : R) (x : f64) (r a k : R) : Prop := is_finite x = true /\ Rabs r <= a * M /\ Rabs (B2R x - r) <= k * u64 * M.
Definition scale (M : R) : Prop := bpow radix2 (-900) <= M <= bpow radix2 906.
Lemma scale_pos M : scale M -> 0 < M.
Proof. intros [H _]. eapply Rlt_le_trans; [apply bpow_gt_0|exact H]. Qed.
Lemma scale_1 : scale 1.
Proof. change 1 with (bpow radix2 0). split; apply bpow_le; lia. Qed.
Lemma scale_h M : scale M -> h64 <= tiny * u64 * M.
Proof.
  intros [H _]. apply Rle_trans with (bpow radix2 (-30) * u64 * bpow radix2 (-900) * bpow radix2 (-50)).
  - unfold h64, u64. rewrite <- !bpow_plus. apply bpow_le. lia.
  - assert (P1 := bpow_gt_0 radix2 (-900)). assert (U := u64_pos). assert (P2 := bpow_gt_0 radix2 (-30)).
    assert (Q : bpow radix2 (-50) * bpow radix2 (-30) <= tiny).
    { rewrite <- bpow_plus. apply Rle_trans with (bpow radix2 (-30)); [apply bpow_le; lia|]. unfold tiny. cbn. lra. }
    replace (bpow radix2 (-30) * u64 * bpow radix2 (-900) * bpow radix2 (-50)) with ((bpow radix2 (-50) * bpow radix2 (-30)) * (u64 * bpow radix2 (-900))) by ring.
    replace (tiny * u64 * M) with (tiny * (u64 * M)) by ring. apply Rmult_le_compat; try lra.
    + apply Rmult_le_pos; apply bpow_ge_0.
    + apply Rmult_le_pos; lra.
    + apply Rmult_le_compat_l; lra.
Qed.
Lemma app_bound M x r a k : scale M -> app M x r a k -> 0 <= k <= 100000 -> Rabs (B2R x) <= (a + 1) * M.
Proof.
  intros S (_ & A & E) K. assert (P := scale_pos M S). replace (B2R x) with ((B2R x - r) + r) by ring.
  eapply Rle_trans; [apply Rabs_triang|]. assert (U := u64_tiny). assert (U0 := u64_pos).
  assert (k * u64 * M <= 1 * M); [|lra]. apply Rmult_le_compat_r; [lra|]. unfold tiny in U. nra.
Qed.
Lemma scale_fits M c : scale M -> 0 <= c <= 1000000 -> c * M <= bpow radix2 1000.
Proof.
  intros [H1 H2] C. change 1000%Z with (94 + 906)%Z. rewrite bpow_plus. apply Rmult_le_compat; try lra.
  - eapply Rle_trans; [apply bpow_ge_0|exact H1].
  - apply Rle_trans with (bpow radix2 20); [cbn; lra|apply bpow_le; lia].
Qed.
Lemma app_weak M x r a k a' k' : scale M -> app M x r a k -> a <= a' -> k <= k' -> app M x r a' k'.
Proof.
  intros S (F & A & E) Ha Hk. assert (P := scale_pos M S). assert (U := u64_pos). split; auto. split.
  - eapply Rle_trans; [exact A|]. apply Rmult_le_compat_r; lra.
  - eapply Rle_trans; [exact E|]. apply Rmult_le_compat_r; [lra|]. apply Rmult_le_compat_r; lra.
Qed.
Lemma app_exact M x a : scale M -> is_finite x = true -> Rabs (B2R x) <= a * M -> app M x (B2R x) a 0.
Proof. intros S F A. split; auto. split; auto. rewrite Rminus_diag_eq, Rabs_R0 by reflexivity. lra. Qed.

Lemma app_add M x y r s a b k l c m : scale M -> app M x r a k -> app M y s b l ->
  0 <= a -> 0 <= b -> 0 <= k <= 100000 -> 0 <= l <= 100000 -> a + b <= c <= 1000 -> (k + l) * (1 + tiny) + c <= m -> app M (add64 x y) (r + s) c m.
Proof.
  intros S Hx Hy Pa Pb Pk Pl Hc Hm. assert (P := scale_pos M S).
  assert (Bx := app_bound _ _ _ _ _ S Hx Pk). assert (By := app_bound _ _ _ _ _ S Hy Pl).
  destruct Hx as (Fx & Ax & Ex), Hy as (Fy & Ay & Ey).
  assert (B : Rabs (B2R x + B2R y) <= bpow radix2 1000).
  { eapply Rle_trans; [apply Rabs_triang|]. apply Rle_trans with ((a + b + 2) * M); [lra|]. apply scale_fits; auto; lra. }
  destruct (add_ok x y 1000 ltac:(lia) Fx Fy B) as [F V].
  destruct (RN_add_err _ _ (format64 x) (format64 y)) as (e & He & Hr).
  assert (U := u64_tiny). assert (U0 := u64_pos).
  split; auto. split; [eapply Rle_trans; [apply Rabs_triang|]; apply Rle_trans with ((a + b) * M); [lra|apply Rmult_le_compat_r; lra]|].
  rewrite V, Hr.
  assert (D : Rabs (B2R x + B2R y - (r + s)) <= (k + l) * u64 * M).
  { replace (B2R x + B2R y - (r + s)) with ((B2R x - r) + (B2R y - s)) by ring. eapply Rle_trans; [apply Rabs_triang|]. lra. }
  replace ((B2R x + B2R y) * (1 + e) - (r + s)) with ((B2R x + B2R y - (r + s)) * (1 + e) + (r + s) * e) by ring.
  eapply Rle_trans; [apply Rabs_triang|]. rewrite !Rabs_mult.
  assert (R1 : Rabs (r + s) <= c * M). { eapply Rle_trans; [apply Rabs_triang|]. apply Rle_trans with ((a + b) * M); [lra|apply Rmult_le_compat_r; lra]. }
  assert (R2 : Rabs (1 + e) <= 1 + tiny). { apply Rabs_le_iff in He. unfold tiny in *. apply Rabs_le_iff. lra. }
  apply Rle_trans with ((k + l) * u64 * M * (1 + tiny) + c * M * u64).
  - apply Rplus_le_compat; apply Rmult_le_compat; auto using Rabs_pos.
  - replace ((k + l) * u64 * M * (1 + tiny) + c * M * u64) with (((k + l) * (1 + tiny) + c) * (u64 * M)) by ring. rewrite (Rmult_assoc m).
    apply Rmult_le_compat_r; [apply Rmult_le_pos; lra|exact Hm].
Qed.
Lemma app_sub M x y r s a b k l c m : scale M -> app M x r a k -> app M y s b l ->
  0 <= a -> 0 <= b -> 0 <= k <= 100000 -> 0 <= l <= 100000 -> a + b <= c <= 1000 -> (k + l) * (1 + tiny) + c <= m -> app M (sub64 x y) (r - s) c m.
Proof.
  intros S Hx Hy Pa Pb Pk Pl Hc Hm. assert (P := scale_pos M S).
  assert (Bx := app_bound _ _ _ _ _ S Hx Pk). assert (By := app_bound _ _ _ _ _ S Hy Pl).
  destruct Hx as (Fx & Ax & Ex), Hy as (Fy & Ay & Ey).
  assert (B : Rabs (B2R x - B2R y) <= bpow radix2 1000).
  { eapply Rle_trans; [apply (Rabs_triang (B2R x) (- B2R y))|]. rewrite Rabs_Ropp. apply Rle_trans with ((a + b + 2) * M); [lra|]. apply scale_fits; auto; lra. }
  destruct (sub_ok x y 1000 ltac:(lia) Fx Fy B) as [F V].
  destruct (RN_sub_err _ _ (format64 x) (format64 y)) as (e & He & Hr).
  assert (U := u64_tiny). assert (U0 := u64_pos).
  assert (R1 : Rabs (r - s) <= c * M). { eapply Rle_trans; [apply (Rabs_triang r (- s))|]. rewrite Rabs_Ropp. apply Rle_trans with ((a + b) * M); [lra|apply Rmult_le_compat_r; lra]. }
  split; auto. split; auto.
  rewrite V, Hr.
  assert (D : Rabs (B2R x - B2R y - (r - s)) <= (k + l) * u64 * M).
  { replace (B2R x - B2R y - (r - s)) with ((B2R x - r) + - (B2R y - s)) by ring. eapply Rle_trans; [apply Rabs_triang|]. rewrite Rabs_Ropp. lra. }
  replace ((B2R x - B2R y) * (1 + e) - (r - s)) with ((B2R x - B2R y - (r - s)) * (1 + e) + (r - s) * e) by ring.
  eapply Rle_trans; [apply Rabs_triang|]. rewrite !Rabs_mult.
  assert (R2 : Rabs (1 + e) <= 1 + tiny). { apply Rabs_le_iff in He. unfold tiny in *. apply Rabs_le_iff. lra. }
  apply Rle_trans with ((k + l) * u64 * M * (1 + tiny) + c * M * u64).
  - apply Rplus_le_compat; apply Rmult_le_compat; auto using Rabs_pos.
  - replace ((k + l) * u64 * M * (1 + tiny) + c * M * u64) with (((k + l) * (1 + tiny) + c) * (u64 * M)) by ring. rewrite (Rmult_assoc m).
    apply Rmult_le_compat_r; [apply Rmult_le_pos; lra|exact Hm].
Qed.
Lemma app_mul M x y r s a b k l c m : scale M -> app 1 x r a k -> app M y s b l ->
  0 <= a <= 1000 -> 0 <= b <= 1000 -> 0 <= k <= 100000 -> 0 <= l <= 100000 -> a * b <= c ->
  k * b + a * l + a * b + (2 * (k * l) + k * b + a * l + 1) * tiny <= m -> app M (mul64 x y) (r * s) c m.
Proof.
  intros S Hx Hy Pa Pb Pk Pl Hc Hm. assert (P := scale_pos M S).
  assert (Bx := app_bound _ _ _ _ _ scale_1 Hx Pk). assert (By := app_bound _ _ _ _ _ S Hy Pl). rewrite Rmult_1_r in Bx.
  destruct Hx as (Fx & Ax & Ex), Hy as (Fy & Ay & Ey). rewrite Rmult_1_r in Ax, Ex.
  assert (B : Rabs (B2R x * B2R y) <= (a + 1) * ((b + 1) * M)).
  { rewrite Rabs_mult. apply Rmult_le_compat; auto using Rabs_pos. }
  assert (B' : Rabs (B2R x * B2R y) <= bpow radix2 1000).
  { eapply Rle_trans; [exact B|]. rewrite <- Rmult_assoc. 
    apply Rle_trans with (1002001 * M). { apply Rmult_le_compat_r; [lra|]. nra. }
    change 1000%Z with (94 + 906)%Z. rewrite bpow_plus. destruct S as [S1 S2]. apply Rmult_le_compat; try lra.
    apply Rle_trans with (bpow radix2 20); [cbn; lra|apply bpow_le; lia]. }
  destruct (mul_ok x y 1000 ltac:(lia) Fx Fy B') as [F V].
  destruct (RN_err (B2R x * B2R y)) as (e & h & He & Hh & Hr).
  assert (U := u64_tiny). assert (U0 := u64_pos). assert (H0 := scale_h M S).
  split; auto. split.
  { rewrite Rabs_mult. apply Rle_trans with (a * (b * M)); [apply Rmult_le_compat; auto using Rabs_pos|]. rewrite <- Rmult_assoc. apply Rmult_le_compat_r; lra. }
  rewrite V, Hr.
  set (dx := B2R x - r) in *. set (dy := B2R y - s) in *.
  assert (Edx : B2R x = r + dx) by (unfold dx; ring). assert (Edy : B2R y = s + dy) by (unfold dy; ring).
  assert (D : Rabs (B2R x * B2R y - r * s) <= (k * b + a * l + k * l * tiny) * (u64 * M)).
  { rewrite Edx, Edy. replace ((r + dx) * (s + dy) - r * s) with (dx * s + r * dy + dx * dy) by ring.
    eapply Rle_trans; [apply Rabs_triang|]. eapply Rle_trans; [apply Rplus_le_compat_r, Rabs_triang|]. rewrite !Rabs_mult.
    assert (T1 : Rabs dx * Rabs s <= (k * u64) * (b * M)) by (apply Rmult_le_compat; auto using Rabs_pos).
    assert (T2 : Rabs r * Rabs dy <= a * (l * u64 * M)) by (apply Rmult_le_compat; auto using Rabs_pos).
    assert (T3 : Rabs dx * Rabs dy <= (k * u64) * (l * u64 * M)) by (apply Rmult_le_compat; auto using Rabs_pos).
    assert (T4 : (k * u64) * (l * u64 * M) <= k * l * tiny * (u64 * M)).
    { replace ((k * u64) * (l * u64 * M)) with (k * l * u64 * (u64 * M)) by ring. apply Rmult_le_compat_r; [apply Rmult_le_pos; lra|]. apply Rmult_le_compat_l; [nra|auto]. }
    nra. }
  assert (N : Rabs (B2R x * B2R y) <= (a * b + (k * b + a * l + k * l) * tiny) * M).
  { replace (B2R x * B2R y) with ((B2R x * B2R y - r * s) + r * s) by ring. eapply Rle_trans; [apply Rabs_triang|].
    assert (Rabs (r * s) <= a * b * M). { rewrite Rabs_mult. apply Rle_trans with (a * (b * M)); [apply Rmult_le_compat; auto using Rabs_pos|lra]. }
    assert (Q1 : 0 <= k * b) by (apply Rmult_le_pos; lra). assert (Q2 : 0 <= a * l) by (apply Rmult_le_pos; lra). assert (Q3 : 0 <= k * l) by (apply Rmult_le_pos; lra).
    assert (Q4 : (k * b + a * l + k * l * tiny) * (u64 * M) <= (k * b + a * l + k * l) * tiny * M).
    { rewrite <- Rmult_assoc. apply Rmult_le_compat_r; [lra|]. apply Rmult_le_compat; try lra; unfold tiny; nra. }
    lra. }
  replace (B2R x * B2R y * (1 + e) + h - r * s) with ((B2R x * B2R y - r * s) + B2R x * B2R y * e + h) by ring.
  eapply Rle_trans; [apply Rabs_triang|]. eapply Rle_trans; [apply Rplus_le_compat_r, Rabs_triang|]. rewrite (Rabs_mult (B2R x * B2R y) e).
  assert (T5 : Rabs (B2R x * B2R y) * Rabs e <= (a * b + (k * b + a * l + k * l) * tiny) * M * u64) by (apply Rmult_le_compat; auto using Rabs_pos).
  apply Rle_trans with ((k * b + a * l + a * b + (2 * (k * l) + k * b + a * l + 1) * tiny) * (u64 * M)); [lra|].
  rewrite (Rmult_assoc m). apply Rmult_le_compat_r; [apply Rmult_le_pos; lra|exact Hm].
Qed.
(** The position in the cell *)
Lemma app_mu (a y b : f64) mu : fin 1000 a -> is_finite y = true -> fin 1000 b -> B2R a <= B2R y <= B2R b -> B2R a < B2R b ->
  pydiv64 (sub64 y a) (add64 (sub64 y a) (sub64 b y)) = Ok mu ->
  app 1 mu ((B2R y - B2R a) / (B2R b - B2R a)) 1 5.
Proof.
  intros Fa' Fy Fb' Hy Hab Em. destruct (mu64 a y b Fa' Fy Fb' Hy Hab) as (mu' & Em' & [Fm _] & _). rewrite Em in Em'. injection Em' as <-.
  destruct Fa' as [Fa Ba], Fb' as [Fb Bb].
  assert (K1 := bp3 1000 1001 eq_refl). assert (Pk := bpow_gt_0 radix2 1000). apply Rabs_le_iff in Ba, Bb.
  destruct (sub_ok y a 1001) as [F0 V0]; auto; try lia.
  { rewrite K1. apply Rabs_le_iff. lra. }
  destruct (sub_ok b y 1001) as [F1 V1]; auto; try lia.
  { rewrite K1. apply Rabs_le_iff. lra. }
  assert (B0 : Rabs (B2R (sub64 y a)) <= bpow radix2 1001). { rewrite V0. apply RN_bound; [lia|]. rewrite K1. apply Rabs_le_iff. lra. }
  assert (B1 : Rabs (B2R (sub64 b y)) <= bpow radix2 1001). { rewrite V1. apply RN_bound; [lia|]. rewrite K1. apply Rabs_le_iff. lra. }
  destruct (add_ok (sub64 y a) (sub64 b y) 1002) as [F2 V2]; auto; try lia.
  { rewrite (bp3 1001 1002 eq_refl). eapply Rle_trans; [apply Rabs_triang|]. lra. }
  destruct (RN_sub_err (B2R y) (B2R a) (format64 _) (format64 _)) as (e0 & E0 & X0).
  destruct (RN_sub_err (B2R b) (B2R y) (format64 _) (format64 _)) as (e1 & E1 & X1).
  destruct (RN_add_err _ _ (format64 (sub64 y a)) (format64 (sub64 b y))) as (e5 & E5 & X5).
  rewrite X0 in V0. rewrite X1 in V1. rewrite X5 in V2.
  set (d0 := sub64 y a) in *. set (d1 := sub64 b y) in *. set (den := add64 d0 d1) in *.
  set (D0 := B2R y - B2R a) in *. set (D1 := B2R b - B2R y) in *.
  replace (B2R b - B2R a) with (D0 + D1) by (unfold D0, D1; ring).
  assert (P0 : 0 <= D0) by (unfold D0; lra). assert (P1 : 0 <= D1) by (unfold D1; lra). assert (PS : 0 < D0 + D1) by (unfold D0, D1; lra).
  assert (U := u64_tiny). assert (U0 := u64_pos). assert (HU : 0 < u64 <= / 1024) by (split; auto using u64_small).
  assert (CS := core_s u64 D0 D1 P0 P1 e0 e1 E0 E1).
  assert (QE0 := E0). assert (QE5 := E5). apply Rabs_le_iff in QE0, QE5.
  assert (Pt : 0 < D0 * (1 + e0) + D1 * (1 + e1)) by (unfold tiny in U; nra).
  assert (Pd : 0 < B2R den). { rewrite V2, V0, V1. apply Rmult_lt_0_compat; [exact Pt|unfold tiny in U; lra]. }
  unfold pydiv64 in Em. destruct (Beqb den zero64) eqn:BE; [discriminate|]. injection Em as <-.
  assert (NZ : B2R den <> 0) by lra.
  (* the exact quotient *)
  set (m := D0 / (D0 + D1)). assert (Hm : 0 <= m <= 1).
  { unfold m. split; [apply Rmult_le_pos; auto; apply Rlt_le, Rinv_0_lt_compat; auto|]. apply Rmult_le_reg_r with (D0 + D1); auto. unfold Rdiv. rewrite Rmult_assoc, Rinv_l by lra. lra. }
  set (t := (D0 * (1 + e0) + D1 * (1 + e1)) / (D0 + D1)).
  assert (Ht : 1 - u64 <= t <= 1 + u64).
  { unfold t. split.
    - apply Rmult_le_reg_r with (D0 + D1); auto. unfold Rdiv. rewrite Rmult_assoc, Rinv_l by lra. lra.
    - apply Rmult_le_reg_r with (D0 + D1); auto. unfold Rdiv. rewrite Rmult_assoc, Rinv_l by lra. lra. }
  assert (Q : B2R d0 / B2R den = m * ((1 + e0) / (t * (1 + e5)))).
  { rewrite V2, V0, V1. unfold m, t. field. unfold tiny in U. split; [lra|]. split; lra. }
  set (f := (1 + e0) / (t * (1 + e5))).
  assert (Pten : 0 < t * (1 + e5)) by (apply Rmult_lt_0_compat; unfold tiny in U; lra).
  assert (Hf : Rabs (f - 1) <= (3 + / 100) * u64).
  { unfold f. replace ((1 + e0) / (t * (1 + e5)) - 1) with ((1 + e0 - t * (1 + e5)) / (t * (1 + e5))) by (field; split; lra).
    unfold tiny in U.
    assert (L1 : 1 - 2 * u64 <= t * (1 + e5)) by nra. assert (L2 : t * (1 + e5) <= 1 + 2 * u64 + u64 * u64) by nra.
    apply Rabs_le_iff. split.
    - apply Rmult_le_reg_r with (t * (1 + e5)); auto. unfold Rdiv. rewrite Rmult_assoc, Rinv_l, Rmult_1_r by lra. nra.
    - apply Rmult_le_reg_r with (t * (1 + e5)); auto. unfold Rdiv. rewrite Rmult_assoc, Rinv_l, Rmult_1_r by lra. nra. }
  assert (QB : Rabs (B2R d0 / B2R den) <= bpow radix2 1).
  { rewrite Q. fold f. change (bpow radix2 1) with 2. rewrite Rabs_mult, (Rabs_pos_eq m) by lra. apply Rabs_le_iff in Hf.
    assert (Rabs f <= 2) by (unfold tiny in U; apply Rabs_le_iff; lra). assert (0 <= Rabs f) by apply Rabs_pos. nra. }
  destruct (div_ok d0 den 1) as [F3 V3]; auto; try lia.
  destruct (RN_err (B2R d0 / B2R den)) as (e6 & h6 & E6 & H6 & X6).
  split; auto. split; [rewrite Rabs_pos_eq; lra|].
  rewrite V3, X6, Q. fold f.
  replace (m * f * (1 + e6) + h6 - m) with (m * ((f - 1) * (1 + e6) + e6) + h6) by ring.
  assert (HH := scale_h 1 scale_1).
  eapply Rle_trans; [apply Rabs_triang|]. rewrite Rabs_mult, (Rabs_pos_eq m) by lra.
  assert (T : Rabs ((f - 1) * (1 + e6) + e6) <= (4 + / 50) * u64).
  { unfold tiny in U. apply Rabs_le_iff in Hf. apply Rabs_le_iff in E6. apply Rabs_le_iff. split; nra. }
  assert (0 <= Rabs ((f - 1) * (1 + e6) + e6)) by apply Rabs_pos. unfold tiny in HH. nra.
Qed.
