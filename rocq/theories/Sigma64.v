(** The formulas of xoa/sigma.py on binary64 numbers: numpy computes each operation with one rounding.  numpy's
    sinh and tanh are parameters: nothing is assumed about them. *)
From Verif Require Export SigmaG Sigma64Spec Float64App.
From Coq Require Import Reals Lra Psatz.
Open Scope R_scope.
Definition sops64 (fsinh ftanh : f64 -> f64) : nops :=
  mknops f64 add64 sub64 mul64 div64 (const64 (1 # 2)) (const64 1) (const64 2) fsinh ftanh.
(** The value at a position *)
Definition atm64 (s ps pt : f64) : f64 := add64 (mul64 s (sub64 ps pt)) pt.
Definition sig64 (s e h : f64) : f64 := add64 (mul64 s (add64 h e)) e.
Definition zc64 (s c h hc : f64) : f64 := add64 (mul64 s hc) (mul64 c (sub64 h hc)).
Definition one64 : f64 := const64 1.
Definition s64 (s c e h hc : f64) : f64 := add64 (mul64 (add64 s one64) e) (zc64 s c h hc).
Definition q1 (s c h hc : f64) : f64 := div64 (zc64 s c h hc) h.
Definition g164 (s c e h hc : f64) : f64 := add64 (zc64 s c h hc) (mul64 (add64 (q1 s c h hc) one64) e).
Definition n2 (s c h hc : f64) : f64 := add64 (mul64 s hc) (mul64 c h).
Definition S2 (s c h hc : f64) : f64 := div64 (n2 s c h hc) (add64 hc h).
Definition g264 (s c e h hc : f64) : f64 := add64 (mul64 (S2 s c h hc) h) (mul64 (add64 (S2 s c h hc) one64) e).

Section Arrays.
Variables fs ft : f64 -> f64.
Local Notation o := (sops64 fs ft).
Lemma atm_at sig ps pt p e : atmosphere_sigma_coordinate_g o sig ps pt = Ok p -> gat_ p e = atm64 (gat_ sig e) (gat_ ps e) (gat_ pt e).
Proof. unfold atmosphere_sigma_coordinate_g, ginplace. destruct (forallb _ _); [|discriminate]. intro H. injection H as <-. reflexivity. Qed.
Lemma sig_at sig ssh h p e : ocean_sigma_coordinate_g o sig ssh h = Ok p -> gat_ p e = sig64 (gat_ sig e) (gat_ ssh e) (gat_ h e).
Proof. unfold ocean_sigma_coordinate_g, ginplace. destruct (forallb _ _); [|discriminate]. intro H. injection H as <-. reflexivity. Qed.
(** The stretching curve of ocean_s_coordinate *)
Definition curve_s (sig a b : garr o) (cs : option (garr o)) : res (garr o) := match cs with Some x => Ok x | None => get_cs_g o sig a b end.
Lemma s_at sig ssh h hc a b cs c C z c' e : gfilled_cache o c = None -> curve_s sig a b cs = Ok C ->
  ocean_s_coordinate_gen o sig ssh h hc a b cs c = Ok (z, c') -> gat_ z e = s64 (gat_ sig e) (gat_ C e) (gat_ ssh e) (gat_ h e) (gat_ hc e).
Proof.
  intros F HC. unfold ocean_s_coordinate_gen. rewrite F. unfold curve_s in HC. rewrite HC. cbn [bind]. unfold ginplace.
  destruct (forallb _ _); [|discriminate]. cbn [bind]. intro H. injection H as <- _. reflexivity.
Qed.
Lemma g1_at s ssh h hc a b cs c C z c' e : gfilled_cache o c = None -> stretching_g o s a b cs = Ok C ->
  ocean_s_coordinate_g1_g o s ssh h hc a b cs c = Ok (z, c') -> gat_ z e = g164 (gat_ s e) (gat_ C e) (gat_ ssh e) (gat_ h e) (gat_ hc e).
Proof. intros F HC. unfold ocean_s_coordinate_g1_g. rewrite F, HC. cbn [bind]. intro H. injection H as <- _. reflexivity. Qed.
Lemma g2_at s ssh h hc a b cs c C z c' e : gfilled_cache o c = None -> stretching_g o s a b cs = Ok C ->
  ocean_s_coordinate_g2_g o s ssh h hc a b cs c = Ok (z, c') -> gat_ z e = g264 (gat_ s e) (gat_ C e) (gat_ ssh e) (gat_ h e) (gat_ hc e).
Proof.
  intros F HC. unfold ocean_s_coordinate_g2_g. rewrite F, HC. cbn [bind]. unfold ginplace. destruct (forallb _ _); [|discriminate]. cbn [bind].
  intro H. injection H as <- _. reflexivity.
Qed.
End Arrays.

(** ** Operations without overflow *)
Lemma add_fin_inv (x y : f64) : is_finite x = true -> is_finite y = true -> is_finite (add64 x y) = true -> B2R (add64 x y) = RN (B2R x + B2R y).
Proof.
  intros Fx Fy F. assert (H := Bplus_correct 53 1024 Hprec64 Hmax64 mode_NE x y Fx Fy). fold (add64 x y) in H.
  destruct (Rlt_bool_spec (Rabs (RN (B2R x + B2R y))) (bpow radix2 1024)) as [L|L]; [tauto|]. destruct H as [H _].
  exfalso. rewrite <- (is_finite_SF_B2SF 53 1024 (add64 x y)), H in F. cbn in F. now destruct (Bsign x).
Qed.
Lemma sub_fin_inv (x y : f64) : is_finite x = true -> is_finite y = true -> is_finite (sub64 x y) = true -> B2R (sub64 x y) = RN (B2R x - B2R y).
Proof.
  intros Fx Fy F. destruct (sub64_cases x y Fx Fy) as [[_ V]|[[E _]|[E _]]]; auto; rewrite E in F; discriminate.
Qed.
Lemma mul_fin_inv (x y : f64) : is_finite x = true -> is_finite y = true -> is_finite (mul64 x y) = true -> B2R (mul64 x y) = RN (B2R x * B2R y).
Proof.
  intros Fx Fy F. assert (H := Bmult_correct 53 1024 Hprec64 Hmax64 mode_NE x y). fold (mul64 x y) in H.
  destruct (Rlt_bool_spec (Rabs (RN (B2R x * B2R y))) (bpow radix2 1024)) as [L|L]; [tauto|].
  exfalso. rewrite <- (is_finite_SF_B2SF 53 1024 (mul64 x y)), H in F. cbn in F. now destruct (xorb _ _).
Qed.
Lemma div_fin_inv (x y : f64) : is_finite x = true -> B2R y <> 0 -> is_finite (div64 x y) = true -> B2R (div64 x y) = RN (B2R x / B2R y).
Proof.
  intros Fx Ny F. assert (H := Bdiv_correct 53 1024 Hprec64 Hmax64 mode_NE x y Ny). fold (div64 x y) in H.
  destruct (Rlt_bool_spec (Rabs (RN (B2R x / B2R y))) (bpow radix2 1024)) as [L|L]; [tauto|].
  exfalso. rewrite <- (is_finite_SF_B2SF 53 1024 (div64 x y)), H in F. cbn in F. now destruct (xorb _ _).
Qed.
(** Rounding is monotonic *)
Lemma add_mono a b c d : is_finite a = true -> is_finite b = true -> is_finite c = true -> is_finite d = true ->
  is_finite (add64 a b) = true -> is_finite (add64 c d) = true -> B2R a <= B2R c -> B2R b <= B2R d -> B2R (add64 a b) <= B2R (add64 c d).
Proof. intros. rewrite !add_fin_inv by assumption. apply RN_le. now apply Rplus_le_compat. Qed.
Lemma mul_mono a b c : is_finite a = true -> is_finite b = true -> is_finite c = true ->
  is_finite (mul64 a c) = true -> is_finite (mul64 b c) = true -> 0 <= B2R c -> B2R a <= B2R b -> B2R (mul64 a c) <= B2R (mul64 b c).
Proof. intros. rewrite !mul_fin_inv by assumption. apply RN_le. now apply Rmult_le_compat_r. Qed.
Lemma div_mono a b c : is_finite a = true -> is_finite b = true -> is_finite c = true ->
  is_finite (div64 a c) = true -> is_finite (div64 b c) = true -> 0 < B2R c -> B2R a <= B2R b -> B2R (div64 a c) <= B2R (div64 b c).
Proof. intros. rewrite !div_fin_inv by (auto; apply Rgt_not_eq; auto). apply RN_le. apply Rmult_le_compat_r; auto. left. now apply Rinv_0_lt_compat. Qed.
Lemma sub_nonneg' a b : is_finite a = true -> is_finite b = true -> is_finite (sub64 a b) = true -> B2R b <= B2R a -> 0 <= B2R (sub64 a b).
Proof. intros. rewrite sub_fin_inv by auto. rewrite <- RN_0. apply RN_le. lra. Qed.
Lemma add_nonneg' a b : is_finite a = true -> is_finite b = true -> is_finite (add64 a b) = true -> 0 <= B2R a + B2R b -> 0 <= B2R (add64 a b).
Proof. intros. rewrite add_fin_inv by auto. rewrite <- RN_0. now apply RN_le. Qed.

Lemma one_app : app 1 one64 1 1 0.
Proof. destruct Float64Poly.c1 as [F V]. change 1 with (IZR 1). unfold one64. rewrite <- V at 2. apply app_exact; auto using scale_1. rewrite V, Rabs_R1. lra. Qed.
Lemma one_val : is_finite one64 = true /\ B2R one64 = 1.
Proof. exact Float64Poly.c1. Qed.

(** A quotient by a number close to the scale *)
Lemma app_div M x y r a k l m e : scale M -> app M x r a k -> is_finite y = true -> B2R y = M * (1 + e) -> Rabs e <= l * u64 ->
  0 <= a <= 1000 -> 0 <= k <= 1000 -> 0 <= l <= 1 -> k + (1 + l) * a + 7000 * tiny <= m -> app 1 (div64 x y) (r / M) a m.
Proof.
  intros S (Fx & Ax & Ex) Fy Vy He Pa Pk Pl Hm. assert (P := scale_pos M S). assert (U := u64_tiny). assert (U0 := u64_pos).
  assert (Pe : Rabs e <= u64). { eapply Rle_trans; [exact He|]. nra. } apply Rabs_le_iff in Pe.
  assert (Pt : u64 <= / 1000000000) by exact U.
  assert (NZ : 0 < B2R y). { rewrite Vy. apply Rmult_lt_0_compat; lra. }
  set (d := (B2R x - r) / M). set (q := r / M). set (i := / (1 + e)).
  assert (Hd : Rabs d <= k * u64). { unfold d, Rdiv. rewrite Rabs_mult, (Rabs_pos_eq (/ M)) by (left; now apply Rinv_0_lt_compat). apply Rmult_le_reg_r with M; auto. rewrite Rmult_assoc, Rinv_l by lra. lra. }
  assert (Hq : Rabs q <= a). { unfold q, Rdiv. rewrite Rabs_mult, (Rabs_pos_eq (/ M)) by (left; now apply Rinv_0_lt_compat). apply Rmult_le_reg_r with M; auto. rewrite Rmult_assoc, Rinv_l by lra. lra. }
  assert (Qv : B2R x / B2R y = (q + d) * i). { rewrite Vy. unfold q, d, i. field. lra. }
  assert (Hi : i = 1 - e * i) by (unfold i; field; lra).
  assert (Bi : 0 < i <= 2). { unfold i. split; [apply Rinv_0_lt_compat; lra|]. rewrite <- (Rinv_inv 2). apply Rinv_le_contravar; lra. }
  assert (Hqd : Rabs (q + d) <= a + 1). { eapply Rle_trans; [apply Rabs_triang|]. apply Rplus_le_compat; auto. eapply Rle_trans; [exact Hd|]. nra. }
  assert (B : Rabs (B2R x / B2R y) <= bpow radix2 100).
  { rewrite Qv, Rabs_mult, (Rabs_pos_eq i) by lra. apply Rle_trans with (1001 * 2); [apply Rmult_le_compat; auto using Rabs_pos; lra|]. apply Rle_trans with (bpow radix2 20); [cbn; lra|apply bpow_le; lia]. }
  destruct (div_ok x y 100 ltac:(lia) Fx ltac:(lra) B) as [F V]. split; auto. split; [rewrite Rmult_1_r; exact Hq|].
  destruct (RN_err (B2R x / B2R y)) as (f & h & Hf & Hh & Hr). rewrite V, Hr, Qv. fold q.
  assert (H0 := scale_h 1 scale_1).
  replace ((q + d) * i * (1 + f) + h - q) with (d * (i * (1 + f)) + q * (i * (1 + f) - 1) + h) by ring.
  assert (Hf' := Hf). apply Rabs_le_iff in Hf'.
  assert (I1 : Rabs (i * (1 + f)) <= 1 + 3 * tiny).
  { unfold tiny. rewrite Rabs_pos_eq by nra. assert (i <= 1 + 2 * / 1000000000) by (rewrite Hi; nra). nra. }
  assert (I2 : Rabs (i * (1 + f) - 1) <= ((1 + l) + 3 * tiny) * u64).
  { replace (i * (1 + f) - 1) with (f - e - e * f + e * e * i * (1 + f)) by (unfold i; field; lra).
    assert (E2 : Rabs (e * f) <= tiny * u64). { rewrite Rabs_mult. apply Rmult_le_compat; auto using Rabs_pos. apply Rle_trans with u64; [apply Rabs_le_iff; lra|exact U]. }
    assert (E3 : Rabs (e * e * i * (1 + f)) <= 2 * tiny * u64).
    { replace (e * e * i * (1 + f)) with ((e * e) * (i * (1 + f))) by ring. rewrite Rabs_mult. rewrite Rabs_mult.
      assert (Rabs e * Rabs e <= u64 * tiny). { apply Rmult_le_compat; auto using Rabs_pos; apply Rabs_le_iff; lra. }
      apply Rle_trans with ((u64 * tiny) * 2); [|lra]. apply Rmult_le_compat; auto using Rabs_pos; [apply Rmult_le_pos; apply Rabs_pos|unfold tiny in I1; lra]. }
    apply Rabs_le_iff in E2. apply Rabs_le_iff in E3. apply Rabs_le_iff in He. apply Rabs_le_iff. split; nra. }
  eapply Rle_trans; [apply Rabs_triang|]. eapply Rle_trans; [apply Rplus_le_compat_r, Rabs_triang|]. rewrite (Rabs_mult d), (Rabs_mult q).
  assert (T1 : Rabs d * Rabs (i * (1 + f)) <= k * u64 * (1 + 3 * tiny)) by (apply Rmult_le_compat; auto using Rabs_pos).
  assert (T2 : Rabs q * Rabs (i * (1 + f) - 1) <= a * (((1 + l) + 3 * tiny) * u64)) by (apply Rmult_le_compat; auto using Rabs_pos).
  rewrite Rmult_1_r in *.
  apply Rle_trans with ((k + (1 + l) * a + 7000 * tiny) * u64); [|rewrite (Rmult_comm _ u64), (Rmult_comm m u64); apply Rmult_le_compat_l; lra].
  assert (Tt : 0 < tiny) by (unfold tiny; lra). 
  assert (X1 : k * (3 * tiny) <= 1000 * (3 * tiny)) by (apply Rmult_le_compat_r; lra). assert (X2 : a * (3 * tiny) <= 1000 * (3 * tiny)) by (apply Rmult_le_compat_r; lra).
  nra.
Qed.
