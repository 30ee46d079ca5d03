(** cubic1d and hermit1d in binary64: no overflow, and exactness at the nodes. *)
From Verif Require Export Float64Rows.
From Coq Require Import Reals Lra Psatz.
Open Scope R_scope.

(** Finite numbers bounded by a power of two *)
Definition fin (k : Z) (x : f64) : Prop := is_finite x = true /\ Rabs (B2R x) <= bpow radix2 k.
Lemma fin_weak k l x : (k <= l)%Z -> fin k x -> fin l x.
Proof. intros H [F B]. split; auto. eapply Rle_trans; [exact B|]. now apply bpow_le. Qed.
Lemma fin_add k x y : (-1074 <= k + 1 < 1024)%Z -> fin k x -> fin k y -> fin (k + 1) (add64 x y).
Proof.
  intros K [Fx Bx] [Fy By]. assert (S : Rabs (B2R x + B2R y) <= bpow radix2 (k + 1)).
  { rewrite bp2. eapply Rle_trans; [apply Rabs_triang|]. lra. }
  destruct (add_ok x y (k + 1) K Fx Fy S) as [F V]. split; auto. rewrite V. apply RN_bound; auto; lia.
Qed.
Lemma fin_sub k x y : (-1074 <= k + 1 < 1024)%Z -> fin k x -> fin k y -> fin (k + 1) (sub64 x y).
Proof.
  intros K [Fx Bx] [Fy By]. assert (S : Rabs (B2R x - B2R y) <= bpow radix2 (k + 1)).
  { rewrite bp2. apply Rabs_le_iff in Bx, By. apply Rabs_le_iff. lra. }
  destruct (sub_ok x y (k + 1) K Fx Fy S) as [F V]. split; auto. rewrite V. apply RN_bound; auto; lia.
Qed.
Lemma fin_mul k l x y : (-1074 <= k + l < 1024)%Z -> fin k x -> fin l y -> fin (k + l) (mul64 x y).
Proof.
  intros K [Fx Bx] [Fy By]. assert (S : Rabs (B2R x * B2R y) <= bpow radix2 (k + l)).
  { rewrite bpow_plus, Rabs_mult. apply Rmult_le_compat; auto using Rabs_pos. }
  destruct (mul_ok x y (k + l) K Fx Fy S) as [F V]. split; auto. rewrite V. apply RN_bound; auto; lia.
Qed.
Lemma fin_ops_add n k l x y : (k < n)%Z -> (l < n)%Z -> (-1074 <= n < 1024)%Z -> fin k x -> fin l y -> fin n (add64 x y).
Proof. intros A B C Hx Hy. replace n with (n - 1 + 1)%Z by lia. apply fin_add; [lia| |]; eapply fin_weak; try eassumption; lia. Qed.
Lemma fin_ops_sub n k l x y : (k < n)%Z -> (l < n)%Z -> (-1074 <= n < 1024)%Z -> fin k x -> fin l y -> fin n (sub64 x y).
Proof. intros A B C Hx Hy. replace n with (n - 1 + 1)%Z by lia. apply fin_sub; [lia| |]; eapply fin_weak; try eassumption; lia. Qed.
Lemma fin_ops_mul n k l x y : (k + l <= n)%Z -> (-1074 <= k + l)%Z -> (n < 1024)%Z -> fin k x -> fin l y -> fin n (mul64 x y).
Proof. intros A B C Hx Hy. eapply fin_weak; [exact A|]. apply fin_mul; auto; lia. Qed.

(** Exact operations *)
Lemma RNz x : RN (B2R (x : f64)) = B2R x.
Proof. apply RN_id. Qed.
Lemma mul_0 k x y : (-1074 <= k < 1024)%Z -> fin k y -> fin 0 x -> B2R x = 0 -> B2R (mul64 x y) = 0.
Proof.
  intros K [Fy By] [Fx _] Z. destruct (mul_ok x y k K Fx Fy) as [_ V].
  - rewrite Z, Rmult_0_l, Rabs_R0. apply bpow_ge_0.
  - rewrite V, Z, Rmult_0_l. apply RN_0.
Qed.
Lemma mul_1 k x y : (-1074 <= k < 1024)%Z -> fin k y -> fin 0 x -> B2R x = 1 -> B2R (mul64 x y) = B2R y.
Proof.
  intros K [Fy By] [Fx _] Z. destruct (mul_ok x y k K Fx Fy) as [_ V].
  - rewrite Z, Rmult_1_l; auto.
  - rewrite V, Z, Rmult_1_l. apply RNz.
Qed.
Lemma add_0l k l x y : (-1074 <= k < 1024)%Z -> fin k y -> fin l x -> B2R x = 0 -> B2R (add64 x y) = B2R y.
Proof.
  intros K [Fy By] [Fx _] Z. destruct (add_ok x y k K Fx Fy) as [_ V].
  - rewrite Z, Rplus_0_l; auto.
  - rewrite V, Z, Rplus_0_l. apply RNz.
Qed.
Lemma add_0r k l x y : (-1074 <= k < 1024)%Z -> fin k y -> fin l x -> B2R x = 0 -> B2R (add64 y x) = B2R y.
Proof.
  intros K [Fy By] [Fx _] Z. destruct (add_ok y x k K Fy Fx) as [_ V].
  - rewrite Z, Rplus_0_r; auto.
  - rewrite V, Z, Rplus_0_r. apply RNz.
Qed.
(** Small integers *)
Lemma fin0_le x : fin 0 x <-> is_finite x = true /\ Rabs (B2R x) <= 1.
Proof. reflexivity. Qed.

Lemma format_int z : (Z.abs z <= 2 ^ 53)%Z -> generic_format radix2 fexp64 (IZR z).
Proof.
  intro H. change fexp64 with (FLT_exp (-1074) 53).
  destruct (Z.eq_dec (Z.abs z) (2 ^ 53)) as [E|E].
  - assert (z = 2 ^ 53 \/ z = - 2 ^ 53)%Z as [-> | ->] by lia.
    + change (IZR (2 ^ 53)) with (bpow radix2 53). apply generic_format_bpow. unfold FLT_exp. lia.
    + rewrite opp_IZR. apply generic_format_opp. change (IZR (2 ^ 53)) with (bpow radix2 53). apply generic_format_bpow. unfold FLT_exp. lia.
  - apply generic_format_FLT. exists (Float radix2 z 0); unfold F2R; cbn [Fnum Fexp bpow]; [lra|change (Zaux.radix_val radix2 ^ 53)%Z with (2 ^ 53)%Z; lia|lia].
Qed.
Lemma RN_int z : (Z.abs z <= 2 ^ 53)%Z -> RN (IZR z) = IZR z.
Proof. intro H. apply round_generic; auto with typeclass_instances. now apply format_int. Qed.
Lemma int_bound z : (Z.abs z <= 2 ^ 53)%Z -> Rabs (IZR z) <= bpow radix2 53.
Proof. intro H. rewrite <- abs_IZR. change (bpow radix2 53) with (IZR (2 ^ 53)). now apply IZR_le. Qed.
(** [x] is the integer [z] *)
Definition isint (x : f64) (z : Z) : Prop := is_finite x = true /\ B2R x = IZR z.
Lemma int_add x y a b : isint x a -> isint y b -> (Z.abs (a + b) <= 2 ^ 53)%Z -> isint (add64 x y) (a + b).
Proof.
  intros [Fx Vx] [Fy Vy] H. destruct (add_ok x y 53) as [F V]; auto; try lia.
  - rewrite Vx, Vy, <- plus_IZR. now apply int_bound.
  - split; auto. rewrite V, Vx, Vy, <- plus_IZR. now apply RN_int.
Qed.
Lemma int_sub x y a b : isint x a -> isint y b -> (Z.abs (a - b) <= 2 ^ 53)%Z -> isint (sub64 x y) (a - b).
Proof.
  intros [Fx Vx] [Fy Vy] H. destruct (sub_ok x y 53) as [F V]; auto; try lia.
  - rewrite Vx, Vy, <- minus_IZR. now apply int_bound.
  - split; auto. rewrite V, Vx, Vy, <- minus_IZR. now apply RN_int.
Qed.
Lemma int_mul x y a b : isint x a -> isint y b -> (Z.abs (a * b) <= 2 ^ 53)%Z -> isint (mul64 x y) (a * b).
Proof.
  intros [Fx Vx] [Fy Vy] H. destruct (mul_ok x y 53) as [F V]; auto; try lia.
  - rewrite Vx, Vy, <- mult_IZR. now apply int_bound.
  - split; auto. rewrite V, Vx, Vy, <- mult_IZR. now apply RN_int.
Qed.
Lemma const_val (x : f64) s m e : B2SF x = SpecFloat.S754_finite s m e -> is_finite x = true /\ B2R x = F2R (Float radix2 (cond_Zopp s (Zpos m)) e).
Proof. intro H. destruct x; try discriminate. cbn in H. injection H as -> -> ->. split; reflexivity. Qed.
Lemma c1 : isint (const64 1) 1.
Proof. destruct (const_val (const64 1) false 4503599627370496 (-52) eq_refl) as [F V]. split; auto. rewrite V. unfold F2R. cbn. lra. Qed.
Lemma c2 : isint (const64 2) 2.
Proof. destruct (const_val (const64 2) false 4503599627370496 (-51) eq_refl) as [F V]. split; auto. rewrite V. unfold F2R. cbn. lra. Qed.
Lemma c3 : isint (const64 3) 3.
Proof. destruct (const_val (const64 3) false 6755399441055744 (-51) eq_refl) as [F V]. split; auto. rewrite V. unfold F2R. cbn. lra. Qed.
Lemma cm2 : isint (const64 (-2)) (-2).
Proof. destruct (const_val (const64 (-2)) true 4503599627370496 (-51) eq_refl) as [F V]. split; auto. rewrite V. unfold F2R. cbn. lra. Qed.
Lemma chalf : fin 0 (const64 (1 # 2)).
Proof. destruct (const_val (const64 (1 # 2)) false 4503599627370496 (-53) eq_refl) as [F V]. split; auto. rewrite V. unfold F2R. cbn. rewrite Rabs_pos_eq; lra. Qed.
Lemma isint_fin x z k : isint x z -> (Z.abs z <= 2 ^ k)%Z -> (0 <= k)%Z -> fin k x.
Proof. intros [F V] H K. split; auto. rewrite V, <- abs_IZR, <- (IZR_Zpower radix2 k K). apply IZR_le. exact H. Qed.

(** The position in the cell *)
Lemma mu64 (a y b : f64) : fin 1000 a -> is_finite y = true -> fin 1000 b -> B2R a <= B2R y <= B2R b -> B2R a < B2R b ->
  exists mu, pydiv64 (sub64 y a) (add64 (sub64 y a) (sub64 b y)) = Ok mu /\ fin 0 mu /\
    (B2R y = B2R a -> isint mu 0) /\ (B2R y = B2R b -> isint mu 1).
Proof.
  intros [Fa Ba] Fy [Fb Bb] Hy Hab.
  assert (K1 := bp3 1000 1001 eq_refl). assert (Pk := bpow_gt_0 radix2 1000). apply Rabs_le_iff in Ba, Bb.
  destruct (sub_ok y a 1001) as [F0 V0]; auto; try lia.
  { rewrite K1. apply Rabs_le_iff. lra. }
  destruct (sub_ok b y 1001) as [F1 V1]; auto; try lia.
  { rewrite K1. apply Rabs_le_iff. lra. }
  assert (B0 : Rabs (B2R (sub64 y a)) <= bpow radix2 1001). { rewrite V0. apply RN_bound; [lia|]. rewrite K1. apply Rabs_le_iff. lra. }
  assert (B1 : Rabs (B2R (sub64 b y)) <= bpow radix2 1001). { rewrite V1. apply RN_bound; [lia|]. rewrite K1. apply Rabs_le_iff. lra. }
  assert (P0 : 0 <= B2R (sub64 y a)) by (rewrite V0; apply RN_sub_ge; auto using format64; lra).
  assert (P1 : 0 <= B2R (sub64 b y)) by (rewrite V1; apply RN_sub_ge; auto using format64; lra).
  set (d0 := sub64 y a) in *. set (d1 := sub64 b y) in *.
  destruct (add_ok d0 d1 1002) as [F2 V2]; auto; try lia.
  { rewrite (bp3 1001 1002 eq_refl). eapply Rle_trans; [apply Rabs_triang|]. lra. }
  assert (PS : Float64Facts.pos (add64 d0 d1)).
  { apply add_pos. destruct (Rle_lt_dec (B2R y) (B2R a)) as [L|L].
    - right. split; [right; auto|]. apply sub_pos; auto; lra.
    - left. split; [|right; auto]. apply sub_pos; auto; lra. }
  assert (D : 0 < B2R (add64 d0 d1)) by (destruct PS as [E|[_ P]]; auto; rewrite E in F2; discriminate).
  assert (DL : B2R d0 <= B2R (add64 d0 d1)). { rewrite V2. rewrite <- (RN_id d0) at 1. apply RN_le. lra. }
  assert (Q : 0 <= B2R d0 / B2R (add64 d0 d1) <= 1).
  { split.
    - apply Rmult_le_pos; auto. apply Rlt_le, Rinv_0_lt_compat; auto.
    - apply Rmult_le_reg_r with (B2R (add64 d0 d1)); auto. unfold Rdiv. rewrite Rmult_assoc, Rinv_l by lra. lra. }
  assert (QA : Rabs (B2R d0 / B2R (add64 d0 d1)) <= bpow radix2 0) by (change (bpow radix2 0) with 1; apply Rabs_le_iff; lra).
  destruct (div_ok d0 (add64 d0 d1) 0) as [F3 V3]; auto; try lia; try lra.
  exists (div64 d0 (add64 d0 d1)). split; [|split; [|split]].
  - unfold pydiv64. now rewrite pos_not_zero.
  - split; auto. rewrite V3. apply RN_bound; auto; lia.
  - intro E. split; auto. rewrite V3. assert (Z : B2R d0 = 0) by (rewrite V0, E, Rminus_diag_eq by reflexivity; apply RN_0).
    rewrite Z. unfold Rdiv. rewrite Rmult_0_l. apply RN_0.
  - intro E. split; auto. rewrite V3. assert (Z : B2R d1 = 0) by (rewrite V1, E, Rminus_diag_eq by reflexivity; apply RN_0).
    assert (V2' : B2R (add64 d0 d1) = B2R d0) by (rewrite V2, Z, Rplus_0_r; apply RN_id).
    rewrite V2'. replace (B2R d0 / B2R d0) with (IZR 1) by (field; lra). apply RN_int. lia.
Qed.

(** The cubic polynomial *)
Lemma cubic_fin mu c0 v0 v1 c1_ : fin 0 mu -> fin 905 c0 -> fin 905 v0 -> fin 905 v1 -> fin 905 c1_ ->
  let t := add64 (sub64 (sub64 c1_ v1) c0) v0 in
  fin 908 t /\ fin 909 (sub64 (sub64 c0 v0) t) /\ fin 906 (sub64 v1 c0) /\ fin 0 (mul64 mu mu) /\ fin 0 (mul64 mu (mul64 mu mu)).
Proof.
  intros M C0 V0 V1 C1 t.
  assert (T : fin 908 t).
  { apply (fin_ops_add 908 907 905); try lia; auto. apply (fin_ops_sub 907 906 905); try lia; auto. apply (fin_ops_sub 906 905 905); try lia; auto. }
  split; auto. split; [|split; [|split]].
  - apply (fin_ops_sub 909 906 908); try lia; auto. apply (fin_ops_sub 906 905 905); try lia; auto.
  - apply (fin_ops_sub 906 905 905); try lia; auto.
  - apply (fin_ops_mul 0 0 0); try lia; auto.
  - apply (fin_ops_mul 0 0 0); try lia; auto. apply (fin_ops_mul 0 0 0); try lia; auto.
Qed.
Lemma cubic_ok mu c0 v0 v1 c1_ : fin 0 mu -> fin 905 c0 -> fin 905 v0 -> fin 905 v1 -> fin 905 c1_ ->
  is_finite (cubic_formula_g ops64 mu c0 v0 v1 c1_) = true /\
  (isint mu 0 -> B2R (cubic_formula_g ops64 mu c0 v0 v1 c1_) = B2R v0).
Proof.
  intros M C0 V0 V1 C1. destruct (cubic_fin mu c0 v0 v1 c1_ M C0 V0 V1 C1) as (T & T1 & T2 & M2 & M3).
  unfold cubic_formula_g, fcub_g, fsq_g. cbn [n_add n_sub n_mul ops64].
  set (t := add64 (sub64 (sub64 c1_ v1) c0) v0) in *.
  set (A := mul64 (mul64 mu (mul64 mu mu)) t).
  set (B := mul64 (mul64 mu mu) (sub64 (sub64 c0 v0) t)).
  set (C := mul64 mu (sub64 v1 c0)).
  assert (FA : fin 909 A) by (apply (fin_ops_mul 909 0 908); try lia; auto).
  assert (FB : fin 909 B) by (apply (fin_ops_mul 909 0 909); try lia; auto).
  assert (FC : fin 909 C) by (apply (fin_ops_mul 909 0 906); try lia; auto).
  assert (FAB : fin 910 (add64 A B)) by (apply (fin_ops_add 910 909 909); try lia; auto).
  assert (FABC : fin 911 (add64 (add64 A B) C)) by (apply (fin_ops_add 911 910 909); try lia; auto).
  split.
  - apply (fin_ops_add 912 911 905); try lia; auto.
  - intros [_ Z]. assert (Z2 : B2R (mul64 mu mu) = 0) by (apply (mul_0 0); auto; lia).
    assert (Z3 : B2R (mul64 mu (mul64 mu mu)) = 0) by (apply (mul_0 0); auto; lia).
    assert (ZA : B2R A = 0) by (apply (mul_0 908); auto; lia).
    assert (ZB : B2R B = 0) by (apply (mul_0 909); auto; lia).
    assert (ZC : B2R C = 0) by (apply (mul_0 906); auto; lia).
    rewrite (add_0l 905 911); auto; try lia.
    rewrite (add_0r 910 909); auto; try lia. rewrite (add_0l 909 909); auto; lia.
Qed.
(** The Hermite polynomial *)
Lemma hermit_ok bias tension mu c0 v0 v1 c1_ : fin 40 bias -> fin 40 tension -> fin 0 mu -> fin 905 c0 -> fin 905 v0 -> fin 905 v1 -> fin 905 c1_ ->
  let x := hermit_formula_g ops64 bias tension mu c0 v0 v1 c1_ in
  is_finite x = true /\ (isint mu 0 -> B2R x = B2R v0) /\ (isint mu 1 -> B2R x = B2R v1).
Proof.
  intros Bi Te M C0 V0 V1 C1. cbv zeta. unfold hermit_formula_g, fcub_g, fsq_g, fc_g. cbn [n_add n_sub n_mul n_const ops64].
  assert (K1 := isint_fin _ _ 0 c1 ltac:(cbn; lia) ltac:(lia)).
  assert (K2 := isint_fin _ _ 1 c2 ltac:(cbn; lia) ltac:(lia)).
  assert (K3 := isint_fin _ _ 2 c3 ltac:(cbn; lia) ltac:(lia)).
  assert (Km := isint_fin _ _ 1 cm2 ltac:(cbn; lia) ltac:(lia)).
  assert (Kh := chalf).
  assert (M2 : fin 0 (mul64 mu mu)) by (apply (fin_ops_mul 0 0 0); try lia; auto).
  assert (M3 : fin 0 (mul64 mu (mul64 mu mu))) by (apply (fin_ops_mul 0 0 0); try lia; auto).
  set (o1 := const64 1) in *. set (o2 := const64 2) in *. set (o3 := const64 3) in *. set (om := const64 (-2)) in *. set (oh := const64 (1 # 2)) in *.
  set (m2 := mul64 mu mu) in *. set (m3 := mul64 mu m2) in *.
  set (wp := mul64 (add64 o1 bias) (sub64 o1 tension)).
  set (wm := mul64 (sub64 o1 bias) (sub64 o1 tension)).
  assert (Wp : fin 82 wp).
  { apply (fin_ops_mul 82 41 41); try lia; [apply (fin_ops_add 41 0 40)|apply (fin_ops_sub 41 0 40)]; try lia; auto. }
  assert (Wm : fin 82 wm).
  { apply (fin_ops_mul 82 41 41); try lia; [apply (fin_ops_sub 41 0 40)|apply (fin_ops_sub 41 0 40)]; try lia; auto. }
  assert (HF : forall p q w, fin 905 p -> fin 905 q -> fin 82 w -> fin 988 (mul64 (mul64 (sub64 p q) w) oh)).
  { intros p q w Hp Hq Hw. apply (fin_ops_mul 988 988 0); try lia; auto. apply (fin_ops_mul 988 906 82); try lia; auto. apply (fin_ops_sub 906 905 905); try lia; auto. }
  set (a0 := add64 (sub64 (mul64 o2 m3) (mul64 o3 m2)) o1).
  set (a1 := add64 (sub64 m3 (mul64 o2 m2)) mu).
  set (a2 := sub64 m3 m2).
  set (a3 := add64 (mul64 om m3) (mul64 o3 m2)).
  assert (P2 : fin 1 (mul64 o2 m3)) by (apply (fin_ops_mul 1 1 0); try lia; auto).
  assert (P2b : fin 1 (mul64 o2 m2)) by (apply (fin_ops_mul 1 1 0); try lia; auto).
  assert (P3 : fin 2 (mul64 o3 m2)) by (apply (fin_ops_mul 2 2 0); try lia; auto).
  assert (Pm : fin 1 (mul64 om m3)) by (apply (fin_ops_mul 1 1 0); try lia; auto).
  assert (A0 : fin 4 a0) by (apply (fin_ops_add 4 3 0); try lia; auto; apply (fin_ops_sub 3 1 2); try lia; auto).
  assert (A1 : fin 4 a1) by (apply (fin_ops_add 4 3 0); try lia; auto; apply (fin_ops_sub 3 0 1); try lia; auto).
  assert (A2 : fin 4 a2) by (apply (fin_ops_sub 4 0 0); try lia; auto).
  assert (A3 : fin 4 a3) by (apply (fin_ops_add 4 1 2); try lia; auto).
  set (h1 := add64 (mul64 (mul64 (sub64 v0 c0) wp) oh) (mul64 (mul64 (sub64 v1 v0) wm) oh)).
  set (h2 := add64 (mul64 (mul64 (sub64 v1 v0) wp) oh) (mul64 (mul64 (sub64 c1_ v1) wm) oh)).
  assert (H1 : fin 989 h1) by (apply (fin_ops_add 989 988 988); try lia; auto).
  assert (H2 : fin 989 h2) by (apply (fin_ops_add 989 988 988); try lia; auto).
  assert (R0 : fin 993 (mul64 a0 v0)) by (apply (fin_ops_mul 993 4 905); try lia; auto).
  assert (R1 : fin 993 (mul64 a1 h1)) by (apply (fin_ops_mul 993 4 989); try lia; auto).
  assert (R2 : fin 993 (mul64 a2 h2)) by (apply (fin_ops_mul 993 4 989); try lia; auto).
  assert (R3 : fin 993 (mul64 a3 v1)) by (apply (fin_ops_mul 993 4 905); try lia; auto).
  assert (S1 : fin 994 (add64 (mul64 a0 v0) (mul64 a1 h1))) by (apply (fin_ops_add 994 993 993); try lia; auto).
  assert (S2 : fin 995 (add64 (add64 (mul64 a0 v0) (mul64 a1 h1)) (mul64 a2 h2))) by (apply (fin_ops_add 995 994 993); try lia; auto).
  split; [apply (fin_ops_add 996 995 993); try lia; auto|].
  assert (INT : forall z, isint mu z -> (0 <= z <= 1)%Z ->
     isint a0 (2 * (z * (z * z)) - 3 * (z * z) + 1) /\ isint a1 (z * (z * z) - 2 * (z * z) + z) /\ isint a2 (z * (z * z) - z * z) /\ isint a3 (-2 * (z * (z * z)) + 3 * (z * z))).
  { intros z Hz R. assert (z = 0 \/ z = 1)%Z as Z by lia.
    assert (I2 : isint m2 (z * z)) by (apply int_mul; auto; destruct Z as [-> | ->]; cbn; lia).
    assert (I3 : isint m3 (z * (z * z))) by (apply int_mul; auto; destruct Z as [-> | ->]; cbn; lia).
    assert (J2 : isint (mul64 o2 m3) (2 * (z * (z * z)))) by (apply int_mul; auto using c2; destruct Z as [-> | ->]; cbn; lia).
    assert (J2b : isint (mul64 o2 m2) (2 * (z * z))) by (apply int_mul; auto using c2; destruct Z as [-> | ->]; cbn; lia).
    assert (J3 : isint (mul64 o3 m2) (3 * (z * z))) by (apply int_mul; auto using c3; destruct Z as [-> | ->]; cbn; lia).
    assert (Jm : isint (mul64 om m3) (-2 * (z * (z * z)))) by (apply int_mul; auto using cm2; destruct Z as [-> | ->]; cbn; lia).
    split; [|split; [|split]].
    - apply int_add; auto using c1; [apply int_sub; auto|]; destruct Z as [-> | ->]; cbn; lia.
    - apply int_add; auto; [apply int_sub; auto|]; destruct Z as [-> | ->]; cbn; lia.
    - apply int_sub; auto; destruct Z as [-> | ->]; cbn; lia.
    - apply int_add; auto; destruct Z as [-> | ->]; cbn; lia. }
  split; intro Hz.
  - destruct (INT 0%Z Hz ltac:(lia)) as (I0 & I1 & I2 & I3). cbn in I0, I1, I2, I3.
    assert (F0 := isint_fin _ _ 0 I0 ltac:(cbn; lia) ltac:(lia)). assert (F1 := isint_fin _ _ 0 I1 ltac:(cbn; lia) ltac:(lia)).
    assert (F2 := isint_fin _ _ 0 I2 ltac:(cbn; lia) ltac:(lia)). assert (F3 := isint_fin _ _ 0 I3 ltac:(cbn; lia) ltac:(lia)).
    destruct I0 as [_ I0], I1 as [_ I1], I2 as [_ I2], I3 as [_ I3].
    rewrite (add_0r 995 993); auto; try lia; [|apply (mul_0 905); auto; lia].
    rewrite (add_0r 994 993); auto; try lia; [|apply (mul_0 989); auto; lia].
    rewrite (add_0r 993 993); auto; try lia; [|apply (mul_0 989); auto; lia].
    apply (mul_1 905); auto; lia.
  - destruct (INT 1%Z Hz ltac:(lia)) as (I0 & I1 & I2 & I3). cbn in I0, I1, I2, I3.
    assert (F0 := isint_fin _ _ 0 I0 ltac:(cbn; lia) ltac:(lia)). assert (F1 := isint_fin _ _ 0 I1 ltac:(cbn; lia) ltac:(lia)).
    assert (F2 := isint_fin _ _ 0 I2 ltac:(cbn; lia) ltac:(lia)). assert (F3 := isint_fin _ _ 0 I3 ltac:(cbn; lia) ltac:(lia)).
    destruct I0 as [_ I0], I1 as [_ I1], I2 as [_ I2], I3 as [_ I3].
    assert (Z0 : B2R (mul64 a0 v0) = 0) by (apply (mul_0 905); auto; lia).
    assert (Z1 : B2R (mul64 a1 h1) = 0) by (apply (mul_0 989); auto; lia).
    assert (Z2 : B2R (mul64 a2 h2) = 0) by (apply (mul_0 989); auto; lia).
    rewrite (add_0l 993 995); auto; try lia; [apply (mul_1 905); auto; lia|].
    rewrite (add_0l 993 994); auto; try lia. rewrite (add_0l 993 993); auto; try lia.
Qed.
