(** Signs, comparisons and errors of the operations on binary64 numbers. *)
From Verif Require Export Float64 InterpGArrays.
From Coq Require Import Reals Lra.
Open Scope R_scope.

Notation fexp64 := (SpecFloat.fexp 53 1024).
Notation RN := (round radix2 fexp64 (round_mode mode_NE)).

Global Instance valid_exp64 : Valid_exp fexp64 := fexp_correct 53 1024 Hprec64.
Lemma fexp64_FLT : fexp64 = FLT_exp (-1074) 53.
Proof. reflexivity. Qed.
Lemma format64 (x : f64) : generic_format radix2 fexp64 (B2R x).
Proof. apply generic_format_B2R. Qed.
Lemma RN_le x y : x <= y -> RN x <= RN y.
Proof. apply round_le; auto with typeclass_instances. Qed.
Lemma RN_id (x : f64) : RN (B2R x) = B2R x.
Proof. apply round_generic; auto with typeclass_instances. apply format64. Qed.
Lemma RN_0 : RN 0 = 0.
Proof. apply round_0. auto with typeclass_instances. Qed.
Lemma finite_bound (x : f64) : Rabs (B2R x) < bpow radix2 1024.
Proof. apply abs_B2R_lt_emax. Qed.

(** A difference never rounds to zero *)
Lemma RN_sub_neq x y : generic_format radix2 fexp64 x -> generic_format radix2 fexp64 y -> x <> y -> RN (x - y) <> 0.
Proof.
  intros Fx Fy N. apply (round_plus_neq_0 radix2 fexp64 (round_mode mode_NE) x (- y) Fx).
  - now apply generic_format_opp.
  - lra.
Qed.
Lemma RN_sub_lt x y : generic_format radix2 fexp64 x -> generic_format radix2 fexp64 y -> (RN (x - y) < 0 <-> x < y).
Proof.
  intros Fx Fy. split; intro H.
  - destruct (Rlt_le_dec x y) as [|G]; auto. assert (RN 0 <= RN (x - y)) by (apply RN_le; lra). rewrite RN_0 in *. lra.
  - assert (L : RN (x - y) <= RN 0) by (apply RN_le; lra). rewrite RN_0 in L. assert (RN (x - y) <> 0) by (apply RN_sub_neq; auto; lra). lra.
Qed.
Lemma RN_sub_ge x y : generic_format radix2 fexp64 x -> generic_format radix2 fexp64 y -> (0 <= RN (x - y) <-> y <= x).
Proof.
  intros Fx Fy. assert (X := RN_sub_lt x y Fx Fy). split; intro H.
  - destruct (Rle_lt_dec y x); auto. apply X in r. lra.
  - destruct (Rle_lt_dec 0 (RN (x - y))); auto. apply X in r. lra.
Qed.

Lemma sign_le (x : f64) : is_finite x = true -> (Bsign x = true -> B2R x <= 0) /\ (Bsign x = false -> 0 <= B2R x).
Proof.
  intro F. destruct x as [s|s| |s m e Hb]; try discriminate; cbn [Bsign B2R].
  - split; lra.
  - split; intros ->; cbn [cond_Zopp].
    + apply F2R_le_0. cbn. apply Pos2Z.neg_is_nonpos.
    + apply F2R_ge_0. cbn. apply Pos2Z.is_nonneg.
Qed.
(** A subtraction of finite numbers: the rounded difference, or the infinity of the right sign *)
Lemma sub64_cases (x y : f64) : is_finite x = true -> is_finite y = true ->
  (is_finite (sub64 x y) = true /\ B2R (sub64 x y) = RN (B2R x - B2R y)) \/
  (sub64 x y = B754_infinity true /\ B2R x < B2R y) \/ (sub64 x y = B754_infinity false /\ B2R y < B2R x).
Proof.
  intros Fx Fy. assert (H := Bminus_correct 53 1024 Hprec64 Hmax64 mode_NE x y Fx Fy).
  destruct (Rlt_bool_spec (Rabs (RN (B2R x - B2R y))) (bpow radix2 1024)) as [L|L].
  - left. destruct H as (E & F & _). auto.
  - right. destruct H as [E S].
    assert (N : B2R x <> B2R y).
    { intro Q. rewrite Q in L. replace (B2R y - B2R y) with 0 in L by ring. rewrite RN_0, Rabs_R0 in L. assert (P := bpow_gt_0 radix2 1024). lra. }
    assert (E' : sub64 x y = B754_infinity (Bsign x)).
    { apply B2SF_inj. unfold sub64. rewrite E. reflexivity. }
    destruct (sign_le x Fx) as [X1 X2]. destruct (sign_le y Fy) as [Y1 Y2]. rewrite E'. destruct (Bsign x).
    + left. split; auto. specialize (X1 eq_refl). destruct (Bsign y); [discriminate|]. specialize (Y2 eq_refl). lra.
    + right. split; auto. specialize (X2 eq_refl). destruct (Bsign y); [|discriminate]. specialize (Y1 eq_refl). lra.
Qed.
Lemma rank_finite x : is_finite x = true -> rank64 x = Some (B2R x).
Proof. unfold rank64. now intros ->. Qed.
Lemma rank_some x r : rank64 x = Some r -> is_finite x = true /\ r = B2R x.
Proof. unfold rank64. destruct (is_finite x); [intro H; injection H as <-; auto|discriminate]. Qed.
Lemma zero_fin : is_finite zero64 = true.
Proof. reflexivity. Qed.
Lemma f0_64 : n_const ops64 0 = zero64.
Proof. reflexivity. Qed.

Lemma L64_lt a b : good64 a -> good64 b -> (Bltb a b = true <-> exists x y, rank64 a = Some x /\ rank64 b = Some y /\ x < y).
Proof.
  intros [Fa| ->] [Fb| ->].
  - rewrite (Bltb_correct 53 1024 a b Fa Fb). rewrite (rank_finite a Fa), (rank_finite b Fb). split.
    + intro H. destruct (Rlt_bool_spec (B2R a) (B2R b)); [eauto|discriminate].
    + intros (x & y & Ea & Eb & H). injection Ea as <-. injection Eb as <-. now apply Rlt_bool_true.
  - split; [|intros (x & y & _ & E & _); discriminate]. destruct a; discriminate.
  - split; [|intros (x & y & E & _); discriminate]. destruct b; discriminate.
  - split; [|intros (x & y & E & _); discriminate]. discriminate.
Qed.
Lemma sub_nan_r a : sub64 a B754_nan = B754_nan.
Proof. destruct a; reflexivity. Qed.
Lemma sub_nan_l a : sub64 B754_nan a = B754_nan.
Proof. reflexivity. Qed.
Lemma L64_sub_lt a b : good64 a -> good64 b -> (Bltb (sub64 a b) zero64 = true <-> exists x y, rank64 a = Some x /\ rank64 b = Some y /\ x < y).
Proof.
  intros [Fa| ->] [Fb| ->].
  - rewrite (rank_finite a Fa), (rank_finite b Fb).
    assert (W : (exists x y : R, Some (B2R a) = Some x /\ Some (B2R b) = Some y /\ x < y) <-> B2R a < B2R b).
    { split; [|eauto]. intros (x & y & Ea & Eb & H). congruence. }
    rewrite W. destruct (sub64_cases a b Fa Fb) as [[F E]|[[-> L]|[-> L]]].
    + rewrite (Bltb_correct 53 1024 _ _ F zero_fin), E. change (B2R zero64) with 0. rewrite <- (RN_sub_lt _ _ (format64 a) (format64 b)).
      destruct (Rlt_bool_spec (RN (B2R a - B2R b)) 0); split; auto; try discriminate; lra.
    + split; auto.
    + split; [discriminate|lra].
  - rewrite sub_nan_r. split; [discriminate|intros (x & y & _ & E & _); discriminate].
  - rewrite sub_nan_l. split; [discriminate|intros (x & y & E & _); discriminate].
  - split; [discriminate|intros (x & y & E & _); discriminate].
Qed.
Lemma L64_sub_ge a b : good64 a -> good64 b -> (Bleb zero64 (sub64 a b) = true <-> exists x y, rank64 a = Some x /\ rank64 b = Some y /\ y <= x).
Proof.
  intros [Fa| ->] [Fb| ->].
  - rewrite (rank_finite a Fa), (rank_finite b Fb).
    assert (W : (exists x y : R, Some (B2R a) = Some x /\ Some (B2R b) = Some y /\ y <= x) <-> B2R b <= B2R a).
    { split; [|eauto]. intros (x & y & Ea & Eb & H). congruence. }
    rewrite W. destruct (sub64_cases a b Fa Fb) as [[F E]|[[-> L]|[-> L]]].
    + rewrite (Bleb_correct 53 1024 _ _ zero_fin F), E. change (B2R zero64) with 0. rewrite <- (RN_sub_ge _ _ (format64 a) (format64 b)).
      destruct (Rle_bool_spec 0 (RN (B2R a - B2R b))); split; auto; try discriminate; lra.
    + split; [discriminate|lra].
    + split; auto. lra.
  - rewrite sub_nan_r. split; [discriminate|intros (x & y & _ & E & _); discriminate].
  - rewrite sub_nan_l. split; [discriminate|intros (x & y & E & _); discriminate].
  - split; [discriminate|intros (x & y & E & _); discriminate].
Qed.
Lemma L64_isnan x : good64 x -> (is_nan x = true <-> rank64 x = None).
Proof. intros [F| ->]; [|split; auto]. rewrite rank_finite by auto. destruct x; split; discriminate. Qed.

(** Comparisons with infinities as well *)
Lemma L64_sub a b : Bltb (sub64 a b) zero64 = true -> Bltb a b = true.
Proof.
  intro H. destruct (is_finite a) eqn:Fa, (is_finite b) eqn:Fb.
  - apply L64_sub_lt in H; [|now left|now left]. apply L64_lt; [now left|now left|exact H].
  - destruct a as [[]|[]| |[]], b as [[]|[]| |[]]; try discriminate; reflexivity.
  - destruct a as [[]|[]| |[]], b as [[]|[]| |[]]; try discriminate; reflexivity.
  - destruct a as [[]|[]| |[]], b as [[]|[]| |[]]; try discriminate; reflexivity.
Qed.
Lemma L64_fdiv a b : pydiv64 a b <> Raise IndexError.
Proof. unfold pydiv64. destruct (Beqb b zero64); discriminate. Qed.

(** Nonnegative numbers, +infinity included *)
Definition nonneg (x : f64) : Prop := x = B754_infinity false \/ (is_finite x = true /\ 0 <= B2R x).
Definition pos (x : f64) : Prop := x = B754_infinity false \/ (is_finite x = true /\ 0 < B2R x).
Lemma sub_nonneg a b : is_finite a = true -> is_finite b = true -> B2R b <= B2R a -> nonneg (sub64 a b).
Proof.
  intros Fa Fb L. destruct (sub64_cases a b Fa Fb) as [[F E]|[[-> G]|[-> G]]]; [|lra|now left].
  right. split; auto. rewrite E. apply RN_sub_ge; auto using format64.
Qed.
Lemma sub_pos a b : is_finite a = true -> is_finite b = true -> B2R b < B2R a -> pos (sub64 a b).
Proof.
  intros Fa Fb L. destruct (sub64_cases a b Fa Fb) as [[F E]|[[-> G]|[-> G]]]; [|lra|now left].
  right. split; auto. rewrite E. assert (0 <= RN (B2R a - B2R b)) by (apply RN_sub_ge; auto using format64; lra).
  assert (RN (B2R a - B2R b) <> 0) by (apply RN_sub_neq; auto using format64; lra). lra.
Qed.
Lemma add_pos a b : (pos a /\ nonneg b) \/ (nonneg a /\ pos b) -> pos (add64 a b).
Proof.
  intro H. assert (Hn : nonneg a /\ nonneg b).
  { unfold pos, nonneg in *. destruct H as [[[H|[]] ?]|[? [H|[]]]]; split; auto; right; split; auto; lra. }
  destruct Hn as [[-> |[Fa Pa]] [-> |[Fb Pb]]].
  - left; reflexivity.
  - left. destruct b; try discriminate; reflexivity.
  - left. destruct a; try discriminate; reflexivity.
  - assert (S : 0 < B2R a + B2R b).
    { destruct H as [[[-> |[_ P]] _]|[_ [-> |[_ P]]]]; try discriminate; lra. }
    assert (C := Bplus_correct 53 1024 Hprec64 Hmax64 mode_NE a b Fa Fb).
    assert (G : 0 < RN (B2R a + B2R b)).
    { assert (B2R a <= RN (B2R a + B2R b)) by (rewrite <- (RN_id a); apply RN_le; rewrite ?RN_id; lra).
      assert (B2R b <= RN (B2R a + B2R b)) by (rewrite <- (RN_id b); apply RN_le; rewrite ?RN_id; lra). lra. }
    destruct (Rlt_bool_spec (Rabs (RN (B2R a + B2R b))) (bpow radix2 1024)) as [L|L].
    + destruct C as (E & F & _). right. unfold add64. rewrite E. auto.
    + destruct C as [E Sg]. left. assert (E' : add64 a b = B754_infinity (Bsign a)) by (apply B2SF_inj; unfold add64; rewrite E; reflexivity).
      rewrite E'. destruct (Bsign a) eqn:Sa; auto. exfalso.
      destruct (sign_le a Fa) as [X _]. destruct (sign_le b Fb) as [Y _]. specialize (X Sa). specialize (Y (eq_sym Sg)). lra.
Qed.
Lemma pos_not_zero x : pos x -> Beqb x zero64 = false.
Proof.
  intros [-> |[F P]]; [reflexivity|]. rewrite (Beqb_correct 53 1024 _ _ F zero_fin). apply Req_bool_false. change (B2R zero64) with 0. lra.
Qed.
Lemma L64_div x ta ty tb a y b : good64 ta -> good64 ty -> good64 tb ->
  rank64 ta = Some a -> rank64 ty = Some y -> rank64 tb = Some b -> a <= y <= b -> a < b ->
  exists z, pydiv64 x (gden ops64 ta ty tb) = Ok z.
Proof.
  intros _ _ _ Ra Ry Rb H L. apply rank_some in Ra, Ry, Rb. destruct Ra as [Fa ->], Ry as [Fy ->], Rb as [Fb ->].
  unfold pydiv64. rewrite pos_not_zero; [eauto|]. unfold gden. cbn [n_add n_sub ops64].
  apply add_pos. destruct (Rlt_le_dec (B2R ta) (B2R ty)) as [G|G].
  - left. split; [now apply sub_pos|]. apply sub_nonneg; auto; lra.
  - right. split; [apply sub_nonneg; auto; lra|]. apply sub_pos; auto; lra.
Qed.
