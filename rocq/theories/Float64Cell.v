(** cellave1d in binary64: the errors of one output cell. *)
From Verif Require Export InterpGCell Float64CellSpec Float64PolyErr.
From Coq Require Import Reals Lra Psatz.
Open Scope R_scope.

(** ** A calculus of relative errors *)
Definition g (k : nat) : R := (1 + u64) ^ k - 1.
Lemma g_add k l : (1 + g k) * (1 + g l) = 1 + g (k + l).
Proof. unfold g. rewrite pow_add. ring. Qed.
Lemma g_pos k : 0 <= g k.
Proof. unfold g. assert (U := u64_pos). induction k as [|k IH]; cbn [pow]; [lra|]. nra. Qed.
Lemma g_1 : g 1 = u64.
Proof. unfold g. ring. Qed.
Lemma g_mono k l : (k <= l)%nat -> g k <= g l.
Proof. intro H. replace l with (k + (l - k))%nat by lia. assert (X := g_add k (l - k)). assert (Y := g_pos k). assert (Z := g_pos (l - k)). nra. Qed.
Lemma g_small k : INR k * u64 <= / 100 -> g k <= (1 + / 100) * (INR k * u64).
Proof.
  intro H. assert (U := u64_pos).
  assert (G : forall m, (m <= k)%nat -> (1 + u64) ^ m <= 1 + INR m * u64 + (INR m * u64) ^ 2).
  { induction m as [|m IH]; intro Hm; [cbn; lra|]. rewrite S_INR. cbn [pow]. specialize (IH ltac:(lia)).
    assert (Hm2 : INR m * u64 <= / 100). { apply Rle_trans with (INR k * u64); auto. apply Rmult_le_compat_r; [lra|]. apply le_INR. lia. }
    assert (P : 0 <= INR m) by apply pos_INR.
    apply Rle_trans with ((1 + u64) * (1 + INR m * u64 + (INR m * u64) ^ 2)); [apply Rmult_le_compat_l; lra|].
    set (t := INR m * u64) in *. replace ((INR m + 1) * u64) with (t + u64) by (unfold t; ring).
    assert (0 <= t) by (unfold t; nra). assert (t * t * u64 <= t * u64) by (assert (0 <= t * u64) by nra; nra). nra. }
  specialize (G k (le_n k)). unfold g. assert (0 <= INR k) by apply pos_INR. set (t := INR k * u64) in *. assert (0 <= t) by (unfold t; nra). nra.
Qed.
(** [x] approximates [r], of magnitude at most [P], after [k] roundings *)
Definition ap (k : nat) (P r x : R) : Prop := Rabs (x - r) <= g k * P /\ Rabs r <= P.
Lemma ap_P k P r x : ap k P r x -> 0 <= P.
Proof. intros [_ H]. eapply Rle_trans; [apply Rabs_pos|exact H]. Qed.
Lemma ap_exact k P r : Rabs r <= P -> ap k P r r.
Proof. intro H. split; auto. rewrite Rminus_diag_eq, Rabs_R0 by reflexivity. apply Rmult_le_pos; [apply g_pos|]. eapply Rle_trans; [apply Rabs_pos|exact H]. Qed.
Lemma ap_weak k l P Q r x : (k <= l)%nat -> P <= Q -> ap k P r x -> ap l Q r x.
Proof.
  intros Hk HP A. assert (P0 := ap_P _ _ _ _ A). destruct A as [A1 A2]. split; [|lra]. eapply Rle_trans; [exact A1|]. apply Rmult_le_compat; auto using g_pos, g_mono.
Qed.
Lemma ap_scale k P r x c : ap k P r x -> ap k (Rabs c * P) (c * r) (c * x).
Proof.
  intros [A1 A2]. assert (C := Rabs_pos c). split.
  - rewrite <- Rmult_minus_distr_l, Rabs_mult. replace (g k * (Rabs c * P)) with (Rabs c * (g k * P)) by ring. now apply Rmult_le_compat_l.
  - rewrite Rabs_mult. now apply Rmult_le_compat_l.
Qed.
Lemma ap_factor k m P r x f : ap k P r x -> Rabs f <= g m -> ap (k + m) P r (x * (1 + f)).
Proof.
  intros A F. assert (P0 := ap_P _ _ _ _ A). destruct A as [A1 A2]. split; auto.
  replace (x * (1 + f) - r) with ((x - r) * (1 + f) + r * f) by ring.
  eapply Rle_trans; [apply Rabs_triang|]. rewrite !Rabs_mult.
  assert (F1 : Rabs (1 + f) <= 1 + g m). { eapply Rle_trans; [apply Rabs_triang|]. rewrite Rabs_R1. lra. }
  assert (G := g_add k m).
  apply Rle_trans with (g k * P * (1 + g m) + P * g m).
  - apply Rplus_le_compat; apply Rmult_le_compat; auto using Rabs_pos.
  - replace (g k * P * (1 + g m) + P * g m) with (P * ((1 + g k) * (1 + g m) - 1)) by ring. rewrite G. lra.
Qed.
Lemma ap_round k P r x e : ap k P r x -> Rabs e <= u64 -> ap (S k) P r (x * (1 + e)).
Proof. intros A E. replace (S k) with (k + 1)%nat by lia. apply ap_factor; auto. now rewrite g_1. Qed.
Lemma ap_unround k P r x e : ap k P r x -> Rabs e <= u64 -> ap (k + 2) P r (x / (1 + e)).
Proof.
  intros A E. assert (U := u64_small). assert (U0 := u64_pos). apply Rabs_le_iff in E.
  replace (x / (1 + e)) with (x * (1 + - (e / (1 + e)))) by (field; lra). apply ap_factor; auto.
  rewrite Rabs_Ropp. unfold g. replace ((1 + u64) ^ 2 - 1) with (u64 * (2 + u64)) by ring. unfold Rdiv. rewrite Rabs_mult.
  apply Rmult_le_compat; auto using Rabs_pos; [now apply Rabs_le_iff|]. rewrite Rabs_inv. rewrite Rabs_pos_eq by lra.
  apply Rmult_le_reg_l with (1 + e); [lra|]. rewrite Rinv_r by lra. nra.
Qed.
Lemma ap_add k P Q r s x y : ap k P r x -> ap k Q s y -> ap k (P + Q) (r + s) (x + y).
Proof.
  intros [A1 A2] [B1 B2]. split.
  - replace (x + y - (r + s)) with ((x - r) + (y - s)) by ring. eapply Rle_trans; [apply Rabs_triang|]. lra.
  - eapply Rle_trans; [apply Rabs_triang|]. lra.
Qed.
Lemma ap_bound k P r x : ap k P r x -> g k <= 1 -> Rabs x <= 2 * P.
Proof.
  intros A G. assert (P0 := ap_P _ _ _ _ A). destruct A as [A1 A2]. replace x with ((x - r) + r) by ring. eapply Rle_trans; [apply Rabs_triang|].
  assert (g k * P <= 1 * P) by (apply Rmult_le_compat_r; auto). lra.
Qed.

(** ** No underflow *)
Lemma RN_rel x : x = 0 \/ bpow radix2 (-1000) <= Rabs x -> exists e, Rabs e <= u64 /\ RN x = x * (1 + e).
Proof.
  intros [-> |H].
  - exists 0. rewrite RN_0, Rabs_R0. split; [apply Rlt_le, u64_pos|ring].
  - destruct (relative_error_N_FLT_ex radix2 (-1074) 53 eq_refl (fun x => negb (Z.even x)) x) as (e & He & E).
    { eapply Rle_trans; [|exact H]. apply bpow_le. lia. }
    exists e. split; [|exact E]. eapply Rle_trans; [exact He|]. unfold u64. change (-53)%Z with (-1 + (-52))%Z. rewrite bpow_plus. cbn. lra.
Qed.
Lemma RN_low x k : (-1074 <= k)%Z -> bpow radix2 k <= Rabs x -> bpow radix2 k <= Rabs (RN x).
Proof.
  intros Hk H. apply abs_round_ge_generic; auto with typeclass_instances.
  apply generic_format_bpow. unfold SpecFloat.fexp, SpecFloat.emin. lia.
Qed.
(** An ordinary number is a multiple of 2^-253 *)
Definition mult (k : Z) (r : R) : Prop := exists z, r = IZR z * bpow radix2 k.
Definition ord (r : R) : Prop := r = 0 \/ bpow radix2 (-200) <= Rabs r <= bpow radix2 200.
Lemma ord_bound r : ord r -> Rabs r <= bpow radix2 200.
Proof. intros [-> |[_ H]]; auto. rewrite Rabs_R0. apply bpow_ge_0. Qed.
Lemma ord_mult (x : f64) : ord (B2R x) -> mult (-253) (B2R x).
Proof.
  intros [H|[H _]]; [exists 0%Z; rewrite H; cbn; lra|].
  assert (F := format64 x). unfold generic_format in F. set (e := cexp radix2 fexp64 (B2R x)) in *. set (m := Ztrunc (scaled_mantissa radix2 fexp64 (B2R x))) in *.
  assert (He : (-253 <= e)%Z).
  { unfold e, cexp. assert (M : (-200 < mag radix2 (B2R x))%Z).
    { assert (X := mag_ge_bpow radix2 (B2R x) (-199)). change (-199 - 1)%Z with (-200)%Z in X. specialize (X H). lia. }
    unfold SpecFloat.fexp, SpecFloat.emin. lia. }
  exists (m * 2 ^ (e + 253))%Z. rewrite F at 1. unfold F2R. cbn [Fnum Fexp]. rewrite mult_IZR. change (IZR (2 ^ (e + 253))) with (IZR (radix2 ^ (e + 253))). rewrite (IZR_Zpower radix2 (e + 253)) by lia.
  rewrite Rmult_assoc. rewrite <- bpow_plus. f_equal. f_equal. lia.
Qed.
Lemma mult_sub k x y : mult k x -> mult k y -> mult k (x - y).
Proof. intros [a ->] [b ->]. exists (a - b)%Z. rewrite minus_IZR. ring. Qed.
Lemma mult_low k x : mult k x -> x <> 0 -> bpow radix2 k <= Rabs x.
Proof.
  intros [z ->] N. assert (P := bpow_gt_0 radix2 k). rewrite Rabs_mult, (Rabs_pos_eq (bpow radix2 k)) by lra.
  assert (z <> 0%Z) by (intros ->; apply N; cbn; ring). rewrite <- abs_IZR. assert (1 <= IZR (Z.abs z)) by (apply IZR_le; lia). nra.
Qed.

Lemma const0 : n_const ops64 0 = zero64.
Proof. reflexivity. Qed.
(** ** The weight of an input cell *)
Lemma fmin64 x y : is_finite x = true -> is_finite y = true -> is_finite (fmin_g ops64 x y) = true /\ B2R (fmin_g ops64 x y) = Rmin (B2R x) (B2R y).
Proof.
  intros Fx Fy. unfold fmin_g. cbn [n_ltb ops64]. rewrite (Bltb_correct 53 1024 y x Fy Fx). unfold Rmin.
  destruct (Rlt_bool_spec (B2R y) (B2R x)), (Rle_dec (B2R x) (B2R y)); split; auto; lra.
Qed.
Lemma fmax64 x y : is_finite x = true -> is_finite y = true -> is_finite (fmax_g ops64 x y) = true /\ B2R (fmax_g ops64 x y) = Rmax (B2R x) (B2R y).
Proof.
  intros Fx Fy. unfold fmax_g. cbn [n_ltb ops64]. rewrite (Bltb_correct 53 1024 x y Fx Fy). unfold Rmax.
  destruct (Rlt_bool_spec (B2R x) (B2R y)), (Rle_dec (B2R x) (B2R y)); split; auto; lra.
Qed.
Lemma Rmin_case_or a b : Rmin a b = a \/ Rmin a b = b.
Proof. unfold Rmin. destruct (Rle_dec a b); auto. Qed.
Lemma Rmax_case_or a b : Rmax a b = a \/ Rmax a b = b.
Proof. unfold Rmax. destruct (Rle_dec a b); auto. Qed.
Definition meet (e0 e1 p q : R) : R := Rmax 0 (Rmin e1 q - Rmax e0 p).
Lemma meet_pos e0 e1 p q : 0 <= meet e0 e1 p q.
Proof. apply Rmax_l. Qed.
Lemma meet_le e0 e1 p q : p <= q -> meet e0 e1 p q <= q - p.
Proof. intro H. unfold meet. apply Rmax_lub; [lra|]. assert (A := Rmin_r e1 q). assert (B := Rmax_r e0 p). lra. Qed.
Lemma meet_in e0 e1 p q : e0 <= e1 -> p <= q -> p <= e1 -> e0 <= q -> meet e0 e1 p q = Rmin e1 q - Rmax e0 p.
Proof. intros. unfold meet. apply Rmax_right. unfold Rmin, Rmax. destruct (Rle_dec e1 q), (Rle_dec e0 p); lra. Qed.
Lemma meet_out e0 e1 p q : e1 <= p \/ q <= e0 -> meet e0 e1 p q = 0.
Proof. intro H. unfold meet. apply Rmax_left. assert (A := Rmin_l e1 q). assert (A' := Rmin_r e1 q). assert (B := Rmax_l e0 p). assert (B' := Rmax_r e0 p). destruct H; lra. Qed.

Definition roundings (conserv : bool) : nat := if conserv then 4 else 1.
Definition wgt (conserv : bool) (e0 e1 p q : R) : R := if conserv then meet e0 e1 p q / (q - p) else meet e0 e1 p q.
Lemma width_low p q : ord (B2R (p : f64)) -> ord (B2R (q : f64)) -> B2R p < B2R q -> bpow radix2 (-253) <= B2R q - B2R p <= bpow radix2 201.
Proof.
  intros Op Oq H. split.
  - assert (M : mult (-253) (B2R q - B2R p)) by (apply mult_sub; now apply ord_mult). apply mult_low in M; [|lra]. now rewrite Rabs_pos_eq in M by lra.
  - apply ord_bound in Op, Oq. apply Rabs_le_iff in Op, Oq. change 201%Z with (1 + 200)%Z. rewrite bpow_plus. change (bpow radix2 1) with 2. lra.
Qed.
Lemma wgt_pos c e0 e1 p q : p < q -> 0 <= wgt c e0 e1 p q.
Proof. intro H. assert (M := meet_pos e0 e1 p q). unfold wgt. destruct c; auto. apply Rmult_le_pos; auto. apply Rlt_le, Rinv_0_lt_compat. lra. Qed.
Lemma wgt_le c e0 e1 (p q : f64) : ord (B2R p) -> ord (B2R q) -> B2R p < B2R q -> wgt c e0 e1 (B2R p) (B2R q) <= bpow radix2 201.
Proof.
  intros Op Oq H. assert (W := width_low p q Op Oq H). assert (M := meet_le e0 e1 (B2R p) (B2R q) (Rlt_le _ _ H)). unfold wgt. destruct c; [|lra].
  apply Rle_trans with 1; [|change 1 with (bpow radix2 0); apply bpow_le; lia].
  apply Rmult_le_reg_r with (B2R q - B2R p); [lra|]. unfold Rdiv. rewrite Rmult_assoc, Rinv_l by lra. lra.
Qed.

Lemma weight64 c (e0 e1 p q : f64) d :
  is_finite e0 = true -> is_finite e1 = true -> is_finite p = true -> is_finite q = true ->
  ord (B2R e0) -> ord (B2R e1) -> ord (B2R p) -> ord (B2R q) ->
  B2R e0 <= B2R e1 -> B2R p < B2R q -> B2R p <= B2R e1 -> B2R e0 <= B2R q ->
  weight_g ops64 c e0 e1 p q = Ok d ->
  is_finite d = true /\ (B2R d = 0 \/ bpow radix2 (-454) <= Rabs (B2R d)) /\
  ap (roundings c) (wgt c (B2R e0) (B2R e1) (B2R p) (B2R q)) (wgt c (B2R e0) (B2R e1) (B2R p) (B2R q)) (B2R d).
Proof.
  intros F0 F1 Fp Fq O0 O1 Op Oq He Hpq H1 H2 Ed. unfold weight_g in Ed. cbv zeta in Ed. cbn [n_sub n_div n_eqb ops64] in Ed.
  set (x := fmin_g ops64 e1 q) in *. set (y := fmax_g ops64 e0 p) in *.
  destruct (fmin64 e1 q F1 Fq) as [Fx Vx]. destruct (fmax64 e0 p F0 Fp) as [Fy Vy]. fold x in Fx, Vx. fold y in Fy, Vy.
  assert (Ox : ord (B2R x)). { rewrite Vx. destruct (Rmin_case_or (B2R e1) (B2R q)) as [-> | ->]; auto. }
  assert (Oy : ord (B2R y)). { rewrite Vy. destruct (Rmax_case_or (B2R e0) (B2R p)) as [-> | ->]; auto. }
  assert (Hm := meet_in _ _ _ _ He (Rlt_le _ _ Hpq) H1 H2). rewrite <- Vx, <- Vy in Hm.
  set (m := meet (B2R e0) (B2R e1) (B2R p) (B2R q)) in *.
  assert (Pm : 0 <= m) by apply meet_pos. assert (Lm : m <= B2R q - B2R p) by (apply meet_le; lra).
  assert (W := width_low p q Op Oq Hpq).
  assert (Bm : Rabs (B2R x - B2R y) <= bpow radix2 201) by (rewrite <- Hm, Rabs_pos_eq by lra; lra).
  destruct (sub_ok x y 201 ltac:(lia) Fx Fy Bm) as [Fd Vd].
  destruct (RN_sub_err _ _ (format64 x) (format64 y)) as (e & Ee & He'). rewrite <- Hm in Vd, He'.
  assert (A1 : ap 1 m m (B2R (sub64 x y))).
  { rewrite Vd, He'. apply (ap_round 0); auto. apply ap_exact. rewrite Rabs_pos_eq; lra. }
  assert (D1 : B2R (sub64 x y) = 0 \/ bpow radix2 (-253) <= Rabs (B2R (sub64 x y))).
  { assert (Mu : mult (-253) m) by (rewrite Hm; apply mult_sub; now apply ord_mult).
    destruct (Req_dec m 0) as [Z|N]; [left; rewrite Vd, Z; apply RN_0|right]. rewrite Vd. apply RN_low; [lia|]. now apply mult_low. }
  assert (B1 : Rabs (B2R (sub64 x y)) <= bpow radix2 201). { rewrite Vd. apply RN_bound; [lia|]. now rewrite Hm. }
  destruct c; cbn [andb] in Ed; cbn [roundings wgt].
  2:{ injection Ed as <-. split; auto. split; auto. destruct D1 as [D1|D1]; auto. right. eapply Rle_trans; [|exact D1]. apply bpow_le. lia. }
  destruct (Beqb e0 e1) eqn:E01; cbn [negb] in Ed.
  { injection Ed as <-. rewrite (Beqb_correct 53 1024 _ _ F0 F1) in E01. destruct (Req_bool_spec (B2R e0) (B2R e1)) as [E01'|]; [|discriminate]. clear E01. rename E01' into E01.
    assert (Z : m = 0). { unfold m, meet. rewrite E01. apply Rmax_left. assert (X := Rmin_l (B2R e1) (B2R q)). assert (Y := Rmax_l (B2R e1) (B2R p)). lra. }
    split; auto. fold m. rewrite Vd, Z, RN_0. split; auto. replace (0 / (B2R q - B2R p)) with 0 by (field; lra). apply ap_exact. rewrite Rabs_R0. lra. }
  unfold pydiv64 in Ed. destruct (Beqb (sub64 q p) zero64) eqn:Ez; [discriminate|]. injection Ed as <-.
  assert (Bw : Rabs (B2R q - B2R p) <= bpow radix2 201) by (rewrite Rabs_pos_eq by lra; lra).
  destruct (sub_ok q p 201 ltac:(lia) Fq Fp Bw) as [Fw Vw].
  destruct (RN_sub_err _ _ (format64 q) (format64 p)) as (ew & Eew & Hew).
  assert (Lw : bpow radix2 (-253) <= Rabs (B2R (sub64 q p))). { rewrite Vw. apply RN_low; [lia|]. rewrite Rabs_pos_eq by lra. lra. }
  assert (Uw : Rabs (B2R (sub64 q p)) <= bpow radix2 201). { rewrite Vw. now apply RN_bound. }
  assert (Nw : B2R (sub64 q p) <> 0). { intro Z. rewrite Z, Rabs_R0 in Lw. assert (X := bpow_gt_0 radix2 (-253)). lra. }
  set (ds := sub64 x y) in *. set (w := sub64 q p) in *.
  assert (PW : 0 < Rabs (B2R w)) by (now apply Rabs_pos_lt).
  assert (Bq : Rabs (B2R ds / B2R w) <= bpow radix2 454).
  { unfold Rdiv. rewrite Rabs_mult, Rabs_inv. change 454%Z with (201 + 253)%Z. rewrite bpow_plus. apply Rmult_le_compat; auto using Rabs_pos; [apply Rlt_le, Rinv_0_lt_compat; auto|].
    change 253%Z with (- -253)%Z. rewrite bpow_opp. apply Rinv_le_contravar; auto. apply bpow_gt_0. }
  assert (Dq : B2R ds / B2R w = 0 \/ bpow radix2 (-454) <= Rabs (B2R ds / B2R w)).
  { destruct D1 as [Z|L]; [left; rewrite Z; field; auto|right]. unfold Rdiv. rewrite Rabs_mult, Rabs_inv. change (-454)%Z with (-253 + Z.opp 201)%Z. rewrite bpow_plus, bpow_opp.
    apply Rmult_le_compat; auto using bpow_ge_0; [apply Rlt_le, Rinv_0_lt_compat, bpow_gt_0|]. apply Rinv_le_contravar; auto. }
  destruct (div_ok ds w 454 ltac:(lia) Fd Nw Bq) as [Fz Vz]. split; auto.
  destruct (RN_rel (B2R ds / B2R w)) as (ez & Eez & Hez).
  { destruct Dq as [|Dq]; auto. right. eapply Rle_trans; [|exact Dq]. apply bpow_le. lia. }
  rewrite Vz. split.
  { destruct Dq as [Z|L]; [left; rewrite Z; apply RN_0|right]. apply RN_low; [lia|auto]. }
  rewrite Hez. fold m. set (D := B2R q - B2R p) in *.
  assert (PD : 0 < D) by (unfold D; lra).
  assert (A2 := ap_scale _ _ _ _ (/ D) A1). rewrite (Rabs_pos_eq (/ D)) in A2 by (apply Rlt_le, Rinv_0_lt_compat; auto).
  replace (/ D * m) with (m / D) in A2 by (unfold Rdiv; ring).
  apply (ap_round 3); auto. rewrite Vw, Hew. fold D.
  assert (1 + ew <> 0). { apply Rabs_le_iff in Eew. assert (X := u64_small). lra. }
  replace (B2R ds / (D * (1 + ew))) with (/ D * B2R ds / (1 + ew)) by (field; split; auto; lra). apply (ap_unround 1); auto.
Qed.
