(** cellave1d in binary64: the sums of an output cell, and its value. *)
From Verif Require Export Float64Cell.
From Coq Require Import Reals Lra Psatz.
Open Scope R_scope.

(** ** Real sums *)
Lemma rsum_ext n f h : (forall i, (i < n)%nat -> f i = h i) -> rsum n f = rsum n h.
Proof. induction n as [|n IH]; intro H; cbn; auto. rewrite IH by (intros; apply H; lia). now rewrite H by lia. Qed.
Lemma rsum_pos n f : (forall i, (i < n)%nat -> 0 <= f i) -> 0 <= rsum n f.
Proof. induction n as [|n IH]; intro H; cbn; [lra|]. assert (X := H n ltac:(lia)). assert (Y := IH ltac:(intros; apply H; lia)). lra. Qed.
Lemma rsum_le n f h : (forall i, (i < n)%nat -> f i <= h i) -> rsum n f <= rsum n h.
Proof. induction n as [|n IH]; intro H; cbn; [lra|]. assert (X := H n ltac:(lia)). assert (Y := IH ltac:(intros; apply H; lia)). lra. Qed.
Lemma rsum_scal n c f : rsum n (fun i => c * f i) = c * rsum n f.
Proof. induction n as [|n IH]; cbn; [ring|]. rewrite IH. ring. Qed.
Lemma rsum_const n c : rsum n (fun _ => c) = INR n * c.
Proof. induction n as [|n IH]; [cbn; ring|]. cbn [rsum]. rewrite IH, S_INR. ring. Qed.
Lemma rsum_abs n f : Rabs (rsum n f) <= rsum n (fun i => Rabs (f i)).
Proof. induction n as [|n IH]; cbn; [rewrite Rabs_R0; lra|]. eapply Rle_trans; [apply Rabs_triang|]. lra. Qed.
Lemma rsum_plus n f h : rsum n (fun i => f i + h i) = rsum n f + rsum n h.
Proof. induction n as [|n IH]; cbn; [ring|]. rewrite IH. ring. Qed.
Lemma rsum_swap n m f : rsum n (fun i => rsum m (f i)) = rsum m (fun j => rsum n (fun i => f i j)).
Proof.
  induction n as [|n IH]; cbn; [|rewrite IH, <- rsum_plus; reflexivity].
  symmetry. rewrite rsum_const. ring.
Qed.

(** ** The laws of InterpGCell *)
Lemma rank64_iff x r : rank64 x = Some r <-> is_finite x = true /\ B2R x = r.
Proof. split; [intro H; apply rank_some in H; intuition|intros [F <-]; now apply rank_finite]. Qed.
Lemma C64_lt a b x y : rank64 a = Some x -> rank64 b = Some y -> (Bltb a b = true <-> x < y).
Proof.
  intros A B. apply rank64_iff in A, B. destruct A as [Fa <-], B as [Fb <-]. rewrite (Bltb_correct 53 1024 a b Fa Fb).
  destruct (Rlt_bool_spec (B2R a) (B2R b)); split; auto; try discriminate; lra.
Qed.
Lemma C64_le a b x y : rank64 a = Some x -> rank64 b = Some y -> (Bleb a b = true <-> x <= y).
Proof.
  intros A B. apply rank64_iff in A, B. destruct A as [Fa <-], B as [Fb <-]. rewrite (Bleb_correct 53 1024 a b Fa Fb).
  destruct (Rle_bool_spec (B2R a) (B2R b)); split; auto; try discriminate; lra.
Qed.
Lemma C64_eq a b x y : rank64 a = Some x -> rank64 b = Some y -> (Beqb a b = true <-> x = y).
Proof.
  intros A B. apply rank64_iff in A, B. destruct A as [Fa <-], B as [Fb <-]. rewrite (Beqb_correct 53 1024 a b Fa Fb).
  destruct (Req_bool_spec (B2R a) (B2R b)); split; auto; try discriminate; lra.
Qed.
Lemma C64_div0 a w : Beqb w (n_const ops64 0) = false -> exists z, pydiv64 a w = Ok z.
Proof. intro H. unfold pydiv64. change zero64 with (n_const ops64 0). rewrite H. eauto. Qed.
Lemma C64_divw d a b x y : rank64 a = Some x -> rank64 b = Some y -> x < y -> exists z, pydiv64 d (sub64 b a) = Ok z.
Proof.
  intros A B L. apply rank64_iff in A, B. destruct A as [Fa <-], B as [Fb <-]. unfold pydiv64. rewrite pos_not_zero; [eauto|]. now apply sub_pos.
Qed.

(** ** The two sums *)
Section Sums.
Variables (conserv : bool) (v : list f64) (e0 e1 : nat -> f64) (p q : f64) (n : nat).
Hypothesis Hn : (Z.of_nat n <= 2 ^ 40)%Z.
Hypothesis Lv : List.length v = n.
Hypothesis Ov : Forall ordinary v.
Hypothesis Fe0 : forall i, (i < n)%nat -> is_finite (e0 i) = true.
Hypothesis Fe1 : forall i, (i < n)%nat -> is_finite (e1 i) = true.
Hypothesis Fp : is_finite p = true.
Hypothesis Fq : is_finite q = true.
Hypothesis Oe0 : forall i, (i < n)%nat -> ord (B2R (e0 i)).
Hypothesis Oe1 : forall i, (i < n)%nat -> ord (B2R (e1 i)).
Hypothesis Op : ord (B2R p).
Hypothesis Oq : ord (B2R q).
Hypothesis He : forall i, (i < n)%nat -> B2R (e0 i) <= B2R (e1 i).
Hypothesis Hpq : B2R p < B2R q.

Definition wt (i : nat) : R := wgt conserv (B2R (e0 i)) (B2R (e1 i)) (B2R p) (B2R q).
Definition Wsum (k : nat) : R := rsum k (fun i => match datum v i with Some _ => wt i | None => 0 end).
Definition Ssum (k : nat) : R := rsum k (fun i => match datum v i with Some x => x * wt i | None => 0 end).
Definition Asum (k : nat) : R := rsum k (fun i => match datum v i with Some x => Rabs x * wt i | None => 0 end).

Lemma wt_pos i : 0 <= wt i.
Proof. now apply wgt_pos. Qed.
Lemma wt_le i : wt i <= bpow radix2 201.
Proof. now apply wgt_le. Qed.
Lemma wt_out i : (i < n)%nat -> before ops64 rank64 (e1 i) p \/ before ops64 rank64 q (e0 i) -> wt i = 0.
Proof.
  intros Hi H. unfold wt, wgt. rewrite meet_out; [destruct conserv; auto; field; lra|].
  destruct H as [(x & y & A & B & L)|(x & y & A & B & L)]; apply rank64_iff in A, B; destruct A as [_ <-], B as [_ <-]; auto.
Qed.
Lemma ordinary_ord x : ordinary x -> is_nan x = false -> is_finite x = true /\ ord (B2R x).
Proof.
  intros [H|(r & Hr & O)] N; [unfold isNaN in H; rewrite H in N; discriminate|]. apply rank64_iff in Hr. destruct Hr as [F <-]. split; auto. unfold ord. now rewrite <- !pow64.
Qed.
Lemma datum_fin i x : nth_error v i = Some x -> is_nan x = false -> datum v i = Some (B2R x).
Proof.
  intros E N. unfold datum. rewrite E. rewrite Forall_forall in Ov. destruct (ordinary_ord x) as [F _]; auto; [eapply Ov, nth_error_In; eauto|]. now apply rank_finite.
Qed.
Lemma datum_nan i x : nth_error v i = Some x -> is_nan x = true -> datum v i = None.
Proof. intros E N. unfold datum. rewrite E. destruct x; try discriminate. reflexivity. Qed.
Lemma sums_le k : (k <= n)%nat -> 0 <= Wsum k <= INR k * bpow radix2 201 /\ 0 <= Asum k <= INR k * bpow radix2 401 /\ Rabs (Ssum k) <= Asum k.
Proof.
  intro Hk. split; [|split].
  - split.
    + apply rsum_pos. intros i Hi. destruct (datum v i); [apply wt_pos|lra].
    + unfold Wsum. rewrite <- rsum_const. apply rsum_le. intros i Hi. destruct (datum v i); [apply wt_le|apply bpow_ge_0].
  - split.
    + apply rsum_pos. intros i Hi. destruct (datum v i); [|lra]. apply Rmult_le_pos; [apply Rabs_pos|apply wt_pos].
    + unfold Asum. rewrite <- rsum_const. apply rsum_le. intros i Hi. destruct (datum v i) as [x|] eqn:D; [|apply bpow_ge_0].
      change 401%Z with (200 + 201)%Z. rewrite bpow_plus. apply Rmult_le_compat; auto using Rabs_pos, wt_pos, wt_le.
      unfold datum in D. destruct (nth_error v i) as [t|] eqn:E; [|discriminate]. apply rank64_iff in D. destruct D as [F <-].
      apply ord_bound. rewrite Forall_forall in Ov. apply ordinary_ord; [eapply Ov, nth_error_In; eauto|]. destruct t; auto; discriminate.
  - eapply Rle_trans; [apply rsum_abs|]. apply rsum_le. intros i Hi. destruct (datum v i); [|rewrite Rabs_R0; lra].
    rewrite Rabs_mult, (Rabs_pos_eq (wt i)) by apply wt_pos. lra.
Qed.
Lemma INR_n k : (k <= n + 10)%nat -> INR k <= bpow radix2 41.
Proof.
  intro H. rewrite INR_IZR_INZ. apply Rle_trans with (IZR (2 ^ 41)); [apply IZR_le; lia|]. cbn. lra.
Qed.
Lemma g_n k : (k <= n + 10)%nat -> INR k * u64 <= / 1000 /\ g k <= / 100 /\ g k <= (1 + / 100) * (INR k * u64).
Proof.
  intro H. assert (A := INR_n k H). assert (U := u64_pos).
  assert (B : INR k * u64 <= / 1000).
  { apply Rle_trans with (bpow radix2 41 * u64); [apply Rmult_le_compat_r; lra|]. unfold u64. rewrite <- bpow_plus. cbn. lra. }
  assert (C := g_small k ltac:(lra)). split; auto. split; auto. lra.
Qed.

Lemma sums64 k w s : acc ops64 rank64 conserv v e0 e1 p q k w s -> (k <= n)%nat ->
  is_finite w = true /\ is_finite s = true /\
  ap (k + roundings conserv) (Wsum k) (Wsum k) (B2R w) /\ ap (k + roundings conserv + 1) (Asum k) (Ssum k) (B2R s).
Proof.
  intro A. induction A as [|k w s x A IH Ex Nx|k w s A IH Hout|k w s x d A IH Ex Nx Hp Hq Hd]; intro Hk.
  - rewrite const0. split; [reflexivity|]. split; [reflexivity|].
    split; apply ap_exact; cbn; rewrite Rabs_R0; lra.
  - destruct (IH ltac:(lia)) as (F1 & F2 & A1 & A2). split; auto. split; auto.
    unfold Wsum, Ssum, Asum. cbn [rsum]. rewrite (datum_nan k x Ex Nx). rewrite !Rplus_0_r.
    split; [eapply ap_weak; [| |exact A1]|eapply ap_weak; [| |exact A2]]; try lia; apply Rle_refl.
  - destruct (IH ltac:(lia)) as (F1 & F2 & A1 & A2). split; auto. split; auto.
    assert (Z := wt_out k ltac:(lia) Hout).
    assert (ZW : Wsum (S k) = Wsum k) by (unfold Wsum; cbn [rsum]; rewrite Z; destruct (datum v k); ring).
    assert (ZS : Ssum (S k) = Ssum k) by (unfold Ssum; cbn [rsum]; rewrite Z; destruct (datum v k); ring).
    assert (ZA : Asum (S k) = Asum k) by (unfold Asum; cbn [rsum]; rewrite Z; destruct (datum v k); ring).
    rewrite ZW, ZS, ZA. split; [eapply ap_weak; [| |exact A1]|eapply ap_weak; [| |exact A2]]; try lia; apply Rle_refl.
  - destruct (IH ltac:(lia)) as (F1 & F2 & A1 & A2).
    change (is_nan x = false) in Nx. cbn [n_add n_mul ops64].
    assert (D := datum_fin k x Ex Nx). destruct (ordinary_ord x) as [Fx Ox]; [rewrite Forall_forall in Ov; eapply Ov, nth_error_In; eauto|auto|].
    assert (Hp' : B2R p <= B2R (e1 k)). { destruct Hp as (a & b & Ra & Rb & L). apply rank64_iff in Ra, Rb. destruct Ra as [_ <-], Rb as [_ <-]. auto. }
    assert (Hq' : B2R (e0 k) <= B2R q). { destruct Hq as (a & b & Ra & Rb & L). apply rank64_iff in Ra, Rb. destruct Ra as [_ <-], Rb as [_ <-]. auto. }
    destruct (weight64 conserv (e0 k) (e1 k) p q d) as (Fd & Dd & Ad); auto.
    fold (wt k) in Ad.
    assert (HW : Wsum (S k) = Wsum k + wt k) by (unfold Wsum; cbn [rsum]; now rewrite D).
    assert (HS : Ssum (S k) = Ssum k + B2R x * wt k) by (unfold Ssum; cbn [rsum]; now rewrite D).
    assert (HA : Asum (S k) = Asum k + Rabs (B2R x) * wt k) by (unfold Asum; cbn [rsum]; now rewrite D).
    destruct (sums_le (S k) Hk) as (BW & BA & BS). assert (IK := INR_n (S k) ltac:(lia)).
    assert (BW' : Wsum (S k) <= bpow radix2 242).
    { eapply Rle_trans; [apply BW|]. change 242%Z with (41 + 201)%Z. rewrite bpow_plus. apply Rmult_le_compat_r; [apply bpow_ge_0|auto]. }
    assert (BA' : Asum (S k) <= bpow radix2 442).
    { eapply Rle_trans; [apply BA|]. change 442%Z with (41 + 401)%Z. rewrite bpow_plus. apply Rmult_le_compat_r; [apply bpow_ge_0|auto]. }
    assert (Rc : (1 <= roundings conserv <= 4)%nat) by (destruct conserv; cbn; lia).
    (* weights *)
    assert (Ad' : ap (k + roundings conserv) (wt k) (wt k) (B2R d)) by (eapply ap_weak; [| |exact Ad]; [lia|lra]).
    assert (AW := ap_add _ _ _ _ _ _ _ A1 Ad'). rewrite <- HW in AW.
    assert (GW : g (k + roundings conserv) <= 1) by (destruct (g_n (k + roundings conserv) ltac:(lia)) as (_ & X & _); lra).
    assert (B1 := ap_bound _ _ _ _ AW GW).
    assert (B1' : Rabs (B2R w + B2R d) <= bpow radix2 243).
    { eapply Rle_trans; [exact B1|]. change 243%Z with (1 + 242)%Z. rewrite bpow_plus. change (bpow radix2 1) with 2. lra. }
    destruct (add_ok w d 243 ltac:(lia) F1 Fd B1') as [Fw Vw].
    destruct (RN_add_err _ _ (format64 w) (format64 d)) as (ew & Eew & Hew).
    (* product *)
    assert (Rd : Rabs (B2R d) <= bpow radix2 202).
    { assert (X := ap_bound _ _ _ _ Ad'). specialize (X GW). eapply Rle_trans; [exact X|]. change 202%Z with (1 + 201)%Z. rewrite bpow_plus. change (bpow radix2 1) with 2. assert (Y := wt_le k). lra. }
    assert (Bx := ord_bound _ Ox).
    assert (Bp : Rabs (B2R x * B2R d) <= bpow radix2 402).
    { rewrite Rabs_mult. change 402%Z with (200 + 202)%Z. rewrite bpow_plus. apply Rmult_le_compat; auto using Rabs_pos. }
    destruct (mul_ok x d 402 ltac:(lia) Fx Fd Bp) as [Fm Vm].
    destruct (RN_rel (B2R x * B2R d)) as (em & Eem & Hem).
    { destruct Dd as [-> |Dd]; [left; ring|]. destruct Ox as [-> |[Ox _]]; [left; ring|right].
      rewrite Rabs_mult. apply Rle_trans with (bpow radix2 (-200) * bpow radix2 (-454)); [rewrite <- bpow_plus; apply bpow_le; lia|].
      apply Rmult_le_compat; auto using bpow_ge_0. }
    assert (Am := ap_scale _ _ _ _ (B2R x) Ad').
    assert (Am' := ap_round _ _ _ _ _ Am Eem). rewrite <- Hem, <- Vm in Am'.
    assert (AS : ap (k + roundings conserv + 1) (Asum (S k)) (Ssum (S k)) (B2R s + B2R (mul64 x d))).
    { rewrite HA, HS. apply ap_add; auto. eapply ap_weak; [| |exact Am']; [lia|lra]. }
    assert (GS : g (k + roundings conserv + 1) <= 1) by (destruct (g_n (k + roundings conserv + 1) ltac:(lia)) as (_ & X & _); lra).
    assert (B2 := ap_bound _ _ _ _ AS GS).
    assert (B2' : Rabs (B2R s + B2R (mul64 x d)) <= bpow radix2 443).
    { eapply Rle_trans; [exact B2|]. change 443%Z with (1 + 442)%Z. rewrite bpow_plus. change (bpow radix2 1) with 2. lra. }
    destruct (add_ok s (mul64 x d) 443 ltac:(lia) F2 Fm B2') as [Fs Vs].
    destruct (RN_add_err _ _ (format64 s) (format64 (mul64 x d))) as (es & Ees & Hes).
    split; auto. split; auto. split.
    + rewrite Vw, Hew. replace (S k + roundings conserv)%nat with (S (k + roundings conserv)) by lia. apply ap_round; auto.
    + rewrite Vs, Hes. replace (S k + roundings conserv + 1)%nat with (S (k + roundings conserv + 1)) by lia. apply ap_round; auto.
Qed.

(** ** The value *)
Variable M : R.
Hypothesis HM : forall i x, gval real64 v i x -> Rabs x <= M.
Lemma A_le_MW k : Asum k <= M * Wsum k.
Proof.
  unfold Asum, Wsum. rewrite <- rsum_scal. apply rsum_le. intros i Hi. destruct (datum v i) as [x|] eqn:D; [|lra].
  apply Rmult_le_compat_r; [apply wt_pos|]. apply (HM i x). unfold datum in D. destruct (nth_error v i) as [t|] eqn:E; [|discriminate]. exists t. auto.
Qed.
Lemma W0_iff w s : acc ops64 rank64 conserv v e0 e1 p q n w s -> (Beqb w (n_const ops64 0) = true <-> Wsum n = 0).
Proof.
  intro A. destruct (sums64 n w s A (le_n n)) as (F1 & F2 & A1 & A2). rewrite const0.
  rewrite (Beqb_correct 53 1024 w zero64 F1 zero_fin). change (B2R zero64) with 0.
  assert (Rc : (1 <= roundings conserv <= 4)%nat) by (destruct conserv; cbn; lia).
  destruct (g_n (n + roundings conserv) ltac:(lia)) as (_ & G & _). destruct (sums_le n (le_n n)) as ((W0 & _) & _).
  destruct A1 as [A1 _]. destruct (Req_bool_spec (B2R w) 0) as [E|E]; split; auto; intro H; try discriminate.
  - rewrite E in A1. replace (0 - Wsum n) with (- Wsum n) in A1 by ring. rewrite Rabs_Ropp, Rabs_pos_eq in A1 by auto. nra.
  - exfalso. apply E. rewrite H in A1. rewrite Rminus_0_r, Rmult_0_r in A1. destruct (Req_dec (B2R w) 0); auto. assert (X := Rabs_pos_lt _ H0). lra.
Qed.
Lemma zero_data w s : acc ops64 rank64 conserv v e0 e1 p q n w s -> M < bpow radix2 (-200) -> Ssum n = 0 /\ B2R s = 0.
Proof.
  intros A HM'. destruct (sums64 n w s A (le_n n)) as (_ & _ & _ & A2).
  assert (Z : Asum n = 0).
  { unfold Asum. transitivity (rsum n (fun _ => 0)); [|rewrite rsum_const; ring]. apply rsum_ext. intros i Hi. destruct (datum v i) as [x|] eqn:D; auto.
    assert (X : x = 0); [|rewrite X, Rabs_R0; ring]. unfold datum in D. destruct (nth_error v i) as [t|] eqn:E; [|discriminate].
    assert (V := HM i x ltac:(exists t; auto)). apply rank64_iff in D. destruct D as [F <-].
    rewrite Forall_forall in Ov. destruct (ordinary_ord t) as [_ [O|[O _]]]; auto; [eapply Ov, nth_error_In; eauto|destruct t; auto; discriminate|lra]. }
  destruct A2 as [A2 A3]. rewrite Z in *. assert (S0 : Ssum n = 0). { destruct (Req_dec (Ssum n) 0); auto. assert (X := Rabs_pos_lt _ H). lra. }
  split; auto. rewrite S0, Rminus_0_r, Rmult_0_r in A2. destruct (Req_dec (B2R s) 0); auto. assert (X := Rabs_pos_lt _ H). lra.
Qed.
Lemma mean64 w s x : conserv = false -> acc ops64 rank64 conserv v e0 e1 p q n w s -> Wsum n <> 0 -> pydiv64 s w = Ok x ->
  is_finite x = true /\ Rabs (B2R x - Ssum n / Wsum n) <= 3 * (INR n + 2) * u64 * M.
Proof.
  intros Ec A NW Ex. assert (A' := A). destruct (sums64 n w s A (le_n n)) as (F1 & F2 & A1 & A2).
  unfold pydiv64 in Ex. destruct (Beqb w zero64) eqn:E; [discriminate|]. injection Ex as <-.
  rewrite Ec in A1, A2. cbn [roundings] in A1, A2.
  destruct (sums_le n (le_n n)) as ((W0 & _) & (A0 & _) & SA). assert (AM := A_le_MW n).
  assert (PW : 0 < Wsum n) by lra.
  destruct (g_n (n + 1) ltac:(lia)) as (_ & Gw & _). destruct (g_n (n + 1 + 1) ltac:(lia)) as (Ku & G & Gu).
  set (W := Wsum n) in *. set (S_ := Ssum n) in *. set (G2 := g (n + 1 + 1)) in *.
  assert (GG : g (n + 1) <= G2) by (apply g_mono; lia). assert (G0 : 0 <= G2) by apply g_pos.
  destruct A1 as [A1 _]. destruct A2 as [A2 _].
  assert (M0 : 0 <= M). { destruct (Rle_lt_dec 0 M) as [|L]; auto. exfalso. assert (M * W < 0) by nra. lra. }
  assert (Dw : Rabs (B2R w - W) <= G2 * W). { eapply Rle_trans; [exact A1|]. apply Rmult_le_compat_r; lra. }
  assert (Ds : Rabs (B2R s - S_) <= G2 * (M * W)). { eapply Rle_trans; [exact A2|]. apply Rmult_le_compat_l; lra. }
  assert (Dw' := Dw). apply Rabs_le_iff in Dw'. assert (Pw : 0 < B2R w) by nra.
  assert (SM : Rabs S_ <= M * W) by lra.
  assert (U := u64_pos). assert (Nn : INR (n + 1 + 1) = INR n + 2) by (rewrite !plus_INR; cbn; lra).
  (* exact quotient *)
  assert (Q1 : Rabs (B2R s / B2R w - S_ / W) <= (2 + / 10) * (G2 * M)).
  { replace (B2R s / B2R w - S_ / W) with (((B2R s - S_) + S_ / W * (W - B2R w)) / B2R w) by (field; lra).
    unfold Rdiv at 1. rewrite Rabs_mult, Rabs_inv, (Rabs_pos_eq (B2R w)) by lra.
    apply Rmult_le_reg_r with (B2R w); auto. rewrite Rmult_assoc, Rinv_l, Rmult_1_r by lra.
    assert (T : Rabs (S_ / W * (W - B2R w)) <= M * (G2 * W)).
    { rewrite Rabs_mult. apply Rmult_le_compat; auto using Rabs_pos.
      - unfold Rdiv. rewrite Rabs_mult, Rabs_inv, (Rabs_pos_eq W) by lra. apply Rmult_le_reg_r with W; auto. rewrite Rmult_assoc, Rinv_l, Rmult_1_r by lra. exact SM.
      - rewrite Rabs_minus_sym. exact Dw. }
    eapply Rle_trans; [apply Rabs_triang|]. apply Rle_trans with (2 * (G2 * M) * W); [lra|].
    assert (L : (1 - / 100) * W <= B2R w) by nra. assert (0 <= G2 * M) by nra.
    apply Rle_trans with ((2 + / 10) * (G2 * M) * ((1 - / 100) * W)); [nra|]. apply Rmult_le_compat_l; [nra|auto]. }
  assert (Q2 : Rabs (S_ / W) <= M).
  { unfold Rdiv. rewrite Rabs_mult, Rabs_inv, (Rabs_pos_eq W) by lra. apply Rmult_le_reg_r with W; auto. rewrite Rmult_assoc, Rinv_l, Rmult_1_r by lra. exact SM. }
  assert (Q3 : Rabs (B2R s / B2R w) <= 2 * M).
  { replace (B2R s / B2R w) with ((B2R s / B2R w - S_ / W) + S_ / W) by ring. eapply Rle_trans; [apply Rabs_triang|]. nra. }
  (* the data are bounded by 2^200 *)
  assert (Q4 : Rabs (B2R s / B2R w) <= bpow radix2 900).
  { assert (Bs : Rabs (B2R s) <= bpow radix2 443).
    { destruct (sums64 n w s A' (le_n n)) as (_ & _ & _ & X). rewrite Ec in X. cbn [roundings] in X. assert (Y := ap_bound _ _ _ _ X ltac:(fold G2; lra)).
      eapply Rle_trans; [exact Y|]. destruct (sums_le n (le_n n)) as (_ & (_ & X2) & _). assert (IK := INR_n n ltac:(lia)).
      change 443%Z with (1 + (41 + 401))%Z. rewrite !bpow_plus. change (bpow radix2 1) with 2. apply Rmult_le_compat_l; [lra|]. eapply Rle_trans; [exact X2|]. apply Rmult_le_compat_r; [apply bpow_ge_0|auto]. }
    assert (Lw : bpow radix2 (-254) <= B2R w).
    { assert (LW : bpow radix2 (-253) <= W).
      { (* some weight is positive, and it is a multiple *)
        assert (T : forall k, (k <= n)%nat -> mult (-253) (Wsum k)).
        { induction k as [|k IH]; intro Hk; [exists 0%Z; cbn; ring|]. unfold Wsum in *. cbn [rsum]. destruct (IH ltac:(lia)) as [a Ha]. rewrite Ha.
          assert (Mk : mult (-253) (match datum v k with Some _ => wt k | None => 0 end)).
          { destruct (datum v k); [|exists 0%Z; ring]. unfold wt, wgt. rewrite Ec. unfold meet, Rmax at 1. destruct (Rle_dec 0 _); [|exists 0%Z; ring].
            apply mult_sub.
            - destruct (Rmin_case_or (B2R (e1 k)) (B2R q)) as [-> | ->]; apply ord_mult; auto.
            - destruct (Rmax_case_or (B2R (e0 k)) (B2R p)) as [-> | ->]; apply ord_mult; auto. }
          destruct Mk as [c Hc]. rewrite Hc. exists (a + c)%Z. rewrite plus_IZR. ring. }
        assert (X := mult_low _ _ (T n (le_n n)) NW). fold W in X. now rewrite Rabs_pos_eq in X by lra. }
      change (-254)%Z with (-1 + -253)%Z. rewrite bpow_plus. change (bpow radix2 (-1)) with (/ 2). nra. }
    unfold Rdiv. rewrite Rabs_mult, Rabs_inv, (Rabs_pos_eq (B2R w)) by lra.
    apply Rle_trans with (bpow radix2 443 * bpow radix2 254); [|rewrite <- bpow_plus; apply bpow_le; lia].
    apply Rmult_le_compat; auto using Rabs_pos; [apply Rlt_le, Rinv_0_lt_compat; auto|].
    change 254%Z with (- -254)%Z. rewrite bpow_opp. apply Rinv_le_contravar; auto. apply bpow_gt_0. }
  destruct (div_ok s w 900 ltac:(lia) F2 ltac:(lra) Q4) as [Fz Vz]. split; auto. rewrite Vz.
  destruct (Rlt_le_dec M (bpow radix2 (-200))) as [Lo|Hi].
  { destruct (zero_data w s A' Lo) as [Z1 Z2]. fold S_ in Z1. rewrite Z1, Z2.
    replace (0 / B2R w) with 0 by (field; lra). replace (0 / W) with 0 by (field; lra). rewrite RN_0, Rminus_0_r, Rabs_R0.
    assert (0 <= INR n) by apply pos_INR. repeat apply Rmult_le_pos; lra. }
  destruct (RN_err (B2R s / B2R w)) as (e & h & Ee & Eh & Hr). rewrite Hr.
  assert (Hh : h64 <= / 100 * u64 * M).
  { apply Rle_trans with (/ 100 * u64 * bpow radix2 (-200)).
    - unfold h64, u64. apply Rle_trans with (bpow radix2 (-10) * bpow radix2 (-53) * bpow radix2 (-200)).
      + rewrite <- !bpow_plus. apply bpow_le. lia.
      + apply Rmult_le_compat_r; [apply bpow_ge_0|]. apply Rmult_le_compat_r; [apply bpow_ge_0|]. cbn. lra.
    - apply Rmult_le_compat_l; nra. }
  replace (B2R s / B2R w * (1 + e) + h - S_ / W) with ((B2R s / B2R w - S_ / W) * (1 + e) + S_ / W * e + h) by ring.
  eapply Rle_trans; [apply Rabs_triang|]. eapply Rle_trans; [apply Rplus_le_compat_r, Rabs_triang|]. rewrite !Rabs_mult.
  assert (R1 : Rabs (1 + e) <= 1 + / 1000).
  { eapply Rle_trans; [apply Rabs_triang|]. rewrite Rabs_R1. assert (X := u64_small). lra. }
  apply Rle_trans with ((2 + / 10) * (G2 * M) * (1 + / 1000) + M * u64 + / 100 * u64 * M).
  { apply Rplus_le_compat; [apply Rplus_le_compat|lra]; apply Rmult_le_compat; auto using Rabs_pos. }
  rewrite Nn in *. assert (Pn : 0 <= INR n) by apply pos_INR.
  assert (GM : G2 * M <= (1 + / 100) * ((INR n + 2) * u64) * M) by (apply Rmult_le_compat_r; auto).
  assert (UM : 0 <= u64 * M) by (apply Rmult_le_pos; lra).
  assert (NM : 2 * (u64 * M) <= (INR n + 2) * (u64 * M)) by (apply Rmult_le_compat_r; lra). nra.
Qed.
Lemma total64 w s : conserv = true -> Wsum n <= 1 -> 0 <= M -> acc ops64 rank64 conserv v e0 e1 p q n w s ->
  is_finite s = true /\ Rabs (B2R s - Ssum n) <= 2 * (INR n + 5) * u64 * M.
Proof.
  intros Ec HW M0 A. destruct (sums64 n w s A (le_n n)) as (F1 & F2 & A1 & A2). split; auto.
  rewrite Ec in A2. cbn [roundings] in A2. destruct A2 as [A2 _]. eapply Rle_trans; [exact A2|].
  destruct (g_n (n + 4 + 1) ltac:(lia)) as (Ku & G & Gu). assert (AM := A_le_MW n).
  destruct (sums_le n (le_n n)) as ((W0 & _) & (A0 & _) & SA). 
  assert (EN : INR (n + 4 + 1) = INR n + 5) by (rewrite !plus_INR; cbn; lra). rewrite EN in *.
  assert (U := u64_pos). assert (Pn : 0 <= INR n) by apply pos_INR.
  assert (AM' : Asum n <= M) by nra.
  apply Rle_trans with ((1 + / 100) * ((INR n + 5) * u64) * M); [apply Rmult_le_compat; auto using g_pos|].
  assert (0 <= (INR n + 5) * u64 * M) by (repeat apply Rmult_le_pos; lra). nra.
Qed.
End Sums.
