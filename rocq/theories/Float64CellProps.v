(** cellave1d in binary64: theorems (C69). *)
From Verif Require Export Float64CellRows Float64Props.
From Coq Require Import Reals Lra Psatz.
Open Scope R_scope.

Definition cellave1d64 := cellave1d_g ops64.

Ltac rle_cases := repeat match goal with |- context [Rle_dec ?x ?y] =>
  lazymatch x with context [Rle_dec _ _] => fail | _ => lazymatch y with context [Rle_dec _ _] => fail | _ => destruct (Rle_dec x y) end end end.

Section Row64.
Variables (extrap : string) (v rb ro : list f64).
Local Notation n := (List.length v).
Local Notation B := (num64 rb).
Local Notation Oe := (num64 ro).
Local Notation e0 := (edge0 ops64 extrap (gat ops64 rb) (gat ops64 ro)).
Local Notation e1 := (edge1 ops64 n extrap (gat ops64 rb) (gat ops64 ro)).
Hypothesis Lb : List.length rb = S n.
Hypothesis Nb : no_nan rb.
Hypothesis No : no_nan ro.
Hypothesis Ib : gnondecreasing real64 rb.
Hypothesis Io : gincreasing real64 ro.
Variable j : nat.
Hypothesis Hj : (S j < List.length ro)%nat.

Lemma gnum_num64 l i : gnum ops64 rank64 l i = num64 l i.
Proof. unfold gnum, num64, datum. change (fnum ops64) with f64 in *. destruct (nth_error l i); reflexivity. Qed.
Lemma at64 l i : no_nan l -> (i < List.length l)%nat -> is_finite (gat ops64 l i) = true /\ B2R (gat ops64 l i) = num64 l i.
Proof. intros N H. apply rank64_iff. rewrite <- gnum_num64. now apply gat_rank. Qed.
Lemma val_num l i : no_nan l -> (i < List.length l)%nat -> gval real64 l i (num64 l i).
Proof. intros N H. rewrite <- gnum_num64. now apply (gnum_val ops64 rank64). Qed.
Lemma B_mono i k : (i <= k <= n)%nat -> B i <= B k.
Proof. intros H. destruct (Nat.eq_dec i k) as [->|]; [lra|]. apply (Ib i k); try lia; apply val_num; auto; lia. Qed.
Lemma O_lt : Oe j < Oe (S j).
Proof. apply (Io j (S j)); try lia; apply val_num; auto; lia. Qed.
Lemma e0_val i : (i < n)%nat -> is_finite (e0 j i) = true /\ B2R (e0 j i) = E0 extrap B Oe j i.
Proof.
  intro Hi. apply rank64_iff.
  refine (edge0_rank ops64 rank64 C64_lt n (S j) extrap (gat ops64 rb) (gat ops64 ro) B Oe _ _ j i _ _); try lia.
  - intros k Hk. apply rank64_iff. apply at64; auto. lia.
  - intros k Hk. apply rank64_iff. apply at64; auto. lia.
Qed.
Lemma e1_val i : (i < n)%nat -> is_finite (e1 j i) = true /\ B2R (e1 j i) = InterpGCell.E1 n extrap B Oe j i.
Proof.
  intro Hi. apply rank64_iff.
  refine (edge1_rank ops64 rank64 C64_lt n (S j) extrap (gat ops64 rb) (gat ops64 ro) B Oe _ _ j i _ _); try lia.
  - intros k Hk. apply rank64_iff. apply at64; auto. lia.
  - intros k Hk. apply rank64_iff. apply at64; auto. lia.
Qed.
Lemma edges_le i : (i < n)%nat -> B2R (e0 j i) <= B2R (e1 j i).
Proof.
  intro Hi. rewrite (proj2 (e0_val i Hi)), (proj2 (e1_val i Hi)). unfold E0, InterpGCell.E1. assert (X := B_mono i (S i) ltac:(lia)).
  assert (Y := Rmin_l (B i) (Oe j)). assert (Z := Rmax_l (B (S i)) (Oe (S j))).
  destruct (_ && _)%bool, (_ && _)%bool; lra.
Qed.
Lemma meet_part i : (i < n)%nat -> meet (B2R (e0 j i)) (B2R (e1 j i)) (Oe j) (Oe (S j)) = part extrap n rb ro j i.
Proof.
  intro Hi. rewrite (proj2 (e0_val i Hi)), (proj2 (e1_val i Hi)). unfold meet, part, E0, InterpGCell.E1.
  change (InterpGCell.below extrap) with (to_bottom extrap). change (InterpGCell.above extrap) with (to_top extrap). f_equal. f_equal.
  - destruct (to_top extrap && (S i =? n)%nat)%bool; auto. rewrite Rmin_right; auto. apply Rmax_r.
  - f_equal. destruct (to_bottom extrap && (i =? 0)%nat)%bool; auto. rewrite Rmax_right; auto. apply Rmin_r.
Qed.
Definition clamp (x : R) : R := Rmin (Rmax x (Oe j)) (Oe (S j)).
Lemma meet_clamp a b : a <= b -> meet a b (Oe j) (Oe (S j)) = clamp b - clamp a.
Proof.
  intro H. assert (L := O_lt). unfold meet, clamp, Rmax, Rmin.
  rle_cases; lra.
Qed.
Lemma clamp_range x : Oe j <= clamp x <= Oe (S j).
Proof. assert (L := O_lt). unfold clamp, Rmax, Rmin. rle_cases; lra. Qed.
Lemma parts_disjoint k : (k <= n)%nat -> rsum k (part extrap n rb ro j) <= (match k with O => Oe j | S m => clamp (B2R (e1 j m)) end) - Oe j.
Proof.
  induction k as [|k IH]; intro Hk; [cbn; lra|]. specialize (IH ltac:(lia)). cbn [rsum].
  rewrite <- (meet_part k) by lia. rewrite meet_clamp by (apply edges_le; lia).
  destruct k as [|m]; [assert (X := clamp_range (B2R (e0 j 0))); cbn in *; lra|].
  assert (Q : B2R (e0 j (S m)) = B2R (e1 j m)).
  { rewrite (proj2 (e0_val (S m) ltac:(lia))), (proj2 (e1_val m ltac:(lia))). unfold E0, InterpGCell.E1. replace (S m =? 0)%nat with false by reflexivity. rewrite andb_false_r.
    replace (S m =? n)%nat with false by (symmetry; apply Nat.eqb_neq; lia). now rewrite andb_false_r. }
  rewrite Q. lra.
Qed.
Lemma part_pos i : 0 <= part extrap n rb ro j i.
Proof. apply Rmax_l. Qed.
Lemma parts_le k : (k <= n)%nat -> rsum k (part extrap n rb ro j) <= Oe (S j) - Oe j.
Proof. intro H. assert (X := parts_disjoint k H). assert (L := O_lt). destruct k as [|m]; [lra|]. assert (Y := clamp_range (B2R (e1 j m))). lra. Qed.

(** The sums of Float64CellRows are those of the specification *)
Lemma p_val : is_finite (gat ops64 ro j) = true /\ B2R (gat ops64 ro j) = Oe j.
Proof. apply at64; auto. lia. Qed.
Lemma q_val : is_finite (gat ops64 ro (S j)) = true /\ B2R (gat ops64 ro (S j)) = Oe (S j).
Proof. apply at64; auto. Qed.
Lemma wt_part c i : (i < n)%nat -> wt c (e0 j) (e1 j) (gat ops64 ro j) (gat ops64 ro (S j)) i = if c then part extrap n rb ro j i / (Oe (S j) - Oe j) else part extrap n rb ro j i.
Proof. intro Hi. unfold wt, Float64Cell.wgt. rewrite (proj2 p_val), (proj2 q_val), (meet_part i Hi). reflexivity. Qed.
Lemma W_filled : Wsum false v (e0 j) (e1 j) (gat ops64 ro j) (gat ops64 ro (S j)) n = filled extrap v rb ro j.
Proof. unfold Wsum, filled. apply rsum_ext. intros i Hi. now rewrite (wt_part false i Hi). Qed.
Lemma S_integral : Ssum false v (e0 j) (e1 j) (gat ops64 ro j) (gat ops64 ro (S j)) n = integral extrap v rb ro j.
Proof. unfold Ssum, integral. apply rsum_ext. intros i Hi. now rewrite (wt_part false i Hi). Qed.
Lemma S_integral_c : Ssum true v (e0 j) (e1 j) (gat ops64 ro j) (gat ops64 ro (S j)) n = integral extrap v rb ro j / (Oe (S j) - Oe j).
Proof.
  unfold Ssum, integral. unfold Rdiv. rewrite (Rmult_comm _ (/ _)), <- rsum_scal. apply rsum_ext. intros i Hi. rewrite (wt_part true i Hi).
  destruct (datum v i); unfold Rdiv; ring.
Qed.
Lemma W_c_le : Wsum true v (e0 j) (e1 j) (gat ops64 ro j) (gat ops64 ro (S j)) n <= 1.
Proof.
  assert (L := O_lt). apply Rle_trans with (/ (Oe (S j) - Oe j) * rsum n (part extrap n rb ro j)).
  - rewrite <- rsum_scal. apply rsum_le. intros i Hi. rewrite (wt_part true i Hi). assert (P := part_pos i).
    assert (I : 0 < / (Oe (S j) - Oe j)) by (apply Rinv_0_lt_compat; lra). destruct (datum v i); unfold Rdiv; [lra|]. apply Rmult_le_pos; lra.
  - assert (X := parts_le n (le_n _)). apply Rmult_le_reg_l with (Oe (S j) - Oe j); [lra|]. rewrite <- Rmult_assoc, Rinv_r by lra. lra.
Qed.

(** Ordinary numbers *)
Hypothesis Hn : (Z.of_nat n <= 2 ^ 40)%Z.
Hypothesis Ov : Forall ordinary v.
Hypothesis Ob : Forall ordinary rb.
Hypothesis Oo : Forall ordinary ro.
Lemma at_ord l i : Forall ordinary l -> no_nan l -> (i < List.length l)%nat -> ord (B2R (gat ops64 l i)).
Proof.
  intros H N Hi. rewrite Forall_forall in H. destruct (at64 l i N Hi) as [F _]. apply ordinary_ord.
  - apply H. apply nth_error_In with i. now apply (gat_nth ops64).
  - destruct (gat ops64 l i); auto; discriminate.
Qed.
Lemma e0_ord i : (i < n)%nat -> ord (B2R (e0 j i)).
Proof. intro Hi. unfold edge0. destruct (_ && _ && _)%bool; apply at_ord; auto; lia. Qed.
Lemma e1_ord i : (i < n)%nat -> ord (B2R (e1 j i)).
Proof. intro Hi. unfold edge1. destruct (_ && _ && _)%bool; apply at_ord; auto; lia. Qed.
Lemma pq_lt : B2R (gat ops64 ro j) < B2R (gat ops64 ro (S j)).
Proof. rewrite (proj2 p_val), (proj2 q_val). exact O_lt. Qed.

Lemma cell64_ok conserv x M : cell_value_g ops64 rank64 n conserv extrap v (gat ops64 rb) (gat ops64 ro) j x ->
  0 <= M -> (forall i y, gval real64 v i y -> Rabs y <= M) ->
  if conserv then is_finite x = true /\ Rabs (B2R x - integral extrap v rb ro j / (Oe (S j) - Oe j)) <= 2 * (INR n + 5) * u64 * M
  else (filled extrap v rb ro j = 0 /\ x = B754_nan) \/
       (0 < filled extrap v rb ro j /\ is_finite x = true /\ Rabs (B2R x - integral extrap v rb ro j / filled extrap v rb ro j) <= 3 * (INR n + 2) * u64 * M).
Proof.
  intros (w & s & A & R) M0 HM. unfold cell_result in R.
  assert (P0 := proj1 p_val). assert (Q0 := proj1 q_val).
  assert (Po : ord (B2R (gat ops64 ro j))) by (apply at_ord; auto; lia).
  assert (Qo : ord (B2R (gat ops64 ro (S j)))) by (apply at_ord; auto).
  assert (L := pq_lt).
  assert (F0 : forall i, (i < n)%nat -> is_finite (e0 j i) = true) by (intros; now apply e0_val).
  assert (F1 : forall i, (i < n)%nat -> is_finite (e1 j i) = true) by (intros; now apply e1_val).
  destruct conserv.
  - subst x. rewrite <- S_integral_c.
    apply (total64 true v (e0 j) (e1 j) (gat ops64 ro j) (gat ops64 ro (S j)) n) with (w := w); auto using e0_ord, e1_ord, edges_le, W_c_le.
  - rewrite <- W_filled, <- S_integral.
    assert (I := W0_iff false v (e0 j) (e1 j) (gat ops64 ro j) (gat ops64 ro (S j)) n Hn eq_refl Ov F0 F1 P0 Q0 e0_ord e1_ord Po Qo edges_le L w s A).
    change (n_eqb ops64 w (n_const ops64 0)) with (Beqb w (n_const ops64 0)) in R. destruct (Beqb w (n_const ops64 0)).
    + left. split; auto. now apply I.
    + right. assert (N : Wsum false v (e0 j) (e1 j) (gat ops64 ro j) (gat ops64 ro (S j)) n <> 0).
      { intro Z. destruct I as [_ I]. specialize (I Z). discriminate. }
      split.
      * assert (0 <= Wsum false v (e0 j) (e1 j) (gat ops64 ro j) (gat ops64 ro (S j)) n); [|lra].
        apply rsum_pos. intros i Hi. destruct (datum v i); [|lra]. now apply Float64Cell.wgt_pos.
      * apply (mean64 false v (e0 j) (e1 j) (gat ops64 ro j) (gat ops64 ro (S j)) n) with (w := w) (s := s); auto using e0_ord, e1_ord, edges_le.
Qed.
End Row64.

(** ** Integers *)
Section Ints64.
Variables (extrap : string) (v rb ro : list f64).
Local Notation n := (List.length v).
Local Notation Oe := (num64 ro).
Local Notation e0 := (edge0 ops64 extrap (gat ops64 rb) (gat ops64 ro)).
Local Notation e1 := (edge1 ops64 n extrap (gat ops64 rb) (gat ops64 ro)).
Hypothesis Lb : List.length rb = S n.
Hypothesis Nb : no_nan rb.
Hypothesis No : no_nan ro.
Hypothesis Ib : gnondecreasing real64 rb.
Hypothesis Io : gincreasing real64 ro.
Variable j : nat.
Hypothesis Hj : (S j < List.length ro)%nat.
Hypothesis Zv : integers 26 v.
Hypothesis Zb : integers 25 rb.
Hypothesis Zo : integers 25 ro.
Local Notation p := (gat ops64 ro j).
Local Notation q := (gat ops64 ro (S j)).

Lemma at_int l i : integers 25 l -> no_nan l -> (i < List.length l)%nat -> exists z, isint (gat ops64 l i) z /\ (Z.abs z <= 2 ^ 25)%Z.
Proof.
  intros H N Hi. destruct (at64 l i N Hi) as [F _]. destruct (H i (gat ops64 l i) (gat_nth ops64 l i Hi)) as [X|(z & Hz & Bz)].
  - unfold isNaN in X. rewrite X in F. discriminate.
  - exists z. split; auto. now apply rank64_iff.
Qed.
Lemma e0_int i : (i < n)%nat -> exists z, isint (e0 j i) z /\ (Z.abs z <= 2 ^ 25)%Z.
Proof. intro Hi. unfold edge0. destruct (_ && _ && _)%bool; apply at_int; auto; lia. Qed.
Lemma e1_int i : (i < n)%nat -> exists z, isint (e1 j i) z /\ (Z.abs z <= 2 ^ 25)%Z.
Proof. intro Hi. unfold edge1. destruct (_ && _ && _)%bool; apply at_int; auto; lia. Qed.
Lemma W_le k : (k <= n)%nat -> 0 <= Wsum false v (e0 j) (e1 j) p q k <= Oe (S j) - Oe j.
Proof.
  intro Hk. assert (L : Oe j < Oe (S j)) by (eapply O_lt; eauto). split.
  - apply rsum_pos. intros i Hi. destruct (datum v i); [|lra]. unfold wt. apply Float64Cell.wgt_pos. eapply pq_lt; eauto.
  - apply Rle_trans with (rsum k (part extrap n rb ro j)); [|eapply parts_le; eauto]. apply rsum_le. intros i Hi.
    erewrite (wt_part extrap v rb ro) by (eauto; lia). destruct (datum v i); [lra|apply Rmax_l].
Qed.
Lemma v_int i x : nth_error v i = Some x -> is_nan x = false -> exists z, isint x z /\ (Z.abs z <= 2 ^ 26)%Z.
Proof.
  intros E N. destruct (Zv i x E) as [X|(z & Hz & Bz)]; [unfold isNaN in X; rewrite X in N; discriminate|]. exists z. split; auto. now apply rank64_iff.
Qed.
Lemma S_le k : (k <= n)%nat -> Rabs (Ssum false v (e0 j) (e1 j) p q k) <= bpow radix2 26 * Wsum false v (e0 j) (e1 j) p q k.
Proof.
  intro Hk. unfold Ssum, Wsum. eapply Rle_trans; [apply rsum_abs|]. rewrite <- rsum_scal. apply rsum_le. intros i Hi. destruct (datum v i) as [x|] eqn:D; [|rewrite Rabs_R0; lra].
  assert (P : 0 <= wt false (e0 j) (e1 j) p q i) by (unfold wt; apply Float64Cell.wgt_pos; eapply pq_lt; eauto).
  rewrite Rabs_mult, (Rabs_pos_eq (wt _ _ _ _ _ i)) by auto. apply Rmult_le_compat_r; auto.
  unfold datum in D. destruct (nth_error v i) as [t|] eqn:E; [|discriminate]. apply rank64_iff in D. destruct D as [F <-].
  destruct (v_int i t E) as (z & [_ Vz] & Bz); [destruct t; auto; discriminate|]. rewrite Vz, <- abs_IZR. change (bpow radix2 26) with (IZR (2 ^ 26)). now apply IZR_le.
Qed.
Lemma sums_int k w s : acc ops64 rank64 false v (e0 j) (e1 j) p q k w s -> (k <= n)%nat ->
  exists a b, isint w a /\ isint s b /\ IZR a = Wsum false v (e0 j) (e1 j) p q k /\ IZR b = Ssum false v (e0 j) (e1 j) p q k.
Proof.
  assert (Lpq : B2R p < B2R q) by (eapply pq_lt; eauto).
  intro A. induction A as [|k w s x A IH Ex Nx|k w s A IH Hout|k w s x d A IH Ex Nx Hp Hq Hd]; intro Hk.
  - exists 0%Z, 0%Z. rewrite const0. repeat split; reflexivity.
  - destruct (IH ltac:(lia)) as (a & b & A1 & A2 & A3 & A4). exists a, b. repeat (split; auto); unfold Wsum, Ssum in *; cbn [rsum];
    rewrite (datum_nan v k x Ex Nx); lra.
  - destruct (IH ltac:(lia)) as (a & b & A1 & A2 & A3 & A4). exists a, b.
    assert (Z : wt false (e0 j) (e1 j) p q k = 0). { eapply wt_out with (n := n); auto; lia. }
    repeat (split; auto); unfold Wsum, Ssum in *; cbn [rsum]; rewrite Z; destruct (datum v k); lra.
  - destruct (IH ltac:(lia)) as (a & b & A1 & A2 & A3 & A4). change (is_nan x = false) in Nx. cbn [n_add n_mul ops64].
    destruct (v_int k x Ex Nx) as (zx & Ix & Bx).
    assert (D : datum v k = Some (IZR zx)). { unfold datum. change (fnum ops64) with f64 in *. rewrite Ex. apply rank64_iff. exact Ix. }
    destruct (e0_int k ltac:(lia)) as (z0 & I0 & B0). destruct (e1_int k ltac:(lia)) as (z1 & I1 & B1).
    destruct (at_int ro j Zo No ltac:(lia)) as (zp & Ip & Bp). destruct (at_int ro (S j) Zo No ltac:(lia)) as (zq & Iq & Bq).
    unfold weight_g in Hd. cbv zeta in Hd. cbn [andb n_sub ops64] in Hd. injection Hd as <-.
    assert (Imin : exists z, isint (fmin_g ops64 (e1 j k) q) z /\ (Z.abs z <= 2 ^ 25)%Z) by (unfold fmin_g; destruct (n_ltb ops64 _ _); eauto).
    assert (Imax : exists z, isint (fmax_g ops64 (e0 j k) p) z /\ (Z.abs z <= 2 ^ 25)%Z) by (unfold fmax_g; destruct (n_ltb ops64 _ _); eauto).
    destruct Imin as (m & Im & Bm), Imax as (m' & Im' & Bm').
    assert (Id : isint (sub64 (fmin_g ops64 (e1 j k) q) (fmax_g ops64 (e0 j k) p)) (m - m')) by (apply int_sub; auto; lia).
    destruct (fmin64 (e1 j k) q (proj1 I1) (proj1 Iq)) as [_ Vmin]. destruct (fmax64 (e0 j k) p (proj1 I0) (proj1 Ip)) as [_ Vmax].
    assert (Hp' : B2R p <= B2R (e1 j k)). { destruct Hp as (a' & b' & Ra & Rb & L). apply rank64_iff in Ra, Rb. destruct Ra as [_ <-], Rb as [_ <-]. auto. }
    assert (Hq' : B2R (e0 j k) <= B2R q). { destruct Hq as (a' & b' & Ra & Rb & L). apply rank64_iff in Ra, Rb. destruct Ra as [_ <-], Rb as [_ <-]. auto. }
    assert (Hw : IZR (m - m') = wt false (e0 j) (e1 j) p q k).
    { unfold wt, Float64Cell.wgt. rewrite meet_in; auto; [|eapply edges_le; eauto; lia|lra].
      rewrite <- Vmin, <- Vmax, (proj2 Im), (proj2 Im'). apply minus_IZR. }
    assert (HW : Wsum false v (e0 j) (e1 j) p q (S k) = IZR (a + (m - m'))) by (unfold Wsum in *; cbn [rsum]; rewrite D, plus_IZR, A3, Hw; reflexivity).
    assert (HS : Ssum false v (e0 j) (e1 j) p q (S k) = IZR (b + zx * (m - m'))) by (unfold Ssum in *; cbn [rsum]; rewrite D, plus_IZR, mult_IZR, A4, Hw; reflexivity).
    assert (W1 := W_le (S k) Hk). assert (S1 := S_le (S k) Hk).
    assert (WB : Wsum false v (e0 j) (e1 j) p q (S k) <= bpow radix2 26).
    { apply Rle_trans with (Oe (S j) - Oe j); [apply W1|]. assert (Vp : B2R p = Oe j) by (eapply p_val; eauto). assert (Vq : B2R q = Oe (S j)) by (eapply q_val; eauto). rewrite <- Vp, <- Vq.
      rewrite (proj2 Ip), (proj2 Iq), <- minus_IZR. change (bpow radix2 26) with (IZR (2 ^ 26)). apply IZR_le. lia. }
    assert (SB : Rabs (Ssum false v (e0 j) (e1 j) p q (S k)) <= bpow radix2 52).
    { eapply Rle_trans; [exact S1|]. change 52%Z with (26 + 26)%Z. rewrite bpow_plus. apply Rmult_le_compat_l; [apply bpow_ge_0|auto]. }
    rewrite HW in W1, WB. rewrite HS in SB. rewrite <- abs_IZR in SB. change (bpow radix2 52) with (IZR (2 ^ 52)) in SB. apply le_IZR in SB.
    change (bpow radix2 26) with (IZR (2 ^ 26)) in WB. apply le_IZR in WB. destruct W1 as [W1 _]. apply le_IZR in W1.
    exists (a + (m - m'))%Z, (b + zx * (m - m'))%Z. split; [apply int_add; auto; lia|]. split; [|auto].
    apply int_add; auto; [|lia]. apply int_mul; auto. rewrite Z.abs_mul.
    apply Z.le_trans with (2 ^ 26 * 2 ^ 26)%Z; [|lia]. apply Z.mul_le_mono_nonneg; lia.
Qed.
Lemma cell_int x : cell_value_g ops64 rank64 n false extrap v (gat ops64 rb) (gat ops64 ro) j x ->
  (filled extrap v rb ro j = 0 /\ x = B754_nan) \/
  (0 < filled extrap v rb ro j /\ is_finite x = true /\ B2R x = nearest_double (integral extrap v rb ro j / filled extrap v rb ro j)).
Proof.
  intros (w & s & A & R). unfold cell_result in R.
  destruct (sums_int n w s A (le_n _)) as (a & b & [Fa Va] & [Fb Vb] & HW & HS).
  assert (W0 := W_le n (le_n _)). assert (S0 := S_le n (le_n _)).
  assert (EW : Wsum false v (e0 j) (e1 j) p q n = filled extrap v rb ro j) by (eapply W_filled; eauto). assert (ES : Ssum false v (e0 j) (e1 j) p q n = integral extrap v rb ro j) by (eapply S_integral; eauto). rewrite EW, ES in *.
  change (n_eqb ops64 w (n_const ops64 0)) with (Beqb w zero64) in R. rewrite (Beqb_correct 53 1024 w zero64 Fa zero_fin) in R. change (B2R zero64) with 0 in R.
  destruct (Req_bool_spec (B2R w) 0) as [E|E].
  - left. split; auto. rewrite <- HW, <- Va. exact E.
  - right. rewrite <- HW, <- HS in *. split; [rewrite <- Va in *; lra|].
    assert (Ez : Beqb w zero64 = false). { rewrite (Beqb_correct 53 1024 w zero64 Fa zero_fin). apply Req_bool_false. exact E. }
    change (n_div ops64 s w) with (pydiv64 s w) in R. unfold pydiv64 in R. rewrite Ez in R. injection R as <-.
    assert (P : 1 <= IZR a). { apply IZR_le. assert (0 < a)%Z; [|lia]. apply lt_IZR. rewrite <- Va in *. lra. }
    assert (Q : Rabs (IZR b / IZR a) <= bpow radix2 26).
    { unfold Rdiv. rewrite Rabs_mult, Rabs_inv, (Rabs_pos_eq (IZR a)) by lra. apply Rmult_le_reg_r with (IZR a); [lra|]. rewrite Rmult_assoc, Rinv_l by lra. lra. }
    destruct (div_ok s w 26 ltac:(lia) Fb E) as [Fz Vz]; [rewrite Va, Vb; exact Q|].
    split; auto. rewrite Vz, Va, Vb. reflexivity.
Qed.
End Ints64.

(** ** C69 *)
Lemma rows64 conserv extrap (vari yib yob : list (list f64)) nxi nxiy nxo nyi nyo :
  gshape vari nxi nyi -> gshape yib nxiy (S nyi) -> gshape yob nxo (S nyo) ->
  (0 < nxiy)%nat -> (0 < nxo)%nat -> (nxo <= nxi)%nat ->
  Forall no_nan yib -> Forall no_nan yob -> Forall (gnondecreasing real64) yib -> Forall (gincreasing real64) yob ->
  exists out, cellave1d64 vari yib yob conserv extrap = Ok out /\ gshape out nxi nyo /\
    grows_ok (cell_row_g ops64 rank64 conserv extrap) vari yib yob out /\
    forall ix v rb ro, nth_error vari (ix mod List.length vari) = Some v -> nth_error yib (ix mod List.length yib) = Some rb ->
      nth_error yob (ix mod List.length yob) = Some ro ->
      List.length v = nyi /\ List.length rb = S nyi /\ List.length ro = S nyo /\ no_nan rb /\ no_nan ro /\ gnondecreasing real64 rb /\ gincreasing real64 ro.
Proof.
  intros S1 S2 S3 P1 P2 P3 N1 N2 M1 M2.
  destruct (cellave1d_g_correct ops64 rank64 C64_lt C64_le C64_eq C64_div0 C64_divw vari yib yob conserv extrap nxi nxiy nxo nyi nyo)
    as (out & E & Hs & HR); auto.
  exists out. split; [exact E|]. split; [exact Hs|]. split; [exact HR|]. intros ix v rb ro Ev Eb Eo.
  split; [exact (gshape_row ops64 _ _ _ _ _ S1 Ev)|]. split; [exact (gshape_row ops64 _ _ _ _ _ S2 Eb)|]. split; [exact (gshape_row ops64 _ _ _ _ _ S3 Eo)|].
  split; [exact (Forall_row _ _ _ _ N1 Eb)|]. split; [exact (Forall_row _ _ _ _ N2 Eo)|]. split; [exact (Forall_row _ _ _ _ M1 Eb)|exact (Forall_row _ _ _ _ M2 Eo)].
Qed.

Theorem C69_cellave1d_binary64 : forall vari yib yob conserv extrap nxi nxiy nxo nyi nyo,
  gshape vari nxi nyi -> gshape yib nxiy (S nyi) -> gshape yob nxo (S nyo) ->
  (0 < nxiy)%nat -> (0 < nxo)%nat -> (nxo <= nxi)%nat -> (Z.of_nat nyi <= 2 ^ 40)%Z ->
  all_ordinary vari -> all_ordinary yib -> all_ordinary yob -> Forall no_nan yib -> Forall no_nan yob ->
  Forall (gnondecreasing real64) yib -> Forall (gincreasing real64) yob ->
  exists out, cellave1d64 vari yib yob conserv extrap = Ok out /\ gshape out nxi nyo /\
    grows_ok (cellave64_row conserv extrap) vari yib yob out.
Proof.
  intros vari yib yob conserv extrap nxi nxiy nxo nyi nyo S1 S2 S3 P1 P2 P3 Hn O1 O2 O3 N1 N2 M1 M2.
  destruct (rows64 conserv extrap vari yib yob nxi nxiy nxo nyi nyo) as (out & E & Hs & HR & HF); auto.
  exists out. split; [exact E|]. split; [exact Hs|]. intros ix v rb ro r Ev Eb Eo Er.
  destruct (HR ix v rb ro r Ev Eb Eo Er) as [Lr HC]. destruct (HF ix v rb ro Ev Eb Eo) as (Lv & Lb & Lo & Nb & No & Ib & Io).
  split; [exact Lr|]. intros j M Hj M0 HM. cbv zeta.
  change (fnum ops64) with f64 in *.
  destruct (HC j Hj) as (x & Ex & HX).
  assert (G := cell64_ok extrap v rb ro ltac:(congruence) Nb No Ib Io j ltac:(lia) ltac:(now rewrite Lv) (Forall_row _ _ _ _ O1 Ev) (Forall_row _ _ _ _ O2 Eb) (Forall_row _ _ _ _ O3 Eo) conserv x M HX M0 HM).
  rewrite pow64. destruct conserv.
  - destruct G as [F B]. exists (B2R x). split; [exists x; split; auto; now apply rank_finite|exact B].
  - destruct G as [[Z ->]|(P & F & B)]; [left; split; auto|right]. split; auto. exists (B2R x). split; [exists x; split; auto; now apply rank_finite|exact B].
Qed.
Print Assumptions C69_cellave1d_binary64.

Theorem C69_cellave1d_integers : forall vari yib yob extrap nxi nxiy nxo nyi nyo,
  gshape vari nxi nyi -> gshape yib nxiy (S nyi) -> gshape yob nxo (S nyo) ->
  (0 < nxiy)%nat -> (0 < nxo)%nat -> (nxo <= nxi)%nat ->
  Forall (integers 26) vari -> Forall (integers 25) yib -> Forall (integers 25) yob -> Forall no_nan yib -> Forall no_nan yob ->
  Forall (gnondecreasing real64) yib -> Forall (gincreasing real64) yob ->
  exists out, cellave1d64 vari yib yob false extrap = Ok out /\ gshape out nxi nyo /\
    grows_ok (fun v yb ob r => forall j, (j < nyo)%nat ->
      (filled extrap v yb ob j = 0 /\ nan_at r j) \/
      (0 < filled extrap v yb ob j /\
       gval real64 r j (nearest_double (integral extrap v yb ob j / filled extrap v yb ob j)))) vari yib yob out.
Proof.
  intros vari yib yob extrap nxi nxiy nxo nyi nyo S1 S2 S3 P1 P2 P3 O1 O2 O3 N1 N2 M1 M2.
  destruct (rows64 false extrap vari yib yob nxi nxiy nxo nyi nyo) as (out & E & Hs & HR & HF); auto.
  exists out. split; [exact E|]. split; [exact Hs|]. intros ix v rb ro r Ev Eb Eo Er j Hj.
  destruct (HR ix v rb ro r Ev Eb Eo Er) as [Lr HC]. destruct (HF ix v rb ro Ev Eb Eo) as (Lv & Lb & Lo & Nb & No & Ib & Io).
  change (fnum ops64) with f64 in *.
  destruct (HC j ltac:(lia)) as (x & Ex & HX).
  destruct (cell_int extrap v rb ro ltac:(congruence) Nb No Ib Io j ltac:(lia) (Forall_row _ _ _ _ O1 Ev) (Forall_row _ _ _ _ O2 Eb) (Forall_row _ _ _ _ O3 Eo) x HX)
    as [[Z ->]|(P & F & B)]; [left; auto|right]. split; auto. exists x. split; auto. rewrite <- B. now apply rank_finite.
Qed.
Print Assumptions C69_cellave1d_integers.

(** A constant field of integers stays so, to the last bit *)
Lemma constant_integral extrap v yb ob j c : (forall i x, gval real64 v i x -> x = c) -> integral extrap v yb ob j = c * filled extrap v yb ob j.
Proof.
  intro H. unfold integral, filled. rewrite <- rsum_scal. apply rsum_ext. intros i Hi. destruct (datum v i) as [x|] eqn:D; [|ring].
  rewrite (H i x); [ring|]. unfold datum in D. destruct (nth_error v i) as [t|] eqn:E; [|discriminate]. exists t. auto.
Qed.
Theorem C69_constant_integers : forall vari yib yob extrap nxi nxiy nxo nyi nyo c,
  gshape vari nxi nyi -> gshape yib nxiy (S nyi) -> gshape yob nxo (S nyo) ->
  (0 < nxiy)%nat -> (0 < nxo)%nat -> (nxo <= nxi)%nat ->
  Forall (integers 26) vari -> Forall (integers 25) yib -> Forall (integers 25) yob -> Forall no_nan yib -> Forall no_nan yob ->
  Forall (gnondecreasing real64) yib -> Forall (gincreasing real64) yob -> (Z.abs c <= 2 ^ 26)%Z ->
  (forall v i x, In v vari -> gval real64 v i x -> x = IZR c) ->
  exists out, cellave1d64 vari yib yob false extrap = Ok out /\ gshape out nxi nyo /\
    grows_ok (fun v yb ob r => forall j, (j < nyo)%nat ->
      (filled extrap v yb ob j = 0 /\ nan_at r j) \/ (0 < filled extrap v yb ob j /\ gval real64 r j (IZR c))) vari yib yob out.
Proof.
  intros vari yib yob extrap nxi nxiy nxo nyi nyo c S1 S2 S3 P1 P2 P3 O1 O2 O3 N1 N2 M1 M2 Hc HC.
  destruct (C69_cellave1d_integers vari yib yob extrap nxi nxiy nxo nyi nyo) as (out & E & Hs & HR); auto.
  exists out. split; [exact E|]. split; [exact Hs|]. intros ix v rb ro r Ev Eb Eo Er j Hj.
  destruct (HR ix v rb ro r Ev Eb Eo Er j Hj) as [H|[H1 H2]]; [now left|right]. split; auto.
  rewrite (constant_integral extrap v rb ro j (IZR c)) in H2 by (intros i x; apply HC; eapply nth_error_In; eauto).
  replace (IZR c * filled extrap v rb ro j / filled extrap v rb ro j) with (IZR c) in H2 by (field; lra).
  unfold nearest_double in H2. change (round radix2 (FLT_exp (-1074) 53) ZnearestE (IZR c)) with (RN (IZR c)) in H2. now rewrite RN_int in H2 by lia.
Qed.
Print Assumptions C69_constant_integers.

(** ** Conservation *)
Lemma rsum_telescope m f : rsum m (fun j => f (S j) - f j) = f m - f 0%nat.
Proof. induction m as [|m IH]; cbn; [ring|]. rewrite IH. ring. Qed.
Definition cl (a b x : R) : R := Rmin (Rmax x a) b.
Lemma meet_cl a b p q : a <= b -> p <= q -> meet a b p q = cl a b q - cl a b p.
Proof. intros H1 H2. unfold meet, cl, Rmax, Rmin. rle_cases; lra. Qed.
Lemma integral_total v yb ob nyo : List.length yb = S (List.length v) -> List.length ob = S nyo -> no_nan yb -> no_nan ob -> no_nan v ->
  gnondecreasing real64 yb -> gincreasing real64 ob -> num64 ob 0 <= num64 yb 0 -> num64 yb (List.length v) <= num64 ob nyo ->
  rsum nyo (integral "no" v yb ob) = rsum (List.length v) (fun i => num64 v i * (num64 yb (S i) - num64 yb i)).
Proof.
  intros Lb Lo Nb No Nv Ib Io H0 H1. unfold integral.
  rewrite rsum_swap. apply rsum_ext. intros i Hi. destruct (Nv i Hi) as (x & t & Et & Rt).
  assert (D : datum v i = Some x) by (unfold datum; now rewrite Et). assert (Nx : num64 v i = x) by (unfold num64; now rewrite D). rewrite Nx, D.
  transitivity (rsum nyo (fun j => x * (cl (num64 yb i) (num64 yb (S i)) (num64 ob (S j)) - cl (num64 yb i) (num64 yb (S i)) (num64 ob j)))).
  - apply rsum_ext. intros j Hj. f_equal. rewrite <- meet_cl; [reflexivity| |].
    + apply (Ib i (S i)); try lia; apply val_num; auto; lia.
    + apply Rlt_le, (Io j (S j)); try lia; apply val_num; auto; lia.
  - rewrite rsum_scal, (rsum_telescope nyo (fun j => cl (num64 yb i) (num64 yb (S i)) (num64 ob j))). f_equal.
    assert (Bm : forall a b, (a <= b <= List.length v)%nat -> num64 yb a <= num64 yb b).
    { intros a b Hab. destruct (Nat.eq_dec a b) as [->|]; [lra|]. apply (Ib a b); try lia; apply val_num; auto; lia. }
    assert (B1 : num64 yb 0 <= num64 yb i) by (apply Bm; lia).
    assert (B2 : num64 yb (S i) <= num64 yb (List.length v)) by (apply Bm; lia).
    assert (B3 : num64 yb i <= num64 yb (S i)) by (apply Bm; lia).
    unfold cl, Rmax, Rmin. rle_cases; lra.
Qed.
Theorem C69_cellave1d_conserves : forall vari yib yob nxi nxiy nxo nyi nyo,
  gshape vari nxi nyi -> gshape yib nxiy (S nyi) -> gshape yob nxo (S nyo) ->
  (0 < nxiy)%nat -> (0 < nxo)%nat -> (nxo <= nxi)%nat -> (Z.of_nat nyi <= 2 ^ 40)%Z ->
  all_ordinary vari -> all_ordinary yib -> all_ordinary yob -> Forall no_nan vari -> Forall no_nan yib -> Forall no_nan yob ->
  Forall (gnondecreasing real64) yib -> Forall (gincreasing real64) yob ->
  exists out, cellave1d64 vari yib yob true "no" = Ok out /\
    grows_ok (fun v yb ob r => forall M, 0 <= M -> (forall i x, gval real64 v i x -> Rabs x <= M) ->
      num64 ob 0 <= num64 yb 0 -> num64 yb nyi <= num64 ob nyo ->
      Rabs (rsum nyo (fun j => num64 r j * (num64 ob (S j) - num64 ob j)) - rsum nyi (fun i => num64 v i * (num64 yb (S i) - num64 yb i)))
        <= 2 * (INR nyi + 5) * powerRZ 2 (-53) * M * (num64 ob nyo - num64 ob 0)) vari yib yob out.
Proof.
  intros vari yib yob nxi nxiy nxo nyi nyo S1 S2 S3 P1 P2 P3 Hn O1 O2 O3 N0 N1 N2 M1 M2.
  destruct (C69_cellave1d_binary64 vari yib yob true "no" nxi nxiy nxo nyi nyo) as (out & E & Hs & HR); auto.
  exists out. split; [exact E|]. intros ix v rb ro r Ev Eb Eo Er M M0 HM H0 H1.
  destruct (HR ix v rb ro r Ev Eb Eo Er) as [Lr HC].
  assert (Lv := gshape_row ops64 _ _ _ _ _ S1 Ev). assert (Lb := gshape_row ops64 _ _ _ _ _ S2 Eb). assert (Lo := gshape_row ops64 _ _ _ _ _ S3 Eo).
  change (fnum ops64) with f64 in *. subst nyi.
  assert (Nb := Forall_row _ _ _ _ N1 Eb). assert (No := Forall_row _ _ _ _ N2 Eo). assert (Ib := Forall_row _ _ _ _ M1 Eb). assert (Io := Forall_row _ _ _ _ M2 Eo).
  rewrite <- (integral_total v rb ro nyo); auto; [|exact (Forall_row _ _ _ _ N0 Ev)].
  set (K := 2 * (INR (List.length v) + 5) * powerRZ 2 (-53) * M) in *.
  replace (rsum nyo (fun j => num64 r j * (num64 ro (S j) - num64 ro j)) - rsum nyo (integral "no" v rb ro))
    with (rsum nyo (fun j => num64 r j * (num64 ro (S j) - num64 ro j) + (-1) * integral "no" v rb ro j)) by (rewrite rsum_plus, rsum_scal; ring).
  eapply Rle_trans; [apply rsum_abs|]. rewrite <- (rsum_telescope nyo (num64 ro)), <- rsum_scal. apply rsum_le. intros j Hj.
  destruct (HC j M ltac:(lia) M0 HM) as (x & (t & Et & Rt) & B). fold K in B.
  assert (Dx : num64 r j = x) by (unfold num64, datum; now rewrite Et, Rt). rewrite Dx.
  assert (W : 0 < num64 ro (S j) - num64 ro j). { assert (num64 ro j < num64 ro (S j)); [|lra]. eapply O_lt; eauto; lia. }
  replace (x * (num64 ro (S j) - num64 ro j) + -1 * integral "no" v rb ro j)
    with ((x - integral "no" v rb ro j / (num64 ro (S j) - num64 ro j)) * (num64 ro (S j) - num64 ro j)) by (field; lra).
  rewrite Rabs_mult, (Rabs_pos_eq (num64 ro (S j) - num64 ro j)) by lra. apply Rmult_le_compat_r; lra.
Qed.
Print Assumptions C69_cellave1d_conserves.

(** ** Instances and limits *)
Lemma ints_ordinary l : small l -> Forall ordinary (ints l).
Proof.
  intro S_. apply Forall_forall. intros x Hx. unfold ints in Hx. apply in_map_iff in Hx. destruct Hx as (z & <- & Hz).
  unfold small in S_. rewrite Forall_forall in S_. specialize (S_ z Hz). destruct (mk64_int z S_) as [F V]. right. exists (IZR z). split; [apply rank64_iff; auto|].
  destruct (Z.eq_dec z 0) as [->|N]; [now left|right]. rewrite !pow64. split.
  - apply Rle_trans with (bpow radix2 0); [apply bpow_le; lia|]. rewrite <- abs_IZR. cbn. apply IZR_le. lia.
  - eapply Rle_trans; [now apply int_bound|apply bpow_le; lia].
Qed.
Lemma ints_no_nan l : small l -> no_nan (ints l).
Proof. intros S_ i Hi. apply ints_all_valid; auto. unfold ints in Hi. now rewrite map_length in Hi. Qed.
Lemma ints_integers k l : Forall (fun z => (Z.abs z <= 2 ^ k)%Z) l -> (k <= 53)%Z -> integers k (ints l).
Proof.
  intros H K i t E. unfold ints in E. rewrite nth_error_map in E. destruct (nth_error l i) as [z|] eqn:Z; [|discriminate]. injection E as <-.
  assert (B := Forall_row _ _ _ _ H Z). cbv beta in B. right. exists z. split; auto. apply rank64_iff. apply mk64_int. assert (2 ^ k <= 2 ^ 53)%Z by (apply Z.pow_le_mono_r; lia). lia.
Qed.
(** Two rows of data, one with a NaN; one grid of input edges and one of output edges, the last output
    cell reaching beyond the input *)
Definition ex_vari : list (list f64) := [ints [4; 8; 2]; [mk64 4 0; B754_nan; mk64 3 0]]%Z.
Definition ex_yib : list (list f64) := [ints [0; 1; 3; 4]]%Z.
Definition ex_yob : list (list f64) := [ints [0; 2; 5; 9]]%Z.
Example C69_ex :
  gshape ex_vari 2 3 /\ gshape ex_yib 1 4 /\ gshape ex_yob 1 4 /\ all_ordinary ex_vari /\ all_ordinary ex_yib /\ all_ordinary ex_yob /\
  Forall (integers 26) ex_vari /\ Forall (integers 25) ex_yib /\ Forall (integers 25) ex_yob /\
  Forall no_nan ex_yib /\ Forall no_nan ex_yob /\ Forall (gnondecreasing real64) ex_yib /\ Forall (gincreasing real64) ex_yob /\
  bits (cellave1d64 ex_vari ex_yib ex_yob false "no") = bits (Ok [[mk64 6 0; mk64 5 0; B754_nan]; [mk64 4 0; mk64 3 0; B754_nan]]) /\
  bits (cellave1d64 ex_vari ex_yib ex_yob false "above") = bits (Ok [[mk64 6 0; mk64 4 0; mk64 2 0]; [mk64 4 0; mk64 3 0; mk64 3 0]]) /\
  bits (cellave1d64 ex_vari ex_yib ex_yob true "no") = bits (Ok [[mk64 6 0; mk64 7505999378950826 (-51); zero64]; [mk64 2 0; mk64 1 0; zero64]]).
Proof.
  assert (S1 : small [4; 8; 2]%Z) by small_tac. assert (S2 : small [0; 1; 3; 4]%Z) by small_tac. assert (S3 : small [0; 2; 5; 9]%Z) by small_tac.
  assert (S4 : small [4]%Z) by small_tac. assert (S5 : small [3]%Z) by small_tac.
  assert (O4 := ints_ordinary _ S4). assert (O5 := ints_ordinary _ S5). apply Forall_inv in O4, O5.
  split; [repeat constructor|]. split; [repeat constructor|]. split; [repeat constructor|].
  split; [apply Forall_cons; [now apply ints_ordinary|]; apply Forall_cons; [|apply Forall_nil]; apply Forall_cons; [exact O4|]; apply Forall_cons; [left; reflexivity|]; apply Forall_cons; [exact O5|apply Forall_nil]|].
  split; [apply Forall_cons; [now apply ints_ordinary|apply Forall_nil]|]. split; [apply Forall_cons; [now apply ints_ordinary|apply Forall_nil]|].
  split.
  { apply Forall_cons; [apply ints_integers; [small_tac|lia]|]. apply Forall_cons; [|apply Forall_nil].
    assert (I4 : integers 26 (ints [4]%Z)) by (apply ints_integers; [small_tac|lia]). assert (I5 : integers 26 (ints [3]%Z)) by (apply ints_integers; [small_tac|lia]).
    intros [|[|[|[|i]]]] t E; try discriminate; injection E as <-; [apply (I4 0%nat); reflexivity|left; reflexivity|apply (I5 0%nat); reflexivity]. }
  split; [apply Forall_cons; [apply ints_integers; [small_tac|lia]|apply Forall_nil]|]. split; [apply Forall_cons; [apply ints_integers; [small_tac|lia]|apply Forall_nil]|].
  split; [apply Forall_cons; [now apply ints_no_nan|apply Forall_nil]|]. split; [apply Forall_cons; [now apply ints_no_nan|apply Forall_nil]|].
  split; [apply Forall_cons; [apply (gincreasing_nd ops64 rank64); apply ints_increasing; auto|apply Forall_nil]|].
  split; [apply Forall_cons; [apply ints_increasing; auto|apply Forall_nil]|].
  repeat split; vm_compute; reflexivity.
Qed.

Lemma bits1 (X : res (list (list f64))) s : bits X = Some [[s]] -> exists x, X = Ok [[x]] /\ B2SF x = s.
Proof.
  destruct X as [l|e]; cbn; [|discriminate]. intro H. injection H as H. destruct l as [|r [|]]; try discriminate.
  cbn in H. injection H as H. destruct r as [|x [|]]; try discriminate. cbn in H. injection H as H. now exists x.
Qed.
Lemma three_same (t : f64) c : real64 t = Some c -> forall i y, gval real64 [t; t; t] i y -> y = c.
Proof. intros R [|[|[|[|i]]]] y (u & Et & Rt); try discriminate; injection Et as <-; congruence. Qed.
(** The mean of three equal numbers, above them *)
Theorem C69_constant_refuted : exists c x out,
  gval real64 [tenth; tenth; tenth] 0 c /\ (forall i y, gval real64 [tenth; tenth; tenth] i y -> y = c) /\
  cellave1d64 [[tenth; tenth; tenth]] [ints [0; 1; 2; 3]%Z] [ints [0; 3]%Z] false "no" = Ok [out] /\ gval real64 out 0 x /\ c < x.
Proof.
  assert (B : bits (cellave1d64 [[tenth; tenth; tenth]] [ints [0; 1; 2; 3]%Z] [ints [0; 3]%Z] false "no") =
     Some [[SpecFloat.S754_finite false 7205759403792795 (-56)]]) by (vm_compute; reflexivity).
  destruct (bits1 _ _ B) as (x & -> & Bx).
  destruct (const_val tenth false 7205759403792794 (-56) eq_refl) as [F V].
  destruct (const_val x _ _ _ Bx) as [Fx Vx]. assert (Rt : real64 tenth = Some (B2R tenth)) by now apply rank_finite.
  exists (B2R tenth), (B2R x), [x].
  split; [exists tenth; split; [reflexivity|exact Rt]|].
  split; [apply three_same; exact Rt|].
  split; [reflexivity|]. split; [exists x; split; [reflexivity|now apply rank_finite]|].
  rewrite V, Vx. apply F2R_lt. cbn. lia.
Qed.
Print Assumptions C69_constant_refuted.
(** One datum of 2^1023 over its own cell, of width 4: an infinite mean *)
Theorem C69_overflow_refuted : exists x out, real64 x = Some (powerRZ 2 1023) /\
  cellave1d64 [[x]] [ints [0; 4]%Z] [ints [0; 4]%Z] false "no" = Ok [out] /\ nth_error out 0 = Some (B754_infinity false).
Proof.
  assert (B : bits (cellave1d64 [[mk64 1 1023]] [ints [0; 4]%Z] [ints [0; 4]%Z] false "no") = Some [[SpecFloat.S754_infinity false]]) by (vm_compute; reflexivity).
  destruct (bits1 _ _ B) as (x & E & Bx). exists (mk64 1 1023), [x].
  split; [|split; [exact E|cbn; f_equal; now apply B2SF_inj]].
  destruct (const_val (mk64 1 1023) false 4503599627370496 971 eq_refl) as [F V]. rewrite pow64. apply rank64_iff. split; auto. rewrite V. unfold F2R. cbn [Fnum Fexp cond_Zopp].
  change (IZR (Z.pos 4503599627370496)) with (bpow radix2 52). rewrite <- bpow_plus. reflexivity.
Qed.
Print Assumptions C69_overflow_refuted.
