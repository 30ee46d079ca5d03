(** C09, continued: cellave1d with its extrapolation modes, in exact arithmetic.  The loops are
    those of InterpGCell (for any arithmetic), here with the rationals. *)
From Verif Require Import InterpGCell InterpGSame InterpProps CellaveProofs.
From Coq Require Import Reals Qreals Lra Lqa.
Open Scope nat_scope.

(** ** Specification *)
(** The length of the part of the [i]th input cell (of [n]) in the [j]th output cell.  The first cell
    extends to minus infinity with the mode "bellow" (spelled so), the last one to infinity with
    "above"; both with "both". *)
Definition open_below (extrap : string) : bool := String.eqb extrap "bellow" || String.eqb extrap "both".
Definition open_above (extrap : string) : bool := String.eqb extrap "above" || String.eqb extrap "both".
Definition share (extrap : string) (n : nat) (yb ob : list fl) (j i : nat) : Q :=
  let lo := if open_below extrap && (i =? 0) then numat ob j else Qmax (numat yb i) (numat ob j) in
  let hi := if open_above extrap && (S i =? n) then numat ob (S j) else Qmin (numat yb (S i)) (numat ob (S j)) in
  Qmax 0 (hi - lo).
Definition share_sum (extrap : string) (v yb ob : list fl) (j : nat) : Q :=
  qsum (List.length v) (fun i => match nth_error v i with Some (Some x) => (x * share extrap (List.length v) yb ob j i)%Q | _ => 0%Q end).
Definition share_weight (extrap : string) (v yb ob : list fl) (j : nat) : Q :=
  qsum (List.length v) (fun i => match nth_error v i with Some (Some x) => share extrap (List.length v) yb ob j i | _ => 0%Q end).
Definition cellave_extrap_row (conserv : bool) (extrap : string) (v yb ob r : list fl) : Prop :=
  S (List.length r) = List.length ob /\
  forall j, S j < List.length ob -> exists x, nth_error r j = Some x /\
    if conserv then feq x (Some (share_sum extrap v yb ob j / (numat ob (S j) - numat ob j))%Q)
    else ((share_weight extrap v yb ob j == 0)%Q /\ x = nan) \/
         (~ (share_weight extrap v yb ob j == 0)%Q /\ feq x (Some (share_sum extrap v yb ob j / share_weight extrap v yb ob j)%Q)).

(** ** The rationals as numbers *)
Definition rankq (x : fl) : option R := option_map Q2R x.
Lemma rankq_some a r : rankq a = Some r -> exists q, a = Some q /\ r = Q2R q.
Proof. destruct a as [q|]; [|discriminate]. intro H. injection H as <-. now exists q. Qed.
Lemma fltb_iff a b : fltb (Some a) (Some b) = true <-> (a < b)%Q.
Proof. change (fltb (Some a) (Some b)) with (negb (Qle_bool b a)). rewrite Bool.negb_true_iff. split; intro H.
  - apply Qnot_le_lt. intro L. apply Qle_bool_iff in L. congruence.
  - destruct (Qle_bool b a) eqn:E; auto. apply Qle_bool_iff in E. exfalso. apply (Qlt_not_le _ _ H E). Qed.
Lemma q_lt a b x y : rankq a = Some x -> rankq b = Some y -> (n_ltb qops a b = true <-> (x < y)%R).
Proof.
  intros Ha Hb. apply rankq_some in Ha. apply rankq_some in Hb. destruct Ha as (p & -> & ->), Hb as (q & -> & ->).
  change (n_ltb qops (Some p) (Some q)) with (fltb (Some p) (Some q)). rewrite fltb_iff. split; [apply Qlt_Rlt|apply Rlt_Qlt].
Qed.
Lemma q_le a b x y : rankq a = Some x -> rankq b = Some y -> (n_leb qops a b = true <-> (x <= y)%R).
Proof.
  intros Ha Hb. apply rankq_some in Ha. apply rankq_some in Hb. destruct Ha as (p & -> & ->), Hb as (q & -> & ->).
  cbn. rewrite Qle_bool_iff. split; [apply Qle_Rle|apply Rle_Qle].
Qed.
Lemma q_eq a b x y : rankq a = Some x -> rankq b = Some y -> (n_eqb qops a b = true <-> x = y).
Proof.
  intros Ha Hb. apply rankq_some in Ha. apply rankq_some in Hb. destruct Ha as (p & -> & ->), Hb as (q & -> & ->).
  cbn. rewrite Qeq_bool_iff. split; [apply Qeq_eqR|apply eqR_Qeq].
Qed.
Lemma q_div0 a w : n_eqb qops w (n_const qops 0) = false -> exists z, n_div qops a w = Ok z.
Proof. destruct w as [w|]; cbn; [|eauto]. intros ->. eauto. Qed.
Lemma q_divw d a b x y : rankq a = Some x -> rankq b = Some y -> (x < y)%R -> exists z, n_div qops d (n_sub qops b a) = Ok z.
Proof.
  intros Ha Hb. apply rankq_some in Ha. apply rankq_some in Hb. destruct Ha as (p & -> & ->), Hb as (q & -> & ->). intro L. apply Rlt_Qlt in L.
  cbn. destruct (Qeq_bool (q - p) 0) eqn:E; [|eauto]. apply Qeq_bool_iff in E. exfalso. lra.
Qed.

(** ** The sums *)
Definition wq (conserv : bool) (a b p q : Q) : Q := if conserv then (overlap a b p q / (q - p))%Q else overlap a b p q.
Lemma overlap_out a b p q : (b <= p)%Q \/ (q <= a)%Q -> (overlap a b p q == 0)%Q.
Proof.
  intro H. unfold overlap. apply Q.max_l. destruct H as [H|H].
  - assert (A := Q.le_min_l b q). assert (B := Q.le_max_r a p). lra.
  - assert (A := Q.le_min_r b q). assert (B := Q.le_max_l a p). lra.
Qed.
Lemma wq_out c a b p q : (b <= p)%Q \/ (q <= a)%Q -> (wq c a b p q == 0)%Q.
Proof. intro H. unfold wq. destruct c; rewrite (overlap_out a b p q H); [|reflexivity]. unfold Qdiv. ring. Qed.
Lemma weight_q c a b p q d : (a <= b)%Q -> (p < q)%Q -> (p <= b)%Q -> (a <= q)%Q ->
  weight_g qops c (Some a) (Some b) (Some p) (Some q) = Ok d -> exists D, d = Some D /\ (D == wq c a b p q)%Q.
Proof.
  intros L1 L2 L3 L4 H. unfold weight_g in H. change (n_sub qops) with fsub in H. change (fmin_g qops) with fmin in H. change (fmax_g qops) with fmax in H.
  assert (Hm := fmin_Q b q). assert (HM := fmax_Q a p).
  destruct (fmin (Some b) (Some q)) as [m|]; [|contradiction]. destruct (fmax (Some a) (Some p)) as [M|]; [|contradiction]. cbn in Hm, HM.
  assert (Ov : (m - M == overlap a b p q)%Q).
  { unfold overlap. rewrite Hm, HM. symmetry. apply Q.max_r. assert (Qmax a p <= Qmin b q)%Q; [|lra]. apply Q.max_lub; apply Q.min_glb; lra. }
  unfold wq. destruct c; cbn [andb] in H.
  - change (n_eqb qops (Some a) (Some b)) with (Qeq_bool a b) in H. destruct (Qeq_bool a b) eqn:E; cbn [negb] in H.
    + apply Qeq_bool_iff in E. injection H as <-. exists (m - M)%Q. split; [reflexivity|]. rewrite Ov.
      assert (Z : (overlap a b p q == 0)%Q). { unfold overlap. apply Q.max_l. assert (A := Q.le_min_l b q). assert (B := Q.le_max_l a p). lra. }
      rewrite Z. unfold Qdiv. ring.
    + cbn in H. destruct (Qeq_bool (q - p) 0) eqn:Z; [discriminate|]. injection H as <-. exists ((m - M) / (q - p))%Q. split; [reflexivity|]. now rewrite Ov.
  - injection H as <-. exists (m - M)%Q. split; [reflexivity|exact Ov].
Qed.
Section Sums.
Variables (c : bool) (v : list fl) (e0 e1 : nat -> fl) (E0 E1 : nat -> Q) (p q : Q) (n : nat).
Hypothesis H0 : forall i, i < n -> e0 i = Some (E0 i).
Hypothesis H1 : forall i, i < n -> e1 i = Some (E1 i).
Hypothesis H2 : forall i, i < n -> (E0 i <= E1 i)%Q.
Hypothesis H3 : (p < q)%Q.
Definition wsum (k : nat) : Q := qsum k (fun i => match nth_error v i with Some (Some x) => wq c (E0 i) (E1 i) p q | _ => 0%Q end).
Definition ssum (k : nat) : Q := qsum k (fun i => match nth_error v i with Some (Some x) => (x * wq c (E0 i) (E1 i) p q)%Q | _ => 0%Q end).
Lemma before_q (a b : Q) : before qops rankq (Some a) (Some b) -> (a <= b)%Q.
Proof. intros (x & y & Hx & Hy & L). cbn in Hx, Hy. injection Hx as <-. injection Hy as <-. now apply Rle_Qle. Qed.
Lemma acc_q k w s : acc qops rankq c v e0 e1 (Some p) (Some q) k w s -> k <= n ->
  exists W S_, w = Some W /\ s = Some S_ /\ (W == wsum k)%Q /\ (S_ == ssum k)%Q.
Proof.
  induction 1 as [|k w s x A IH Ex Nx|k w s A IH B|k w s x d A IH Ex Nx B1 B2 Hd]; intro Hk; change (fnum qops) with fl in *.
  - exists 0%Q, 0%Q. repeat split; reflexivity.
  - destruct IH as (W & S_ & -> & -> & HW & HS); [lia|]. exists W, S_. repeat split; auto.
    + unfold wsum. cbn [qsum]. fold (wsum k). rewrite Ex. destruct x; [discriminate|]. rewrite HW. ring.
    + unfold ssum. cbn [qsum]. fold (ssum k). rewrite Ex. destruct x; [discriminate|]. rewrite HS. ring.
  - destruct IH as (W & S_ & -> & -> & HW & HS); [lia|]. exists W, S_.
    assert (Z : (wq c (E0 k) (E1 k) p q == 0)%Q).
    { rewrite H0, H1 in B by lia. apply wq_out. destruct B as [B|B]; apply before_q in B; auto. }
    repeat split; auto.
    + unfold wsum. cbn [qsum]. fold (wsum k). destruct (nth_error v k) as [[x|]|]; try rewrite Z; rewrite HW; ring.
    + unfold ssum. cbn [qsum]. fold (ssum k). destruct (nth_error v k) as [[x|]|]; try rewrite Z; rewrite HS; ring.
  - destruct IH as (W & S_ & -> & -> & HW & HS); [lia|]. destruct x as [x|]; [|discriminate].
    rewrite H0 in B2, Hd by lia. rewrite H1 in B1, Hd by lia. apply before_q in B1. apply before_q in B2.
    destruct (weight_q c (E0 k) (E1 k) p q d) as (D & -> & HD); auto.
    exists (W + D)%Q, (S_ + x * D)%Q. split; [reflexivity|]. split; [reflexivity|]. split.
    + unfold wsum. cbn [qsum]. fold (wsum k). rewrite Ex, HW, HD. reflexivity.
    + unfold ssum. cbn [qsum]. fold (ssum k). rewrite Ex, HS, HD. reflexivity.
Qed.
End Sums.

Lemma fltb_case a b : if fltb (Some a) (Some b) then (a < b)%Q else (b <= a)%Q.
Proof. destruct (fltb (Some a) (Some b)) eqn:E; [now apply fltb_iff|]. apply Qnot_lt_le. intro L. apply fltb_iff in L. congruence. Qed.
Lemma overlap_stretch (f g : bool) a b p q : (p < q)%Q -> (a <= b)%Q ->
  (overlap (if f && fltb (Some p) (Some a) then p else a) (if g && fltb (Some b) (Some q) then q else b) p q ==
   Qmax 0 ((if g then q else Qmin b q) - (if f then p else Qmax a p)))%Q.
Proof.
  intros L L'. unfold overlap. assert (A := fltb_case p a). assert (B := fltb_case b q).
  assert (X : (Qmax (if f && fltb (Some p) (Some a) then p else a) p == if f then p else Qmax a p)%Q).
  { destruct f; cbn [andb]; [|reflexivity]. destruct (fltb (Some p) (Some a)); apply Q.max_r; lra. }
  assert (Y : (Qmin (if g && fltb (Some b) (Some q) then q else b) q == if g then q else Qmin b q)%Q).
  { destruct g; cbn [andb]; [|reflexivity]. destruct (fltb (Some b) (Some q)); apply Q.min_r; lra. }
  rewrite X, Y. reflexivity.
Qed.
Lemma numat_at l i : all_valid l -> i < List.length l -> gat qops l i = Some (numat l i).
Proof. intros V H. assert (X := num_val l i V H). unfold val in X. assert (Y := gat_nth qops l i H). change (fnum qops) with fl in Y. rewrite Y in X. now injection X. Qed.
Lemma all_valid_rank l : all_valid l -> all_rank qops rankq l.
Proof. intros V i Hi. exists (Q2R (numat l i)). exists (Some (numat l i)). split; [now apply num_val|reflexivity]. Qed.
Lemma q_nondecreasing l : nondecreasing l -> gnondecreasing rankq l.
Proof. intros M i j a b Hij (x & Ex & Rx) (y & Ey & Ry). apply rankq_some in Rx. apply rankq_some in Ry. destruct Rx as (p & -> & ->), Ry as (q & -> & ->). apply Qle_Rle. now apply (M i j). Qed.
Lemma q_increasing l : InterpSpec.increasing l -> gincreasing rankq l.
Proof. intros M i j a b Hij (x & Ex & Rx) (y & Ey & Ry). apply rankq_some in Rx. apply rankq_some in Ry. destruct Rx as (p & -> & ->), Ry as (q & -> & ->). apply Qlt_Rlt. now apply (M i j). Qed.

Lemma row_q c extrap v rb ro r : all_valid rb -> all_valid ro -> nondecreasing rb -> InterpSpec.increasing ro -> List.length rb = S (List.length v) ->
  cell_row_g qops rankq c extrap v rb ro r -> cellave_extrap_row c extrap v rb ro r.
Proof.
  intros Vb Vo Mb Mo Lb [Lr HR]. split; [exact Lr|]. intros j Hj. change (fnum qops) with fl in *.
  destruct (HR j ltac:(lia)) as (x & Ex & w & s & A & HC). exists x. split; [exact Ex|]. clear Ex HR.
  set (n := List.length v) in *.
  assert (Lt : (numat ro j < numat ro (S j))%Q) by (apply (Mo j (S j)); [lia|apply num_val; auto; lia|apply num_val; auto; lia]).
  assert (Lb' : forall i, i < n -> (numat rb i <= numat rb (S i))%Q) by (intros i Hi; apply (Mb i (S i)); [lia|apply num_val; auto; lia|apply num_val; auto; lia]).
  rewrite !(numat_at ro) in A by (auto; lia).
  set (f := fun i => open_below extrap && (i =? 0)). set (g := fun i => open_above extrap && (S i =? n)).
  set (E0 := fun i => if f i && fltb (Some (numat ro j)) (Some (numat rb i)) then numat ro j else numat rb i).
  set (E1 := fun i => if g i && fltb (Some (numat rb (S i))) (Some (numat ro (S j))) then numat ro (S j) else numat rb (S i)).
  assert (HE0 : forall i, i < n -> edge0 qops extrap (gat qops rb) (gat qops ro) j i = Some (E0 i)).
  { intros i Hi. unfold edge0. rewrite !numat_at by (auto; lia). change (n_ltb qops) with fltb. unfold E0, f, open_below, below. now destruct (_ && _ && _)%bool. }
  assert (HE1 : forall i, i < n -> edge1 qops n extrap (gat qops rb) (gat qops ro) j i = Some (E1 i)).
  { intros i Hi. unfold edge1. rewrite !numat_at by (auto; lia). change (n_ltb qops) with fltb. unfold E1, g, open_above, above. now destruct (_ && _ && _)%bool. }
  assert (HE : forall i, i < n -> (E0 i <= E1 i)%Q).
  { intros i Hi. specialize (Lb' i Hi). assert (P := fltb_case (numat ro j) (numat rb i)). assert (P' := fltb_case (numat rb (S i)) (numat ro (S j))).
    unfold E0, E1. destruct (f i), (g i); cbn [andb]; destruct (fltb (Some (numat ro j)) _), (fltb (Some (numat rb (S i))) _); lra. }
  destruct (acc_q c v _ _ E0 E1 _ _ n HE0 HE1 HE Lt n w s A (le_n n)) as (W & S_ & -> & -> & HW & HS). clear A.
  assert (Sh : forall i, i < n -> (overlap (E0 i) (E1 i) (numat ro j) (numat ro (S j)) == share extrap n rb ro j i)%Q).
  { intros i Hi. unfold E0, E1. rewrite overlap_stretch by auto. reflexivity. }
  unfold cell_result in HC. destruct c.
  - subst x. cbn. rewrite HS. unfold ssum, share_sum. fold n. unfold Qdiv. rewrite Qmult_comm, <- qsum_scal. apply qsum_ext. intros i Hi.
    destruct (nth_error v i) as [[y|]|]; [|ring|ring]. unfold wq. rewrite (Sh i Hi). unfold Qdiv. ring.
  - assert (HW' : (W == share_weight extrap v rb ro j)%Q).
    { rewrite HW. unfold wsum, share_weight. apply qsum_ext. intros i Hi. destruct (nth_error v i) as [[y|]|]; [|reflexivity|reflexivity]. exact (Sh i Hi). }
    assert (HS' : (S_ == share_sum extrap v rb ro j)%Q).
    { rewrite HS. unfold ssum, share_sum. apply qsum_ext. intros i Hi. destruct (nth_error v i) as [[y|]|]; [|reflexivity|reflexivity]. unfold wq. now rewrite (Sh i Hi). }
    cbn in HC. destruct (Qeq_bool W 0) eqn:E.
    + left. apply Qeq_bool_iff in E. split; [now rewrite <- HW'|exact HC].
    + right. split; [rewrite <- HW'; intro Z; apply Qeq_bool_iff in Z; congruence|]. injection HC as <-. cbn. now rewrite HW', HS'.
Qed.

Theorem C09_cellave1d_extrap : forall vari yib yob conserv extrap nxi nxiy nxo nyi nyo,
  shape vari nxi nyi -> shape yib nxiy (S nyi) -> shape yob nxo (S nyo) ->
  0 < nxiy -> 0 < nxo -> nxo <= nxi ->
  Forall all_valid yib -> Forall all_valid yob ->
  Forall nondecreasing yib -> Forall InterpSpec.increasing yob ->
  exists out, cellave1d vari yib yob conserv extrap = Ok out /\ shape out nxi nyo /\
    rows_ok (cellave_extrap_row conserv extrap) vari yib yob out.
Proof.
  intros vari yib yob conserv extrap nxi nxiy nxo nyi nyo S1 S2 S3 P1 P2 P3 V1 V2 M1 M2.
  destruct (cellave1d_g_correct qops rankq q_lt q_le q_eq q_div0 q_divw vari yib yob conserv extrap nxi nxiy nxo nyi nyo) as (out & E & Hs & HR); auto.
  1:{ eapply Forall_impl; [apply all_valid_rank|exact V1]. } 1:{ eapply Forall_impl; [apply all_valid_rank|exact V2]. }
  1:{ eapply Forall_impl; [apply q_nondecreasing|exact M1]. } 1:{ eapply Forall_impl; [apply q_increasing|exact M2]. }
  exists out. split; [exact E|]. split; [exact Hs|]. intros ix v rb ro r Ev Eb Eo Er.
  rewrite Forall_forall in V1, V2, M1, M2. assert (Ib := nth_error_In _ _ Eb). assert (Io := nth_error_In _ _ Eo). assert (Iv := nth_error_In _ _ Ev).
  apply row_q; auto; [|now apply (HR ix)].
  destruct S1 as [_ S1], S2 as [_ S2]. rewrite Forall_forall in S1, S2. transitivity (S nyi); [exact (S2 rb Ib)|f_equal; symmetry; exact (S1 v Iv)].
Qed.
Print Assumptions C09_cellave1d_extrap.
(** With "no" the shares are the overlaps: the specification of C09_cellave1d *)
Lemma share_no n yb ob j i : share "no" n yb ob j i = overlap (numat yb i) (numat yb (S i)) (numat ob j) (numat ob (S j)).
Proof. reflexivity. Qed.

(** Each mean lies between the extrema of the data whatever the mode; with "both", every output cell has
    a mean as soon as the first and the last data are valid *)
Lemma share_nonneg extrap n yb ob j i : (0 <= share extrap n yb ob j i)%Q.
Proof. apply Q.le_max_l. Qed.
Theorem C09_extrap_mean_bounded : forall vari yib yob extrap nxi nxiy nxo nyi nyo,
  shape vari nxi nyi -> shape yib nxiy (S nyi) -> shape yob nxo (S nyo) ->
  0 < nxiy -> 0 < nxo -> nxo <= nxi ->
  Forall all_valid yib -> Forall all_valid yob ->
  Forall nondecreasing yib -> Forall InterpSpec.increasing yob ->
  exists out, cellave1d vari yib yob false extrap = Ok out /\
    rows_ok (fun v yb ob r => forall lo hi,
      (forall i x, val v i x -> (lo <= x <= hi)%Q) ->
      forall j x, val r j x -> (lo <= x <= hi)%Q) vari yib yob out.
Proof.
  intros vari yib yob extrap nxi nxiy nxo nyi nyo S1 S2 S3 P1 P2 P3 V1 V2 M1 M2.
  destruct (C09_cellave1d_extrap vari yib yob false extrap nxi nxiy nxo nyi nyo) as (out & E & Hs & HR); auto.
  exists out. split; [exact E|]. intros ix v rb ro r Ev Eb Eo Er lo hi Hlh j x Hx.
  destruct (HR ix v rb ro r Ev Eb Eo Er) as [Lr HC].
  assert (Hj : j < List.length r) by (apply nth_error_Some; unfold val in Hx; congruence).
  destruct (HC j ltac:(lia)) as (y & Ey & HY). unfold val in Hx. rewrite Hx in Ey. injection Ey as <-.
  destruct HY as [[_ N]|[N F]]; [discriminate|]. cbn in F.
  assert (W0 : (0 <= share_weight extrap v rb ro j)%Q).
  { unfold share_weight. rewrite <- (qsum_zero (List.length v) (fun _ => 0%Q)) by reflexivity. apply qsum_le. intros i Hi. destruct (nth_error v i) as [[z|]|]; try apply Qle_refl. apply share_nonneg. }
  assert (W1 : (0 < share_weight extrap v rb ro j)%Q).
  { apply Qnot_le_lt. intro L. apply N. now apply Qle_antisym. }
  assert (A : (lo * share_weight extrap v rb ro j <= share_sum extrap v rb ro j)%Q).
  { unfold share_weight, share_sum. rewrite <- qsum_scal. apply qsum_le. intros i Hi. destruct (nth_error v i) as [[z|]|] eqn:Ez; [|rewrite Qmult_0_r; apply Qle_refl|rewrite Qmult_0_r; apply Qle_refl].
    apply Qmult_le_compat_r; [apply (Hlh i z Ez)|apply share_nonneg]. }
  assert (B : (share_sum extrap v rb ro j <= hi * share_weight extrap v rb ro j)%Q).
  { unfold share_weight, share_sum. rewrite <- qsum_scal. apply qsum_le. intros i Hi. destruct (nth_error v i) as [[z|]|] eqn:Ez; [|rewrite Qmult_0_r; apply Qle_refl|rewrite Qmult_0_r; apply Qle_refl].
    apply Qmult_le_compat_r; [apply (Hlh i z Ez)|apply share_nonneg]. }
  rewrite F. split; [apply Qle_shift_div_l|apply Qle_shift_div_r]; auto.
Qed.
Print Assumptions C09_extrap_mean_bounded.

Lemma qsum_pos n f k : (forall i, i < n -> (0 <= f i)%Q) -> k < n -> (0 < f k)%Q -> (0 < qsum n f)%Q.
Proof.
  induction n as [|n IH]; intros H Hk Hf; [lia|]. cbn [qsum]. destruct (Nat.eq_dec k n) as [->|Nk].
  - assert (0 <= qsum n f)%Q; [|lra]. rewrite <- (qsum_zero n (fun _ => 0%Q)) by reflexivity. apply qsum_le. intros i Hi. apply H. lia.
  - assert (0 < qsum n f)%Q by (apply IH; auto; lia). specialize (H n ltac:(lia)). lra.
Qed.
(** No gap: with data everywhere and the mode "both", no output is NaN *)
Theorem C09_extrap_both_total : forall vari yib yob nxi nxiy nxo nyi nyo,
  shape vari nxi nyi -> shape yib nxiy (S nyi) -> shape yob nxo (S nyo) ->
  0 < nxiy -> 0 < nxo -> nxo <= nxi -> 0 < nyi -> Forall all_valid vari ->
  Forall all_valid yib -> Forall all_valid yob ->
  Forall nondecreasing yib -> Forall InterpSpec.increasing yob ->
  exists out, cellave1d vari yib yob false "both" = Ok out /\ shape out nxi nyo /\ Forall all_valid out.
Proof.
  intros vari yib yob nxi nxiy nxo nyi nyo S1 S2 S3 P1 P2 P3 P4 V0 V1 V2 M1 M2.
  destruct (C09_cellave1d_extrap vari yib yob false "both" nxi nxiy nxo nyi nyo) as (out & E & Hs & HR); auto.
  exists out. split; [exact E|]. split; [exact Hs|]. apply Forall_forall. intros r Ir. apply In_nth_error in Ir. destruct Ir as (ix & Er).
  assert (Hix : ix < nxi) by (destruct Hs as [<- _]; apply nth_error_Some; congruence).
  destruct (nth_error vari (ix mod List.length vari)) as [v|] eqn:Ev. 2:{ exfalso. apply nth_error_None in Ev. destruct S1 as [L1 _]. rewrite L1 in Ev. assert (ix mod nxi < nxi) by (apply Nat.mod_upper_bound; lia). lia. }
  destruct (nth_error yib (ix mod List.length yib)) as [rb|] eqn:Eb. 2:{ exfalso. apply nth_error_None in Eb. destruct S2 as [L1 _]. rewrite L1 in Eb. assert (ix mod nxiy < nxiy) by (apply Nat.mod_upper_bound; lia). lia. }
  destruct (nth_error yob (ix mod List.length yob)) as [ro|] eqn:Eo. 2:{ exfalso. apply nth_error_None in Eo. destruct S3 as [L1 _]. rewrite L1 in Eo. assert (ix mod nxo < nxo) by (apply Nat.mod_upper_bound; lia). lia. }
  destruct (HR ix v rb ro r Ev Eb Eo Er) as [Lr HC].
  rewrite Forall_forall in V0, V1, V2, M1, M2. assert (Ib := nth_error_In _ _ Eb). assert (Io := nth_error_In _ _ Eo). assert (Iv := nth_error_In _ _ Ev).
  assert (Lv : List.length v = nyi) by (destruct S1 as [_ S1]; rewrite Forall_forall in S1; now apply S1).
  assert (Lb : List.length rb = S nyi) by (destruct S2 as [_ S2]; rewrite Forall_forall in S2; now apply S2).
  intros j Hj. destruct (HC j ltac:(lia)) as (x & Ex & [[Z _]|[_ F]]).
  2:{ destruct x as [x|]; [|contradiction]. now exists x. }
  exfalso. assert (Lo : (numat ro j < numat ro (S j))%Q) by (apply (M2 ro Io j (S j)); [lia|apply num_val; auto; lia|apply num_val; auto; lia]).
  (* a cell with a positive share *)
  assert (Hk : exists k, k < nyi /\ (0 < share "both" nyi rb ro j k)%Q).
  { assert (G : forall m, m < nyi -> (exists k, k <= m /\ (0 < share "both" nyi rb ro j k)%Q) \/ (S m < nyi /\ (numat rb (S m) <= numat ro j)%Q)).
    { assert (Q1 : forall a b, (a < b)%Q -> (0 < Qmax 0 (b - a))%Q). { intros a b L. eapply Qlt_le_trans; [|apply Q.le_max_r]. lra. }
      induction m as [|m IH]; intro Hm.
      - destruct (Nat.eq_dec nyi 1) as [E1|N1].
        + left. exists 0. split; [lia|]. unfold share. subst nyi. rewrite E1. cbn. now apply Q1.
        + destruct (Qlt_le_dec (numat ro j) (numat rb 1)) as [L|L]; [left|right; split; [lia|exact L]].
          exists 0. split; [lia|]. unfold share. replace (1 =? nyi) with false by (symmetry; apply Nat.eqb_neq; lia). cbn. apply Q1. now apply Q.min_glb_lt.
      - destruct (IH ltac:(lia)) as [(k & Hk & Sk)|[_ L]]; [left; exists k; split; [lia|exact Sk]|].
        destruct (Nat.eq_dec nyi (S (S m))) as [E1|N1].
        + left. exists (S m). split; [lia|]. unfold share. rewrite E1, Nat.eqb_refl. cbn [open_above open_below Nat.eqb andb]. cbn. apply Q1. rewrite Q.max_r by exact L. exact Lo.
        + destruct (Qlt_le_dec (numat ro j) (numat rb (S (S m)))) as [L'|L']; [left|right; split; [lia|exact L']].
          exists (S m). split; [lia|]. unfold share. replace (S (S m) =? nyi) with false by (symmetry; apply Nat.eqb_neq; lia). cbn. apply Q1. rewrite Q.max_r by exact L. now apply Q.min_glb_lt. }
    destruct (G (nyi - 1) ltac:(lia)) as [(k & Hk & Sk)|[X _]]; [|lia]. exists k. split; [lia|exact Sk]. }
  destruct Hk as (k & Hk & Sk). assert (P : (0 < share_weight "both" v rb ro j)%Q); [|lra].
  unfold share_weight. rewrite Lv. apply (qsum_pos nyi _ k); auto.
  - intros i Hi. destruct (nth_error v i) as [[z|]|]; try apply Qle_refl. apply share_nonneg.
  - destruct (V0 v Iv k ltac:(lia)) as (z & Ez). unfold val in Ez. now rewrite Ez.
Qed.
Print Assumptions C09_extrap_both_total.
Local Notation "! q" := (Some q%Q) (at level 10, q at level 9).
Example C09_extrap_ex :
  exists out, cellave1d [[!4; !8; !2]] ex_b ex_ob false "both" = Ok out /\ Forall2 feql out [[!(24#5); !(20#7); !2]].
Proof. eexists. split; [vm_compute; reflexivity|].
  repeat (apply Forall2_cons || apply Forall2_nil || split); vm_compute; reflexivity || exact I. Qed.
