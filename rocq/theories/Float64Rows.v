(** linear1d and nearest1d in binary64: rows and arrays. *)
From Verif Require Export Float64Lin.
From Coq Require Import Reals Lra Psatz.
Open Scope R_scope.

Lemma pow64 k : powerRZ 2 k = bpow radix2 k.
Proof. symmetry. apply (bpow_powerRZ radix2 k). Qed.
Lemma rank_real : rank64 = real64.
Proof. reflexivity. Qed.
Lemma within_good k x : within k x -> good64 x.
Proof.
  intros [-> |(r & Hr & _)]; [now right|]. left. unfold real64 in Hr. destruct (is_finite x); auto. discriminate.
Qed.
Lemma not_infinite_good x : not_infinite x <-> good64 x.
Proof.
  split.
  - intros [-> |(r & Hr)]; [now right|]. left. unfold real64 in Hr. destruct (is_finite x); auto. discriminate.
  - intros [F| ->]; [|now left]. right. unfold real64. rewrite F. eauto.
Qed.
Lemma Forall_good k l : Forall (within k) l -> Forall good64 l.
Proof. apply Forall_impl. intros x. apply within_good. Qed.
(** What a valid element of a bounded row is *)
Lemma within_val k l i x : Forall (within k) l -> gval real64 l i x ->
  exists t, gyat ops64 l i = t /\ is_finite t = true /\ B2R t = x /\ Rabs x <= bpow radix2 k.
Proof.
  intros W (t & E & R). exists t. split; [unfold gyat; now apply nth_error_nth|].
  unfold real64 in R. destruct (is_finite t) eqn:F; [|discriminate]. injection R as <-. split; auto. split; auto.
  rewrite Forall_forall in W. apply nth_error_In in E. destruct (W t E) as [-> |(r & Hr & B)]; [discriminate|].
  unfold real64 in Hr. rewrite F in Hr. injection Hr as <-. now rewrite <- pow64.
Qed.
Lemma good_invalid l i : Forall good64 l -> ~ gvalid real64 l i -> gyat ops64 l i = B754_nan.
Proof.
  intros G N. unfold gyat. destruct (nth_error l i) as [t|] eqn:E.
  - rewrite (nth_error_nth _ _ _ E). rewrite Forall_forall in G. destruct (G t) as [F| ->]; auto; [eapply nth_error_In; eauto|].
    exfalso. apply N. exists (B2R t), t. split; auto. now apply rank_finite.
  - apply nth_error_None in E. now apply nth_overflow.
Qed.

Definition row_best := glinear_row_best ops64 rank64 good64 eq_refl eq_refl L64_isnan L64_lt L64_sub_lt L64_sub_ge (or_intror eq_refl) L64_div.
Definition nrow_best := gnearest_row_best ops64 rank64 good64 eq_refl eq_refl L64_isnan L64_lt L64_sub_lt L64_sub_ge (or_intror eq_refl) L64_div.
Definition prow_best := gpoly_row_best ops64 rank64 good64 eq_refl eq_refl L64_isnan L64_lt L64_sub_lt L64_sub_ge (or_intror eq_refl) L64_div.
Definition best_cell := gbest_cell ops64 rank64 good64 eq_refl L64_sub_ge (or_intror eq_refl).
Definition best_out := gbest_out ops64 rank64 good64 eq_refl L64_sub_ge (or_intror eq_refl).
Definition upper_cell := gupper_cell ops64 rank64 good64 eq_refl L64_sub_ge (or_intror eq_refl).

Lemma linear64_row_ok v yi yo :
  Forall (within 500) v -> Forall (within 500) yi -> Forall (within 500) yo ->
  gincreasing real64 yi -> gnondecreasing real64 yo -> List.length v = List.length yi -> (0 < List.length yo)%nat ->
  exists out, linear_row_g ops64 v yi yo (List.repeat B754_nan (List.length yo)) = Ok out /\ linear64_row v yi yo out.
Proof.
  intros Wv Wyi Wyo Hinc Hnd Hl Hpos.
  assert (Gyi := Forall_good _ _ Wyi). assert (Gyo := Forall_good _ _ Wyo).
  destruct (row_best v yi yo Gyi Gyo Hinc Hnd Hl Hpos) as (out & E & L & O).
  exists out. split; [exact E|]. split; [exact L|]. split; [|split].
  - intros j y i a b p q Hy Ha Hb Hle Hn Hp Hq.
    assert (Hj : (j < List.length yo)%nat) by (eapply (val_glt ops64 rank64); exact Hy).
    assert (Hc : gin_cell rank64 yi i y) by (exists a, b; auto).
    assert (Hab : a < b) by (apply (Hinc i (S i)); auto).
    specialize (O j Hj). rewrite (best_cell (glinW ops64 v yi yo) yi yo i j y Gyi Gyo Hinc Hy Hc Hn) in O.
    destruct (within_val _ _ _ _ Wv Hp) as (tp & Tp & Fp & Vp & Bp). destruct (within_val _ _ _ _ Wv Hq) as (tq & Tq & Fq & Vq & Bq).
    destruct (within_val _ _ _ _ Wyi Ha) as (ta & Ta & Fa & Va & Ba). destruct (within_val _ _ _ _ Wyi Hb) as (tb & Tb & Fb & Vb & Bb).
    destruct (within_val _ _ _ _ Wyo Hy) as (ty & Ty & Fy & Vy & By).
    unfold glinW in O. rewrite Tp, Tq, Ta, Tb, Ty in O. subst p q a b y.
    destruct (glin64 tp tq ta ty tb) as [FF BB]; auto.
    exists (B2R (glin ops64 tp tq ta ty tb)). split.
    + exists (glin ops64 tp tq ta ty tb). split; auto. now apply rank_finite.
    + unfold lin_err. rewrite !pow64. exact BB.
  - intros j y i Hy Hc Hn Hno.
    assert (Hj : (j < List.length yo)%nat) by (eapply (val_glt ops64 rank64); exact Hy).
    specialize (O j Hj). rewrite (best_cell (glinW ops64 v yi yo) yi yo i j y Gyi Gyo Hinc Hy Hc Hn) in O.
    unfold nan_at. refine (eq_trans O _). f_equal. unfold glinW. apply glin64_nan.
    assert (Gv := Forall_good _ _ Wv).
    destruct (L64_isnan (gyat ops64 v i)) as [I1 I2]; [apply good_yat; auto; now right|].
    destruct (rank64 (gyat ops64 v i)) as [r|] eqn:Er.
    + right. apply good_invalid; auto. intro V2. apply Hno. split; auto. exists r. now apply (rank_yat ops64 rank64 eq_refl).
    + left. apply good_invalid; auto. intros [r Hr]. apply (rank_yat ops64 rank64 eq_refl) in Hr. congruence.
  - intros j Hj Hno. unfold nan_at. refine (eq_trans (O j Hj) _). f_equal. apply best_out; auto.
Qed.

Lemma Forall_row {A} (P : A -> Prop) l i x : Forall P l -> nth_error l i = Some x -> P x.
Proof. intros F E. rewrite Forall_forall in F. apply F. eapply nth_error_In; eauto. Qed.
Lemma kernel_rows (rowf : list f64 -> list f64 -> list f64 -> list f64 -> res (list f64)) (SPEC : list f64 -> list f64 -> list f64 -> list f64 -> Prop)
    vari yi yo nxi nxiy nxo nyi nyo :
  gshape vari nxi nyi -> gshape yi nxiy nyi -> gshape yo nxo nyo -> (0 < nxi)%nat -> (0 < nxiy)%nat -> (0 < nxo)%nat ->
  (forall v ryi ryo, In v vari -> In ryi yi -> In ryo yo -> exists r, rowf v ryi ryo (List.repeat B754_nan (List.length ryo)) = Ok r /\ List.length r = List.length ryo /\ SPEC v ryi ryo r) ->
  exists out, rows_kernel_g ops64 (fun _ ixi ryi ryo ro => let* v := pyget vari ixi in rowf v ryi ryo ro) vari yi yo (seq_order_g ops64 vari yo) = Ok out /\
    gshape out (Nat.max nxi nxo) nyo /\ grows_ok SPEC vari yi yo out.
Proof.
  intros S1 S2 S3 P1 P2 P3 H.
  destruct (grows_kernel_ok ops64 (fun _ ixi ryi ryo ro => let* v := pyget vari ixi in rowf v ryi ryo ro) vari yi yo nxi nxiy nxo nyi nyo
     (fun ix r => forall v ryi ryo, nth_error vari (ix mod nxi) = Some v -> nth_error yi (ix mod nxiy) = Some ryi -> nth_error yo (ix mod nxo) = Some ryo -> SPEC v ryi ryo r) S1 S2 S3 P1 P2 P3) as (out & E & Sh & HP).
  - intros ix ryi ryo Hix Eyi Eyo.
    assert (Hm : (ix mod nxi < nxi)%nat) by (apply Nat.mod_upper_bound; lia).
    destruct (gshape_get ops64 _ _ _ _ S1 Hm) as (v & Ev).
    destruct (H v ryi ryo) as (r & Er & Lr & Sr); try (eapply nth_error_In; eauto).
    assert (LY : List.length ryo = nyo) by exact (gshape_row ops64 _ _ _ _ _ S3 Eyo). change (fnum ops64) with f64 in *. rewrite LY in Er, Lr.
    exists r. rewrite (pyget_nat vari (ix mod nxi) v Ev). cbn [bind]. split; [exact Er|]. split; [exact Lr|].
    intros v' ryi' ryo' Ev' Eyi' Eyo'. assert (v' = v) by congruence. assert (ryi' = ryi) by congruence. assert (ryo' = ryo) by congruence. now subst.
  - exists out. split; [exact E|]. split; [exact Sh|].
    intros ix v ryi ryo r A B C D. destruct S1 as [L1 _], S2 as [L2 _], S3 as [L3 _]. rewrite L1 in A. rewrite L2 in B. rewrite L3 in C.
    now apply (HP ix r D).
Qed.

(** nearest *)
Lemma near64 (a y b : f64) : is_finite a = true -> is_finite y = true -> is_finite b = true ->
  Rabs (B2R a) <= bpow radix2 1022 -> Rabs (B2R b) <= bpow radix2 1022 -> B2R a <= B2R y <= B2R b ->
  (Bleb (sub64 y a) (sub64 b y) = true -> B2R y - B2R a <= (1 + bpow radix2 (-51)) * (B2R b - B2R y)) /\
  (Bleb (sub64 y a) (sub64 b y) = false -> B2R b - B2R y < B2R y - B2R a).
Proof.
  intros Fa Fy Fb Ba Bb Hy.
  assert (K1 := bp3 1022 1023 eq_refl). assert (Pk := bpow_gt_0 radix2 1022).
  apply Rabs_le_iff in Ba, Bb.
  destruct (sub_ok y a 1023) as [F0 V0]; auto; try lia.
  { rewrite K1. apply Rabs_le_iff. lra. }
  destruct (sub_ok b y 1023) as [F1 V1]; auto; try lia.
  { rewrite K1. apply Rabs_le_iff. lra. }
  rewrite (Bleb_correct 53 1024 _ _ F0 F1), V0, V1. split; intro H.
  - destruct (Rle_bool_spec (RN (B2R y - B2R a)) (RN (B2R b - B2R y))) as [L|]; [|discriminate].
    destruct (RN_sub_err (B2R y) (B2R a) (format64 _) (format64 _)) as (e0 & E0 & X0).
    destruct (RN_sub_err (B2R b) (B2R y) (format64 _) (format64 _)) as (e1 & E1 & X1). rewrite X0, X1 in L.
    assert (Us := u64_small). assert (Up := u64_pos). apply Rabs_le_iff in E0, E1.
    assert (U4 : bpow radix2 (-51) = 4 * u64) by (rewrite (bp3 (-52) (-51) eq_refl), (bp3 (-53) (-52) eq_refl); unfold u64; ring).
    rewrite U4. set (D0 := B2R y - B2R a) in *. set (D1 := B2R b - B2R y) in *.
    assert (0 <= D0) by (unfold D0; lra). assert (0 <= D1) by (unfold D1; lra).
    assert (Q0 : D0 * (1 - u64) <= D0 * (1 + e0)) by (apply Rmult_le_compat_l; lra).
    assert (Q1 : D1 * (1 + e1) <= D1 * (1 + u64)) by (apply Rmult_le_compat_l; lra).
    assert (Q2 : D1 * (1 + u64) <= D1 * ((1 + 4 * u64) * (1 - u64))) by (apply Rmult_le_compat_l; auto; nra).
    apply Rmult_le_reg_r with (1 - u64); [lra|]. lra.
  - destruct (Rle_bool_spec (RN (B2R y - B2R a)) (RN (B2R b - B2R y))) as [|L]; [discriminate|].
    destruct (Rlt_le_dec (B2R b - B2R y) (B2R y - B2R a)) as [|G]; auto. apply RN_le in G. lra.
Qed.
Lemma nearest64_row_ok v yi yo :
  Forall (within 1022) yi -> Forall (within 1022) yo ->
  gincreasing real64 yi -> gnondecreasing real64 yo -> gno_hole real64 yi -> gno_hole real64 yo ->
  List.length v = List.length yi -> (exists k, gvalid real64 yo k) ->
  exists out, nearest_row_g ops64 v yi yo (List.repeat B754_nan (List.length yo)) = Ok out /\ nearest64_row v yi yo out.
Proof.
  intros Wyi Wyo Hinc Hnd Nyi Nyo Hl Hv.
  assert (Gyi := Forall_good _ _ Wyi). assert (Gyo := Forall_good _ _ Wyo).
  destruct (nrow_best v yi yo Gyi Gyo Hinc Hnd Nyi Nyo Hl Hv) as (out & E & L & O).
  exists out. split; [exact E|]. split; [exact L|]. split.
  - intros j y Hy [i0 Hi0].
    assert (Hj : (j < List.length yo)%nat) by (eapply (val_glt ops64 rank64); exact Hy).
    destruct (upper_cell yi yo j i0 y Gyi Gyo Hinc Hy Hi0) as (i & Hc & Hn).
    specialize (O j Hj). rewrite (best_cell (gnearW ops64 v yi yo) yi yo i j y Gyi Gyo Hinc Hy Hc Hn) in O.
    destruct Hc as (a & b & Ha & Hb & Hle).
    assert (Hab : a < b) by (apply (Hinc i (S i)); auto).
    destruct (within_val _ _ _ _ Wyi Ha) as (ta & Ta & Fa & Va & Ba). destruct (within_val _ _ _ _ Wyi Hb) as (tb & Tb & Fb & Vb & Bb).
    destruct (within_val _ _ _ _ Wyo Hy) as (ty & Ty & Fy & Vy & By).
    assert (Li : (S i < List.length yi)%nat) by (eapply (val_glt ops64 rank64); exact Hb).
    unfold gnearW, gnear in O. rewrite Ta, Tb, Ty in O. cbn [n_leb n_sub ops64] in O.
    subst a b y.
    destruct (near64 ta ty tb Fa Fy Fb Ba Bb Hle) as [N1 N2].
    assert (P51 := bpow_gt_0 radix2 (-51)).
    assert (LOW : forall k' c', (k' < i)%nat -> gval real64 yi k' c' -> c' < B2R ta) by (intros k' c' Hk Hc'; apply (Hinc k' i); auto).
    assert (HIGH : forall k' c', (S i < k')%nat -> gval real64 yi k' c' -> B2R tb < c') by (intros k' c' Hk Hc'; apply (Hinc (S i) k'); auto).
    destruct (Bleb (sub64 ty ta) (sub64 tb ty)).
    + specialize (N1 eq_refl). clear N2. exists i. split; [|refine (eq_trans O _); symmetry; apply (nth_error_gyat ops64); lia].
      exists (B2R ta). split; auto. rewrite (Rabs_pos_eq (B2R ty - B2R ta)) by lra. split.
      * intros k' c' Hc'. rewrite pow64. destruct (lt_eq_lt_dec k' i) as [[K|K]|K].
        -- specialize (LOW k' c' K Hc'). rewrite Rabs_pos_eq by lra. nra.
        -- subst k'. rewrite <- (val_gfun ops64 rank64 _ _ _ _ Ha Hc'). rewrite Rabs_pos_eq by lra. nra.
        -- assert (B2R tb <= c'). { destruct (Nat.eq_dec k' (S i)) as [-> |]; [rewrite <- (val_gfun ops64 rank64 _ _ _ _ Hb Hc'); lra|]. apply Rlt_le, (HIGH k'); auto; lia. }
           rewrite Rabs_left1 by lra. nra.
      * intros k' c' Hk Hc'. specialize (LOW k' c' Hk Hc'). rewrite Rabs_pos_eq by lra. lra.
    + specialize (N2 eq_refl). clear N1. exists (S i). split; [|refine (eq_trans O _); symmetry; apply (nth_error_gyat ops64); lia].
      exists (B2R tb). split; auto. rewrite (Rabs_left1 (B2R ty - B2R tb)) by lra.
      assert (LOW2 : forall k' c', (k' < S i)%nat -> gval real64 yi k' c' -> c' <= B2R ta).
      { intros k' c' Hk Hc'. destruct (Nat.eq_dec k' i) as [-> |]; [rewrite <- (val_gfun ops64 rank64 _ _ _ _ Ha Hc'); lra|]. apply Rlt_le, (LOW k'); auto; lia. }
      split.
      * intros k' c' Hc'. rewrite pow64. destruct (lt_eq_lt_dec k' (S i)) as [[K|K]|K].
        -- specialize (LOW2 k' c' K Hc'). rewrite Rabs_pos_eq by lra. nra.
        -- subst k'. rewrite <- (val_gfun ops64 rank64 _ _ _ _ Hb Hc'). rewrite Rabs_left1 by lra. nra.
        -- specialize (HIGH k' c' K Hc'). rewrite Rabs_left1 by lra. nra.
      * intros k' c' Hk Hc'. specialize (LOW2 k' c' Hk Hc'). rewrite Rabs_pos_eq by lra. lra.
  - intros j Hj Hno. unfold nan_at. refine (eq_trans (O j Hj) _). f_equal. apply best_out; auto.
Qed.
