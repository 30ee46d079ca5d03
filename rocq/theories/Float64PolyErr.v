(** Rounding errors of cubic1d and hermit1d. *)
From Verif Require Export Float64App.
From Coq Require Import Reals Lra Psatz.
Open Scope R_scope.

Lemma mul64_comm (x y : f64) : mul64 x y = mul64 y x.
Proof.
  unfold mul64, Bmult. destruct x as [sx|sx| |sx mx ex Hx], y as [sy|sy| |sy my ey Hy]; try reflexivity; try (now rewrite xorb_comm).
  apply B2SF_inj. rewrite !B2SF_SF2B. now rewrite xorb_comm, Pos.mul_comm, Z.add_comm.
Qed.
Lemma app_mul_r M x y r s a b k l c m : scale M -> app M y s b l -> app 1 x r a k ->
  0 <= a <= 1000 -> 0 <= b <= 1000 -> 0 <= k <= 100000 -> 0 <= l <= 100000 -> a * b <= c ->
  k * b + a * l + a * b + (2 * (k * l) + k * b + a * l + 1) * tiny <= m -> app M (mul64 y x) (s * r) c m.
Proof. intros. rewrite mul64_comm, (Rmult_comm s). eapply app_mul; eauto. Qed.
Ltac side := unfold tiny; lra.

Lemma app_int x z a : isint x z -> Rabs (IZR z) <= a -> app 1 x (IZR z) a 0.
Proof. intros [F V] H. rewrite <- V. apply app_exact; auto using scale_1. rewrite V. lra. Qed.
Lemma A1 : app 1 (const64 1) 1 1 0.
Proof. apply (app_int _ 1 1 Float64Poly.c1). rewrite Rabs_pos_eq; lra. Qed.
Lemma A2 : app 1 (const64 2) 2 2 0.
Proof. apply (app_int _ 2 2 Float64Poly.c2). rewrite Rabs_pos_eq; lra. Qed.
Lemma A3 : app 1 (const64 3) 3 3 0.
Proof. apply (app_int _ 3 3 Float64Poly.c3). rewrite Rabs_pos_eq; lra. Qed.
Lemma Am2 : app 1 (const64 (-2)) (-2) 2 0.
Proof. apply (app_int _ (-2) 2 Float64Poly.cm2). rewrite Rabs_left1; lra. Qed.
Lemma Ahalf : app 1 (const64 (1 # 2)) (1 / 2) (1 / 2) 0.
Proof.
  destruct (const_val (const64 (1 # 2)) false 4503599627370496 (-53) eq_refl) as [F V].
  assert (E : B2R (const64 (1 # 2)) = 1 / 2) by (rewrite V; unfold F2R; cbn; lra).
  rewrite <- E at 1. apply app_exact; auto using scale_1. rewrite E, Rabs_pos_eq; lra.
Qed.

Section Polys.
  Variable M : R.
  Hypothesis SM : scale M.
  Variables (mu c0 v0 v1 c1 : f64) (m l p q r : R).
  Hypotheses (Hmu : app 1 mu m 1 5) (H0 : app M c0 l 3 6) (Hp : app M v0 p 1 0) (Hq : app M v1 q 1 0) (H1 : app M c1 r 3 6).
  Lemma mu2 : app 1 (mul64 mu mu) (m * m) 1 (11 + / 10).
  Proof. eapply app_mul; [apply scale_1|exact Hmu|exact Hmu|..]; side. Qed.
  Lemma mu3 : app 1 (mul64 mu (mul64 mu mu)) (m * (m * m)) 1 (17 + / 5).
  Proof. eapply app_mul; [apply scale_1|exact Hmu|exact mu2|..]; side. Qed.
  Lemma cubic_app : app M (cubic_formula_g ops64 mu c0 v0 v1 c1) (cubic_poly l p q r m) 25 512.
  Proof.
    assert (M2 := mu2). assert (M3 := mu3).
    assert (T1 : app M (sub64 c1 v1) (r - q) 4 (10 + / 10)) by (eapply app_sub; [exact SM|exact H1|exact Hq|..]; side).
    assert (T2 : app M (sub64 (sub64 c1 v1) c0) (r - q - l) 7 (23 + / 5)) by (eapply app_sub; [exact SM|exact T1|exact H0|..]; side).
    assert (T : app M (add64 (sub64 (sub64 c1 v1) c0) v0) (r - q - l + p) 8 (31 + / 2)) by (eapply app_add; [exact SM|exact T2|exact Hp|..]; side).
    assert (U1 : app M (sub64 c0 v0) (l - p) 4 (10 + / 10)) by (eapply app_sub; [exact SM|exact H0|exact Hp|..]; side).
    assert (U : app M (sub64 (sub64 c0 v0) (add64 (sub64 (sub64 c1 v1) c0) v0)) (l - p - (r - q - l + p)) 12 54) by (eapply app_sub; [exact SM|exact U1|exact T|..]; side).
    assert (W : app M (sub64 v1 c0) (q - l) 4 (10 + / 10)) by (eapply app_sub; [exact SM|exact Hq|exact H0|..]; side).
    unfold cubic_formula_g, fcub_g, fsq_g. cbn [n_add n_sub n_mul ops64].
    set (t := add64 (sub64 (sub64 c1 v1) c0) v0) in *.
    assert (PA : app M (mul64 (mul64 mu (mul64 mu mu)) t) (m * (m * m) * (r - q - l + p)) 8 180) by (eapply app_mul; [exact SM|exact M3|exact T|..]; side).
    assert (PB : app M (mul64 (mul64 mu mu) (sub64 (sub64 c0 v0) t)) (m * m * (l - p - (r - q - l + p))) 12 200) by (eapply app_mul; [exact SM|exact M2|exact U|..]; side).
    assert (PC : app M (mul64 mu (sub64 v1 c0)) (m * (q - l)) 4 35) by (eapply app_mul; [exact SM|exact Hmu|exact W|..]; side).
    assert (S1 := app_add M _ _ _ _ _ _ _ _ 20 401 SM PA PB ltac:(lra) ltac:(lra) ltac:(lra) ltac:(lra) ltac:(lra) ltac:(side)).
    assert (S2 := app_add M _ _ _ _ _ _ _ _ 24 461 SM S1 PC ltac:(lra) ltac:(lra) ltac:(lra) ltac:(lra) ltac:(lra) ltac:(side)).
    assert (S3 := app_add M _ _ _ _ _ _ _ _ 25 512 SM S2 Hp ltac:(lra) ltac:(lra) ltac:(lra) ltac:(lra) ltac:(lra) ltac:(side)).
    replace (cubic_poly l p q r m) with (m * (m * m) * (r - q - l + p) + m * m * (l - p - (r - q - l + p)) + m * (q - l) + p) by (unfold cubic_poly; ring).
    exact S3.
  Qed.
  Variables (bias tension : f64) (bi te : R).
  Hypotheses (Hb : app 1 bias bi 1 0) (Ht : app 1 tension te 1 0).
  Lemma hermit_app : app M (hermit_formula_g ops64 bias tension mu c0 v0 v1 c1) (hermite_poly bi te l p q r m) 83 4096.
  Proof.
    assert (M2 := mu2). assert (M3 := mu3). assert (K1 := A1). assert (K2 := A2). assert (K3 := A3). assert (Km := Am2). assert (Kh := Ahalf). assert (S1_ := scale_1).
    unfold hermit_formula_g, fcub_g, fsq_g, fc_g. cbn [n_add n_sub n_mul n_const ops64].
    set (o1 := const64 1) in *. set (o2 := const64 2) in *. set (o3 := const64 3) in *. set (om := const64 (-2)) in *. set (oh := const64 (1 # 2)) in *.
    set (m2 := mul64 mu mu) in *. set (m3 := mul64 mu m2) in *.
    assert (B1 : app 1 (add64 o1 bias) (1 + bi) 2 2) by (eapply app_add; [exact S1_|exact K1|exact Hb|..]; side).
    assert (B2 : app 1 (sub64 o1 bias) (1 - bi) 2 2) by (eapply app_sub; [exact S1_|exact K1|exact Hb|..]; side).
    assert (B3 : app 1 (sub64 o1 tension) (1 - te) 2 2) by (eapply app_sub; [exact S1_|exact K1|exact Ht|..]; side).
    assert (WP : app 1 (mul64 (add64 o1 bias) (sub64 o1 tension)) ((1 + bi) * (1 - te)) 4 (12 + / 10)) by (eapply app_mul; [exact S1_|exact B1|exact B3|..]; side).
    assert (WM : app 1 (mul64 (sub64 o1 bias) (sub64 o1 tension)) ((1 - bi) * (1 - te)) 4 (12 + / 10)) by (eapply app_mul; [exact S1_|exact B2|exact B3|..]; side).
    set (wp := mul64 (add64 o1 bias) (sub64 o1 tension)) in *. set (wm := mul64 (sub64 o1 bias) (sub64 o1 tension)) in *.
    set (Wp := (1 + bi) * (1 - te)) in *. set (Wm := (1 - bi) * (1 - te)) in *.
    assert (D1 : app M (sub64 v0 c0) (p - l) 4 (10 + / 10)) by (eapply app_sub; [exact SM|exact Hp|exact H0|..]; side).
    assert (D2 : app M (sub64 v1 v0) (q - p) 2 2) by (eapply app_sub; [exact SM|exact Hq|exact Hp|..]; side).
    assert (D3 : app M (sub64 c1 v1) (r - q) 4 (10 + / 10)) by (eapply app_sub; [exact SM|exact H1|exact Hq|..]; side).
    assert (HB : forall x z w W, app M x z 4 (10 + / 10) -> app 1 w W 4 (12 + / 10) -> app M (mul64 (mul64 x w) oh) (z * W * (1 / 2)) 8 64).
    { intros x z w W Hx Hw. assert (X : app M (mul64 x w) (z * W) 16 (105 + 1)) by (eapply app_mul_r; [exact SM|exact Hx|exact Hw|..]; side).
      eapply app_mul_r; [exact SM|exact X|exact Kh|..]; side. }
    assert (HS : forall x z w W, app M x z 2 2 -> app 1 w W 4 (12 + / 10) -> app M (mul64 (mul64 x w) oh) (z * W * (1 / 2)) 4 26).
    { intros x z w W Hx Hw. assert (X : app M (mul64 x w) (z * W) 8 (41)) by (eapply app_mul_r; [exact SM|exact Hx|exact Hw|..]; side).
      eapply app_mul_r; [exact SM|exact X|exact Kh|..]; side. }
    assert (G1 := HB _ _ _ _ D1 WP). assert (G2 := HS _ _ _ _ D2 WM). assert (G3 := HS _ _ _ _ D2 WP). assert (G4 := HB _ _ _ _ D3 WM).
    assert (E1 := app_add M _ _ _ _ _ _ _ _ 12 103 SM G1 G2 ltac:(lra) ltac:(lra) ltac:(lra) ltac:(lra) ltac:(lra) ltac:(side)).
    assert (E2 := app_add M _ _ _ _ _ _ _ _ 12 103 SM G3 G4 ltac:(lra) ltac:(lra) ltac:(lra) ltac:(lra) ltac:(lra) ltac:(side)).
    (* the weights *)
    assert (P2 : app 1 (mul64 o2 m3) (2 * (m * (m * m))) 2 37) by (eapply app_mul; [exact S1_|exact K2|exact M3|..]; side).
    assert (P2b : app 1 (mul64 o2 m2) (2 * (m * m)) 2 25) by (eapply app_mul; [exact S1_|exact K2|exact M2|..]; side).
    assert (P3 : app 1 (mul64 o3 m2) (3 * (m * m)) 3 37) by (eapply app_mul; [exact S1_|exact K3|exact M2|..]; side).
    assert (Pm : app 1 (mul64 om m3) (-2 * (m * (m * m))) 2 37) by (eapply app_mul; [exact S1_|exact Km|exact M3|..]; side).
    assert (Q0 := app_sub 1 _ _ _ _ _ _ _ _ 5 80 S1_ P2 P3 ltac:(lra) ltac:(lra) ltac:(lra) ltac:(lra) ltac:(lra) ltac:(side)).
    assert (a0 := app_add 1 _ _ _ _ _ _ _ _ 6 87 S1_ Q0 K1 ltac:(lra) ltac:(lra) ltac:(lra) ltac:(lra) ltac:(lra) ltac:(side)).
    assert (Q1 := app_sub 1 _ _ _ _ _ _ _ _ 3 46 S1_ M3 P2b ltac:(lra) ltac:(lra) ltac:(lra) ltac:(lra) ltac:(lra) ltac:(side)).
    assert (a1 := app_add 1 _ _ _ _ _ _ _ _ 4 56 S1_ Q1 Hmu ltac:(lra) ltac:(lra) ltac:(lra) ltac:(lra) ltac:(lra) ltac:(side)).
    assert (a2 := app_sub 1 _ _ _ _ _ _ _ _ 2 31 S1_ M3 M2 ltac:(lra) ltac:(lra) ltac:(lra) ltac:(lra) ltac:(lra) ltac:(side)).
    assert (a3 := app_add 1 _ _ _ _ _ _ _ _ 5 80 S1_ Pm P3 ltac:(lra) ltac:(lra) ltac:(lra) ltac:(lra) ltac:(lra) ltac:(side)).
    assert (R0 := app_mul M _ _ _ _ _ _ _ _ 6 94 SM a0 Hp ltac:(lra) ltac:(lra) ltac:(lra) ltac:(lra) ltac:(lra) ltac:(side)).
    assert (R1 := app_mul M _ _ _ _ _ _ _ _ 48 1140 SM a1 E1 ltac:(lra) ltac:(lra) ltac:(lra) ltac:(lra) ltac:(lra) ltac:(side)).
    assert (R2 := app_mul M _ _ _ _ _ _ _ _ 24 610 SM a2 E2 ltac:(lra) ltac:(lra) ltac:(lra) ltac:(lra) ltac:(lra) ltac:(side)).
    assert (R3 := app_mul M _ _ _ _ _ _ _ _ 5 86 SM a3 Hq ltac:(lra) ltac:(lra) ltac:(lra) ltac:(lra) ltac:(lra) ltac:(side)).
    assert (Z1 := app_add M _ _ _ _ _ _ _ _ 54 1300 SM R0 R1 ltac:(lra) ltac:(lra) ltac:(lra) ltac:(lra) ltac:(lra) ltac:(side)).
    assert (Z2 := app_add M _ _ _ _ _ _ _ _ 78 2000 SM Z1 R2 ltac:(lra) ltac:(lra) ltac:(lra) ltac:(lra) ltac:(lra) ltac:(side)).
    assert (Z3 := app_add M _ _ _ _ _ _ _ _ 83 4096 SM Z2 R3 ltac:(lra) ltac:(lra) ltac:(lra) ltac:(lra) ltac:(lra) ltac:(side)).
    match type of Z3 with app _ _ ?rr _ _ => replace (hermite_poly bi te l p q r m) with rr by (unfold hermite_poly, Wp, Wm; field) end.
    exact Z3.
  Qed.
End Polys.

Definition poly_app (poly : f64 -> f64 -> f64 -> f64 -> f64 -> f64) (P : R -> R -> R -> R -> R -> R) (K : R) : Prop :=
  forall M mu c0 v0 v1 c1 m l p q r, scale M -> app 1 mu m 1 5 -> app M c0 l 3 6 -> app M v0 p 1 0 -> app M v1 q 1 0 -> app M c1 r 3 6 ->
  exists a, app M (poly mu c0 v0 v1 c1) (P l p q r m) a K.

Lemma outer_app M x y p q : scale M -> app M x p 1 0 -> app M y q 1 0 -> app M (sub64 (mul64 (const64 2) x) y) (2 * p - q) 3 6.
Proof.
  intros S Hx Hy. assert (T : app M (mul64 (const64 2) x) (2 * p) 2 (2 + / 10)) by (eapply app_mul; [exact S|exact A2|exact Hx|..]; side).
  eapply app_sub; [exact S|exact T|exact Hy|..]; side.
Qed.

Lemma poly64_err_ok poly P K vari ix v yi yo out : poly_app poly P K -> 0 <= K ->
  Forall (within 900) v -> row_valid v -> Forall (within 1000) yi -> Forall (within 1000) yo ->
  gincreasing real64 yi -> gincreasing real64 yo -> pyget vari ix = Ok v -> List.length v = List.length yi -> (0 < List.length yo)%nat ->
  poly_row_g ops64 poly vari ix ix yi yo (List.repeat B754_nan (List.length yo)) = Ok out ->
  poly64_err P K v yi yo out.
Proof.
  intros HP PK Wv Vv Wyi Wyo Hinc Hinco Hv Hl Hpos E0.
  assert (Gyi := Forall_good _ _ Wyi). assert (Gyo := Forall_good _ _ Wyo).
  destruct (prow_best poly vari ix v yi yo Gyi Gyo Hinc Hinco Hv Hl Hpos) as (out' & E & L & O).
  assert (out' = out) by (assert (X : Ok out' = Ok out) by (refine (eq_trans (eq_sym E) E0)); now injection X). subst out'.
  intros j y i a b p q l r M0 Hy Ha Hb Hle Hn Hp Hq Hl0 Hr0 HM0 HB0.
  destruct O as [[No _]|(imin & imax & [Vmin Hmin] & [Vmax Hmax] & O)].
  { exfalso. apply (No i). exists a. exact Ha. }
  set (M := Rmin M0 (bpow radix2 900)).
  assert (SM : scale M).
  { unfold scale, M. rewrite pow64 in HM0. split; [apply Rmin_glb; auto; apply bpow_le; lia|]. eapply Rle_trans; [apply Rmin_r|apply bpow_le; lia]. }
  assert (HB : forall k x, gval real64 v k x -> app M (gyat ops64 v k) x 1 0).
  { intros k x Hx. destruct (within_val _ _ _ _ Wv Hx) as (t & T & F & V & B). change (fnum ops64) with f64 in *. rewrite T. rewrite <- V. apply app_exact; auto.
    rewrite V, Rmult_1_l. apply Rmin_glb; auto. apply (HB0 k). exact Hx. }
  assert (Hc : gin_cell real64 yi i y) by (exists a, b; auto).
  assert (Hj : (j < List.length yo)%nat) by (eapply (val_glt ops64 rank64); exact Hy).
  specialize (O j Hj). rewrite (best_cell (gpolyW ops64 poly v yi yo imin imax) yi yo i j y Gyi Gyo Hinc Hy Hc Hn) in O.
  assert (Hab : a < b) by (apply (Hinc i (S i)); auto).
  assert (Imin : (imin <= i)%nat) by (apply Hmin; exists a; exact Ha).
  assert (Imax : (S i <= imax)%nat) by (apply Hmax; exists b; exact Hb).
  destruct (within_val _ _ _ _ Wyi Ha) as (ta & Ta & Fa & Va & Ba). destruct (within_val _ _ _ _ Wyi Hb) as (tb & Tb & Fb & Vb & Bb).
  destruct (within_val _ _ _ _ Wyo Hy) as (ty & Ty & Fy & Vy & By).
  unfold gpolyW in O. rewrite Ta, Tb, Ty in O. cbn [n_div n_add n_sub n_mul ops64] in O. subst a b y.
  destruct (mu64 ta ty tb (conj Fa Ba) Fy (conj Fb Bb) Hle Hab) as (mu & Em & Fm & _). rewrite Em in O.
  assert (Am := app_mu ta ty tb mu (conj Fa Ba) Fy (conj Fb Bb) Hle Hab Em).
  set (c0 := if (i =? imin)%nat then sub64 (mul64 (fc_g ops64 2) (gyat ops64 v i)) (gyat ops64 v (S i)) else gyat ops64 v (i - 1)) in O.
  set (c1 := if (S i =? imax)%nat then sub64 (mul64 (fc_g ops64 2) (gyat ops64 v (S i))) (gyat ops64 v i) else gyat ops64 v (S (S i))) in O.
  assert (A0 : app M c0 l 3 6).
  { unfold c0. destruct Hl0 as [[N ->]|[(k & Lk & Vk) Hl0]].
    - destruct (Nat.eqb_spec i imin) as [_|NE]; [apply outer_app; auto|]. exfalso. apply (N imin); [lia|exact Vmin].
    - assert (imin <= k)%nat by (apply Hmin; exact Vk). destruct (Nat.eqb_spec i imin); [lia|]. apply (app_weak M _ _ 1 0); auto; lra. }
  assert (A1 : app M c1 r 3 6).
  { unfold c1. destruct Hr0 as [[N ->]|[(k & Lk & Vk) Hr0]].
    - destruct (Nat.eqb_spec (S i) imax) as [_|NE]; [apply outer_app; auto|]. exfalso. apply (N imax); [lia|exact Vmax].
    - assert (k <= imax)%nat by (apply Hmax; exact Vk). destruct (Nat.eqb_spec (S i) imax); [lia|]. apply (app_weak M _ _ 1 0); auto; lra. }
  destruct (HP M mu c0 (gyat ops64 v i) (gyat ops64 v (S i)) c1 _ l p q r SM Am A0 (HB _ _ Hp) (HB _ _ Hq) A1) as (aa & F & _ & Err).
  exists (B2R (poly mu c0 (gyat ops64 v i) (gyat ops64 v (S i)) c1 : f64)). split; [exists (poly mu c0 (gyat ops64 v i) (gyat ops64 v (S i)) c1); split; [exact O|now apply rank_finite]|].
  eapply Rle_trans; [exact Err|]. rewrite pow64. apply Rmult_le_compat_l; [apply Rmult_le_pos; auto; apply Rlt_le, u64_pos|apply Rmin_l].
Qed.

Lemma poly64_err_all poly P K vari yi yo nxi nxiy nxo nyi nyo out : poly_app poly P K -> 0 <= K ->
  gshape vari nxi nyi -> gshape yi nxiy nyi -> gshape yo nxo nyo -> (0 < nxi)%nat -> (0 < nxiy)%nat -> (0 < nxo)%nat -> (0 < nyo)%nat -> (nxo <= nxi)%nat ->
  all_within 900 vari -> Forall row_valid vari -> all_within 1000 yi -> all_within 1000 yo ->
  Forall (gincreasing real64) yi -> Forall (gincreasing real64) yo ->
  rows_kernel_g ops64 (fun ix ixi => poly_row_g ops64 poly vari ix ixi) vari yi yo (seq_order_g ops64 vari yo) = Ok out ->
  grows_ok (poly64_err P K) vari yi yo out.
Proof.
  intros HP PK S1 S2 S3 P1 P2 P3 P4 Le Wv Vv Wyi Wyo Ii Io E0.
  destruct (grows_kernel_ok ops64 (fun ix ixi => poly_row_g ops64 poly vari ix ixi) vari yi yo nxi nxiy nxo nyi nyo
     (fun ix r => forall v ryi ryo, nth_error vari (ix mod nxi) = Some v -> nth_error yi (ix mod nxiy) = Some ryi -> nth_error yo (ix mod nxo) = Some ryo -> poly64_err P K v ryi ryo r) S1 S2 S3 P1 P2 P3) as (out' & E & Sh & HR).
  - intros ix ryi ryo Hix Eyi Eyo.
    assert (Hm : (ix mod nxi = ix)%nat) by (apply Nat.mod_small; lia). rewrite Hm.
    destruct (gshape_get ops64 _ _ _ ix S1 ltac:(lia)) as (v & Ev).
    assert (LY : List.length ryo = nyo) by exact (gshape_row ops64 _ _ _ _ _ S3 Eyo).
    assert (LI : List.length ryi = nyi) by exact (gshape_row ops64 _ _ _ _ _ S2 Eyi).
    assert (LV : List.length v = nyi) by exact (gshape_row ops64 _ _ _ _ _ S1 Ev).
    change (fnum ops64) with f64 in *.
    assert (Wyo' := Forall_row _ _ _ _ Wyo Eyo : Forall (within 1000) ryo). assert (Wyi' := Forall_row _ _ _ _ Wyi Eyi : Forall (within 1000) ryi).
    assert (Gyi := Forall_good _ _ Wyi'). assert (Gyo := Forall_good _ _ Wyo').
    destruct (prow_best poly vari (Z.of_nat ix) v ryi ryo Gyi Gyo) as (r & Er & Lr & _);
      try (exact (Forall_row _ _ _ _ Ii Eyi)); try (exact (Forall_row _ _ _ _ Io Eyo)); try (now apply pyget_nat); try (change (fnum ops64) with f64 in *; lia).
    assert (Sr : poly64_err P K v ryi ryo r).
    { apply (poly64_err_ok poly P K vari (Z.of_nat ix)); auto; try (exact (Forall_row _ _ _ _ Wv Ev)); try (exact (Forall_row _ _ _ _ Vv Ev)); try (exact (Forall_row _ _ _ _ Ii Eyi)); try (exact (Forall_row _ _ _ _ Io Eyo)); try (now apply pyget_nat); try lia. }
    exists r. change (fnum ops64) with f64 in *. rewrite LY in Er. split; [exact Er|]. split; [lia|].
    intros v' ryi' ryo' Ev' Eyi' Eyo'. assert (v' = v) by congruence. assert (ryi' = ryi) by congruence. assert (ryo' = ryo) by congruence. now subst.
  - assert (out' = out) by (assert (X : Ok out' = Ok out) by (refine (eq_trans (eq_sym E) E0)); now injection X). subst out'.
    intros ix v ryi ryo r A B C D. destruct S1 as [L1 _], S2 as [L2 _], S3 as [L3 _]. rewrite L1 in A. rewrite L2 in B. rewrite L3 in C.
    now apply (HR ix r D).
Qed.
