(** cubic1d and hermit1d in binary64: rows and arrays. *)
From Verif Require Export Float64Poly.
From Coq Require Import Reals Lra Psatz.
Open Scope R_scope.

Definition row_valid (v : list f64) : Prop := forall i, (i < List.length v)%nat -> gvalid real64 v i.
Lemma row_fin v i : Forall (within 900) v -> row_valid v -> (i < List.length v)%nat -> fin 900 (gyat ops64 v i) /\ gval real64 v i (B2R (gyat ops64 v i)).
Proof.
  intros W V L. destruct (V i L) as [x Hx]. destruct (within_val _ _ _ _ W Hx) as (t & T & F & E & B). change (gyat ops64 v i) with (gyat ops64 v i : f64). rewrite T. subst x. split; [split; auto|exact Hx].
Qed.
Lemma outer_fin a b : fin 900 a -> fin 900 b -> fin 905 (sub64 (mul64 (const64 2) a) b).
Proof.
  intros A B. apply (fin_ops_sub 905 901 900); try lia; auto. apply (fin_ops_mul 901 1 900); try lia; auto.
  apply (isint_fin _ 2 1 c2); cbn; lia.
Qed.

Lemma poly64_row_ok poly (top : bool) vari ix v yi yo :
  (forall mu c0 v0 v1 c1, fin 0 mu -> fin 905 c0 -> fin 905 v0 -> fin 905 v1 -> fin 905 c1 ->
     is_finite (poly mu c0 v0 v1 c1) = true /\ (isint mu 0 -> B2R (poly mu c0 v0 v1 c1 : f64) = B2R v0) /\
     (top = true -> isint mu 1 -> B2R (poly mu c0 v0 v1 c1 : f64) = B2R v1)) ->
  Forall (within 900) v -> row_valid v -> Forall (within 1000) yi -> Forall (within 1000) yo ->
  gincreasing real64 yi -> gincreasing real64 yo -> pyget vari ix = Ok v -> List.length v = List.length yi -> (0 < List.length yo)%nat ->
  exists out, poly_row_g ops64 poly vari ix ix yi yo (List.repeat B754_nan (List.length yo)) = Ok out /\
    poly64_row (if top then some_end else lower_end) v yi yo out.
Proof.
  intros HP Wv Vv Wyi Wyo Hinc Hinco Hv Hl Hpos.
  assert (Gyi := Forall_good _ _ Wyi). assert (Gyo := Forall_good _ _ Wyo).
  destruct (prow_best poly vari ix v yi yo Gyi Gyo Hinc Hinco Hv Hl Hpos) as (out & E & L & O).
  exists out. split; [exact E|]. split; [exact L|].
  destruct O as [[No ->]|(imin & imax & [Vmin Hmin] & [Vmax Hmax] & O)].
  { assert (NC : forall j, ~ covered yi yo j). { intros j (y & i & _ & (a & b & Ha & _)). apply (No i). exists a. exact Ha. }
    split; [intros j C; now apply NC in C|]. split.
    - intros j y k p Hy Hk. exfalso. apply (No k). exists y. exact Hk.
    - intros j Hj _. now apply nth_error_repeat. }
  (* one output in the cell [i] *)
  assert (CELL : forall j y i, gval real64 yo j y -> gin_cell real64 yi i y -> ~ gin_cell real64 yi (S i) y ->
     exists x mu, nth_error out j = Some x /\ is_finite x = true /\ fin 0 mu /\
       (forall a, gval real64 yi i a -> a = y -> B2R x = B2R (gyat ops64 v i : f64)) /\
       (top = true -> forall b, gval real64 yi (S i) b -> b = y -> B2R x = B2R (gyat ops64 v (S i) : f64))).
  { intros j y i Hy Hc Hn. assert (Hj : (j < List.length yo)%nat) by (eapply (val_glt ops64 rank64); exact Hy).
    specialize (O j Hj). rewrite (best_cell (gpolyW ops64 poly v yi yo imin imax) yi yo i j y Gyi Gyo Hinc Hy Hc Hn) in O.
    destruct Hc as (a & b & Ha & Hb & Hle). assert (Hab : a < b) by (apply (Hinc i (S i)); auto).
    assert (Li : (S i < List.length yi)%nat) by (eapply (val_glt ops64 rank64); exact Hb).
    assert (Imin : (imin <= i)%nat) by (apply Hmin; exists a; exact Ha).
    assert (Imax : (S i <= imax)%nat) by (apply Hmax; exists b; exact Hb).
    assert (Lmax : (imax < List.length yi)%nat) by (apply (valid_glt ops64 rank64); exact Vmax).
    destruct (within_val _ _ _ _ Wyi Ha) as (ta & Ta & Fa & Va & Ba). destruct (within_val _ _ _ _ Wyi Hb) as (tb & Tb & Fb & Vb & Bb).
    destruct (within_val _ _ _ _ Wyo Hy) as (ty & Ty & Fy & Vy & By).
    unfold gpolyW in O. rewrite Ta, Tb, Ty in O. cbn [n_div n_add n_sub n_mul ops64] in O. subst a b y.
    destruct (mu64 ta ty tb (conj Fa Ba) Fy (conj Fb Bb) Hle Hab) as (mu & Em & Fm & M0 & M1). rewrite Em in O.
    assert (RF : forall k, (k < List.length yi)%nat -> fin 900 (gyat ops64 v k)) by (intros k Hk; apply row_fin; auto; change (fnum ops64) with f64 in *; lia).
    set (c0 := if (i =? imin)%nat then sub64 (mul64 (fc_g ops64 2) (gyat ops64 v i)) (gyat ops64 v (S i)) else gyat ops64 v (i - 1)) in O.
    set (c1 := if (S i =? imax)%nat then sub64 (mul64 (fc_g ops64 2) (gyat ops64 v (S i))) (gyat ops64 v i) else gyat ops64 v (S (S i))) in O.
    assert (F0 : fin 905 c0).
    { unfold c0. destruct (Nat.eqb_spec i imin); [apply outer_fin; apply RF; lia|]. apply (fin_weak 900); [lia|]. apply RF. lia. }
    assert (F1 : fin 905 c1).
    { unfold c1. destruct (Nat.eqb_spec (S i) imax); [apply outer_fin; apply RF; lia|]. apply (fin_weak 900); [lia|]. apply RF. lia. }
    destruct (HP mu c0 (gyat ops64 v i) (gyat ops64 v (S i)) c1) as (X & X0 & X1); auto; try (apply (fin_weak 900); [lia|]; apply RF; lia).
    exists (poly mu c0 (gyat ops64 v i) (gyat ops64 v (S i)) c1), mu. split; [exact O|]. split; [exact X|]. split; auto. split.
    - intros a' Ha' E'. apply X0, M0. rewrite (val_gfun ops64 rank64 _ _ _ _ Ha Ha'). auto.
    - intros T b' Hb' E'. apply (X1 T), M1. rewrite (val_gfun ops64 rank64 _ _ _ _ Hb Hb'). auto. }
  split; [|split].
  - intros j (y & i0 & Hy & Hc0). destruct (upper_cell yi yo j i0 y Gyi Gyo Hinc Hy Hc0) as (i & Hc & Hn).
    destruct (CELL j y i Hy Hc Hn) as (x & mu & Ex & Fx & _). exists (B2R x), x. split; auto. now apply rank_finite.
  - intros j y k p Hy Hk Hex Hp.
    assert (EX : exists i0, gin_cell real64 yi i0 y) by (destruct top; [exact Hex|exists k; exact Hex]).
    destruct EX as [i0 Hc0].
    destruct (upper_cell yi yo j i0 y Gyi Gyo Hinc Hy Hc0) as (i & Hc & Hn).
    destruct (CELL j y i Hy Hc Hn) as (x & mu & Ex & Fx & _ & X0 & X1).
    destruct (within_val _ _ _ _ Wv Hp) as (tp & Tp & Fp & Vp & _).
    assert (G : i = k \/ (S i = k /\ top = true)).
    { destruct Hc as (a & b & Ha & Hb & Hle). destruct (lt_eq_lt_dec k i) as [[K|K]|K]; auto.
      - assert (y < a) by (apply (Hinc k i); auto). lra.
      - destruct (Nat.eq_dec (S i) k) as [K2|K2].
        + right. split; [exact K2|]. subst k. destruct top; [reflexivity|]. exfalso. apply Hn. exact Hex.
        + assert (b < y) by (apply (Hinc (S i) k); auto; lia). lra. }
    exists x. split; auto. rewrite (rank_finite x Fx : real64 x = Some (B2R x)). f_equal. subst p.
    destruct G as [-> |[<- T]].
    + rewrite (X0 y Hk eq_refl). change (fnum ops64) with f64 in *. now rewrite Tp.
    + rewrite (X1 T y Hk eq_refl). change (fnum ops64) with f64 in *. now rewrite Tp.
  - intros j Hj Hno. unfold nan_at. refine (eq_trans (O j Hj) _). f_equal. apply best_out; auto.
Qed.

Lemma poly64_ok poly (top : bool) vari yi yo nxi nxiy nxo nyi nyo :
  (forall mu c0 v0 v1 c1, fin 0 mu -> fin 905 c0 -> fin 905 v0 -> fin 905 v1 -> fin 905 c1 ->
     is_finite (poly mu c0 v0 v1 c1) = true /\ (isint mu 0 -> B2R (poly mu c0 v0 v1 c1 : f64) = B2R v0) /\
     (top = true -> isint mu 1 -> B2R (poly mu c0 v0 v1 c1 : f64) = B2R v1)) ->
  gshape vari nxi nyi -> gshape yi nxiy nyi -> gshape yo nxo nyo -> (0 < nxi)%nat -> (0 < nxiy)%nat -> (0 < nxo)%nat -> (0 < nyo)%nat -> (nxo <= nxi)%nat ->
  all_within 900 vari -> Forall row_valid vari -> all_within 1000 yi -> all_within 1000 yo ->
  Forall (gincreasing real64) yi -> Forall (gincreasing real64) yo ->
  exists out, rows_kernel_g ops64 (fun ix ixi => poly_row_g ops64 poly vari ix ixi) vari yi yo (seq_order_g ops64 vari yo) = Ok out /\
    gshape out nxi nyo /\ grows_ok (poly64_row (if top then some_end else lower_end)) vari yi yo out.
Proof.
  intros HP S1 S2 S3 P1 P2 P3 P4 Le Wv Vv Wyi Wyo Ii Io.
  destruct (grows_kernel_ok ops64 (fun ix ixi => poly_row_g ops64 poly vari ix ixi) vari yi yo nxi nxiy nxo nyi nyo
     (fun ix r => forall v ryi ryo, nth_error vari (ix mod nxi) = Some v -> nth_error yi (ix mod nxiy) = Some ryi -> nth_error yo (ix mod nxo) = Some ryo -> poly64_row (if top then some_end else lower_end) v ryi ryo r) S1 S2 S3 P1 P2 P3) as (out & E & Sh & HR).
  - intros ix ryi ryo Hix Eyi Eyo.
    assert (Hm : (ix mod nxi = ix)%nat) by (apply Nat.mod_small; lia). rewrite Hm.
    destruct (gshape_get ops64 _ _ _ ix S1 ltac:(lia)) as (v & Ev).
    assert (LY : List.length ryo = nyo) by exact (gshape_row ops64 _ _ _ _ _ S3 Eyo).
    assert (LI : List.length ryi = nyi) by exact (gshape_row ops64 _ _ _ _ _ S2 Eyi).
    assert (LV : List.length v = nyi) by exact (gshape_row ops64 _ _ _ _ _ S1 Ev).
    destruct (poly64_row_ok poly top vari (Z.of_nat ix) v ryi ryo HP) as (r & Er & Sr);
      try (exact (Forall_row _ _ _ _ Wv Ev)); try (exact (Forall_row _ _ _ _ Vv Ev)); try (exact (Forall_row _ _ _ _ Wyi Eyi)); try (exact (Forall_row _ _ _ _ Wyo Eyo));
      try (exact (Forall_row _ _ _ _ Ii Eyi)); try (exact (Forall_row _ _ _ _ Io Eyo)); try (now apply pyget_nat); try (change (fnum ops64) with f64 in *; lia).
    exists r. change (fnum ops64) with f64 in *. rewrite LY in Er. split; [exact Er|]. split; [destruct Sr as [Lr _]; lia|].
    intros v' ryi' ryo' Ev' Eyi' Eyo'. assert (v' = v) by congruence. assert (ryi' = ryi) by congruence. assert (ryo' = ryo) by congruence. now subst.
  - exists out. split; [exact E|]. split; [replace nxi with (Nat.max nxi nxo) by lia; exact Sh|].
    intros ix v ryi ryo r A B C D. destruct S1 as [L1 _], S2 as [L2 _], S3 as [L3 _]. rewrite L1 in A. rewrite L2 in B. rewrite L3 in C.
    now apply (HR ix r D).
Qed.
