(** Properties C61-C64: the 1D kernels of xoa/interp.py on the doubles they really work with. *)
From Verif Require Export Float64Extrap.
From Coq Require Import Reals Lra Permutation.
Open Scope R_scope.

(** xoa/interp.py:54-425 on binary64 arrays *)
Definition linear1d64 := linear1d_g ops64.
Definition nearest1d64 := nearest1d_g ops64.
Definition cubic1d64 := cubic1d_g ops64.
Definition hermit1d64 := hermit1d_g ops64.
Definition extrap1d64 := extrap1d_g ops64.
Definition get_iminmax64 := get_iminmax_g ops64.

(** ** C61 *)
Theorem C61_linear1d_binary64 : forall vari yi yo nxi nxiy nxo nyi nyo,
  gshape vari nxi nyi -> gshape yi nxiy nyi -> gshape yo nxo nyo ->
  (0 < nxi)%nat -> (0 < nxiy)%nat -> (0 < nxo)%nat -> (0 < nyo)%nat ->
  all_within 500 vari -> all_within 500 yi -> all_within 500 yo ->
  Forall (gincreasing real64) yi -> Forall (gnondecreasing real64) yo ->
  exists out, linear1d64 vari yi yo = Ok out /\ gshape out (Nat.max nxi nxo) nyo /\
    grows_ok linear64_row vari yi yo out.
Proof.
  intros vari yi yo nxi nxiy nxo nyi nyo S1 S2 S3 P1 P2 P3 P4 W1 W2 W3 I1 I2.
  apply (kernel_rows (linear_row_g ops64) linear64_row vari yi yo nxi nxiy nxo nyi nyo S1 S2 S3 P1 P2 P3).
  intros v ryi ryo Hv Hi Ho. unfold all_within in *. rewrite Forall_forall in W1, W2, W3, I1, I2.
  destruct S1 as [_ F1], S2 as [_ F2], S3 as [_ F3]. rewrite Forall_forall in F1, F2, F3.
  specialize (F1 _ Hv). specialize (F2 _ Hi). specialize (F3 _ Ho).
  destruct (linear64_row_ok v ryi ryo) as (out & E & Sp); auto; try lia.
  exists out. split; [exact E|]. split; auto. apply Sp.
Qed.
Print Assumptions C61_linear1d_binary64.

(** Bits of an array *)
Definition bits (a : res (list (list f64))) : option (list (list SpecFloat.spec_float)) :=
  match a with Ok l => Some (map (map (@B2SF 53 1024)) l) | Raise _ => None end.
(** Integers as doubles *)
Definition ints (l : list Z) : list f64 := map (fun z => mk64 z 0) l.
Lemma mk64_int z : (Z.abs z <= 2 ^ 53)%Z -> isint (mk64 z 0) z.
Proof.
  intro H. assert (C := binary_normalize_correct 53 1024 Hprec64 Hmax64 mode_NE z 0 false).
  replace (F2R (Float radix2 z 0)) with (IZR z) in C by (unfold F2R; cbn; lra).
  cbv zeta in C. rewrite (fits (IZR z) 53) in C; [|lia|now apply int_bound]. rewrite (RN_int z H) in C. split; apply C.
Qed.
Definition small (l : list Z) : Prop := Forall (fun z => (Z.abs z <= 2 ^ 53)%Z) l.
Lemma ints_val l i x : small l -> gval real64 (ints l) i x -> exists z, nth_error l i = Some z /\ x = IZR z.
Proof.
  intros S (t & E & R). unfold ints in E. rewrite nth_error_map in E. destruct (nth_error l i) as [z|] eqn:Z; [|discriminate].
  injection E as <-. exists z. split; auto. destruct (mk64_int z) as [F V]; [exact (Forall_row _ _ _ _ S Z)|].
  unfold real64 in R. rewrite F in R. injection R as <-. exact V.
Qed.
Lemma val_ints l i z : small l -> nth_error l i = Some z -> gval real64 (ints l) i (IZR z).
Proof.
  intros S E. destruct (mk64_int z) as [F V]; [exact (Forall_row _ _ _ _ S E)|].
  exists (mk64 z 0). split; [unfold ints; rewrite nth_error_map, E; reflexivity|]. unfold real64. rewrite F. now rewrite V.
Qed.
Lemma ints_within l k : (53 <= k)%Z -> small l -> Forall (within k) (ints l).
Proof.
  intros K S. unfold ints. apply Forall_map. eapply Forall_impl; [|exact S]. intros z Hz. cbv beta in *. right.
  destruct (mk64_int z Hz) as [F V]. exists (IZR z). unfold real64. rewrite F, V. split; auto. rewrite pow64.
  eapply Rle_trans; [now apply int_bound|]. now apply bpow_le.
Qed.
Fixpoint sorted (l : list Z) : bool := match l with [] => true | x :: r => forallb (fun y => (x <? y)%Z) r && sorted r end.
Lemma ints_increasing l : small l -> sorted l = true -> gincreasing real64 (ints l).
Proof.
  intros S H i j a b L A B. apply ints_val in A, B; auto. destruct A as (x & A & ->), B as (y & B & ->). apply IZR_lt.
  clear S. revert i j L A B. induction l as [|z l IH]; intros i j L A B; [destruct i; discriminate|].
  cbn in H. apply andb_true_iff in H. destruct H as [H1 H2]. destruct j as [|j]; [lia|]. destruct i as [|i].
  - injection A as ->. cbn in B. apply nth_error_In in B. rewrite forallb_forall in H1. apply H1 in B. now apply Z.ltb_lt.
  - apply (IH H2 i j); auto. lia.
Qed.
Ltac small_tac := repeat constructor; cbn; lia.

(** A constant field on its own grid, with small numbers and a regular grid. *)
Definition tenth : f64 := const64 (1 # 10).
Example C61_ex :
  gshape [[tenth; tenth; B754_nan]] 1 3 /\ gshape [ints [0; 3; 6]%Z] 1 3 /\ gshape [ints [0; 1; 4; 7]%Z] 1 4 /\
  all_within 500 [[tenth; tenth; B754_nan]] /\ all_within 500 [ints [0; 3; 6]%Z] /\ all_within 500 [ints [0; 1; 4; 7]%Z] /\
  Forall (gincreasing real64) [ints [0; 3; 6]%Z] /\ Forall (gnondecreasing real64) [ints [0; 1; 4; 7]%Z] /\
  bits (linear1d64 [[tenth; tenth; B754_nan]] [ints [0; 3; 6]%Z] [ints [0; 1; 4; 7]%Z]) =
    Some [[B2SF (mk64 7205759403792795 (-56)); B2SF (mk64 7205759403792795 (-56)); SpecFloat.S754_nan; SpecFloat.S754_nan]].
Proof.
  assert (S1 : small [0; 3; 6]%Z) by small_tac. assert (S2 : small [0; 1; 4; 7]%Z) by small_tac.
  split; [repeat constructor|]. split; [repeat constructor|]. split; [repeat constructor|].
  assert (T : within 500 tenth).
  { destruct (const_val tenth false 7205759403792794 (-56) eq_refl) as [F V]. right. exists (B2R tenth). unfold real64. rewrite F. split; auto.
    rewrite V, pow64. apply Rle_trans with (bpow radix2 0); [|apply bpow_le; lia]. unfold F2R. cbn. rewrite Rabs_pos_eq; lra. }
  split; [apply Forall_cons; [|apply Forall_nil]; apply Forall_cons; [exact T|]; apply Forall_cons; [exact T|]; apply Forall_cons; [left; reflexivity|apply Forall_nil]|].
  split; [constructor; [apply ints_within; [lia|auto]|constructor]|].
  split; [constructor; [apply ints_within; [lia|auto]|constructor]|].
  split; [constructor; [apply ints_increasing; auto|constructor]|].
  split; [constructor; [apply (gincreasing_nd ops64 rank64); apply ints_increasing; auto|constructor]|].
  vm_compute. reflexivity.
Qed.

(** A grid, and a field constant on it, whose interpolation onto the same grid exceeds it. *)
Theorem C61_constant_refuted : exists yi c x out,
  gincreasing real64 yi /\ gval real64 [tenth] 0 c /\
  linear1d64 [[tenth; tenth]] [yi] [yi] = Ok [out] /\ gval real64 out 0 x /\ c < x.
Proof.
  exists (ints [0; 3]%Z).
  destruct (linear1d64 [[tenth; tenth]] [ints [0; 3]%Z] [ints [0; 3]%Z]) as [l|e] eqn:E.
  2:{ exfalso. assert (X : bits (linear1d64 [[tenth; tenth]] [ints [0; 3]%Z] [ints [0; 3]%Z]) <> None) by (vm_compute; discriminate). rewrite E in X. now apply X. }
  assert (B : bits (linear1d64 [[tenth; tenth]] [ints [0; 3]%Z] [ints [0; 3]%Z]) =
     Some [[SpecFloat.S754_finite false 7205759403792795 (-56); SpecFloat.S754_finite false 7205759403792795 (-56)]]) by (vm_compute; reflexivity).
  rewrite E in B. cbn [bits] in B. injection B as B. destruct l as [|r [|]]; try discriminate. cbn [map] in B. injection B as B.
  destruct r as [|x r]; [discriminate|]. cbn [map] in B. injection B as B _.
  destruct (const_val tenth false 7205759403792794 (-56) eq_refl) as [F V].
  destruct (const_val x _ _ _ B) as [Fx Vx].
  exists (B2R tenth), (B2R x), (x :: r).
  split; [apply ints_increasing; [small_tac|reflexivity]|].
  split; [exists tenth; split; [reflexivity|unfold real64; now rewrite F]|]. split; [reflexivity|].
  split; [exists x; split; [reflexivity|unfold real64; now rewrite Fx]|].
  rewrite V, Vx. apply F2R_lt. cbn. lia.
Qed.
Print Assumptions C61_constant_refuted.
(** Finite data between which the interpolant is finite, and an infinite result. *)
Theorem C61_overflow_refuted : exists vari yi yo out,
  all_within 1023 [vari] /\ gincreasing real64 yi /\ (exists y, gval real64 yo 0 y /\ gin_cell real64 yi 0 y) /\
  linear1d64 [vari] [yi] [yo] = Ok [out] /\ nth_error out 0 = Some (B754_infinity false).
Proof.
  exists [mk64 1 1023; mk64 1 1023], (ints [0; 4]%Z), (ints [2]%Z).
  assert (B : bits (linear1d64 [[mk64 1 1023; mk64 1 1023]] [ints [0; 4]%Z] [ints [2]%Z]) = Some [[SpecFloat.S754_infinity false]]) by (vm_compute; reflexivity).
  destruct (linear1d64 _ _ _) as [l|e]; [|discriminate]. cbn [bits] in B. injection B as B. destruct l as [|r [|]]; try discriminate. cbn [map] in B. injection B as B.
  destruct r as [|x [|]]; try discriminate. cbn [map] in B. injection B as B.
  assert (X : x = B754_infinity false) by (destruct x; try discriminate; cbn in B; injection B as ->; reflexivity).
  exists [x]. split; [|split; [|split; [|split]]].
  - assert (W : within 1023 (mk64 1 1023)).
    { destruct (const_val (mk64 1 1023) false 4503599627370496 971 eq_refl) as [F V]. right. exists (B2R (mk64 1 1023)). unfold real64. rewrite F. split; auto.
      rewrite V, pow64. unfold F2R. cbn [Fnum Fexp cond_Zopp]. rewrite Rabs_pos_eq; [|apply Rmult_le_pos; [lra|apply bpow_ge_0]].
      change 1023%Z with (52 + 971)%Z. rewrite bpow_plus. apply Rmult_le_compat_r; [apply bpow_ge_0|]. cbn. lra. }
    apply Forall_cons; [|apply Forall_nil]. apply Forall_cons; [exact W|]. apply Forall_cons; [exact W|apply Forall_nil].
  - apply ints_increasing; [small_tac|reflexivity].
  - exists 2. split; [apply (val_ints [2]%Z 0 2); [small_tac|reflexivity]|]. exists 0, 4. split; [apply (val_ints [0; 4]%Z 0 0); [small_tac|reflexivity]|].
    split; [apply (val_ints [0; 4]%Z 1 4); [small_tac|reflexivity]|]. lra.
  - reflexivity.
  - cbn. now rewrite X.
Qed.
Print Assumptions C61_overflow_refuted.

(** ** C62 *)
Theorem C62_nearest1d_binary64 : forall vari yi yo nxi nxiy nxo nyi nyo,
  gshape vari nxi nyi -> gshape yi nxiy nyi -> gshape yo nxo nyo ->
  (0 < nxi)%nat -> (0 < nxiy)%nat -> (0 < nxo)%nat ->
  all_within 1022 yi -> all_within 1022 yo ->
  Forall (gincreasing real64) yi -> Forall (gnondecreasing real64) yo ->
  Forall (gno_hole real64) yi -> Forall (gno_hole real64) yo -> Forall (fun r => exists k, gvalid real64 r k) yo ->
  exists out, nearest1d64 vari yi yo = Ok out /\ gshape out (Nat.max nxi nxo) nyo /\
    grows_ok nearest64_row vari yi yo out.
Proof.
  intros vari yi yo nxi nxiy nxo nyi nyo S1 S2 S3 P1 P2 P3 W2 W3 I1 I2 H1 H2 EX.
  apply (kernel_rows (nearest_row_g ops64) nearest64_row vari yi yo nxi nxiy nxo nyi nyo S1 S2 S3 P1 P2 P3).
  intros v ryi ryo Hv Hi Ho. unfold all_within in *. rewrite Forall_forall in W2, W3, I1, I2, H1, H2, EX.
  destruct S1 as [_ F1], S2 as [_ F2], S3 as [_ F3]. rewrite Forall_forall in F1, F2, F3.
  specialize (F1 _ Hv). specialize (F2 _ Hi). specialize (F3 _ Ho).
  destruct (nearest64_row_ok v ryi ryo) as (out & E & Sp); auto; try lia.
  exists out. split; [exact E|]. split; auto. apply Sp.
Qed.
Print Assumptions C62_nearest1d_binary64.
Lemma ints_all_valid l i : small l -> (i < List.length l)%nat -> gvalid real64 (ints l) i.
Proof. intros S L. destruct (nth_error l i) as [z|] eqn:E; [|apply nth_error_None in E; lia]. exists (IZR z). now apply val_ints. Qed.
Lemma ints_no_hole l : small l -> gno_hole real64 (ints l).
Proof.
  intros S i j k [_ H] _ [x Hj]. apply ints_all_valid; auto. apply ints_val in Hj; auto. destruct Hj as (z & Hz & _).
  assert (j < List.length l)%nat by (apply nth_error_Some; congruence). lia.
Qed.
Example C62_ex : gshape [ints [7; 8; 9]%Z] 1 3 /\ gshape [ints [0; 3; 6]%Z] 1 3 /\ gshape [ints [1; 2; 3; 9]%Z; ints [3; 4; 5; 6]%Z] 2 4 /\
  all_within 1022 [ints [0; 3; 6]%Z] /\ Forall (gincreasing real64) [ints [0; 3; 6]%Z] /\ Forall (gno_hole real64) [ints [0; 3; 6]%Z] /\
  bits (nearest1d64 [ints [7; 8; 9]%Z] [ints [0; 3; 6]%Z] [ints [1; 2; 3; 9]%Z; ints [3; 4; 5; 6]%Z]) =
    Some [map (@B2SF 53 1024) (ints [7; 8; 8] ++ [B754_nan]); map (@B2SF 53 1024) (ints [8; 8; 9; 9])]%Z.
Proof.
  assert (S1 : small [0; 3; 6]%Z) by small_tac.
  split; [repeat constructor|]. split; [repeat constructor|]. split; [repeat constructor|].
  split; [constructor; [apply ints_within; [lia|auto]|constructor]|].
  split; [constructor; [apply ints_increasing; auto|constructor]|].
  split; [constructor; [apply ints_no_hole; auto|constructor]|].
  vm_compute. reflexivity.
Qed.
(** The value used is not the one of the closest coordinate: rounding makes a tie of it. *)
Theorem C62_closest_refuted : exists yi yo out y c0 c1,
  gval real64 yi 0 c0 /\ gval real64 yi 1 c1 /\ gval real64 yo 0 y /\ c0 < y < c1 /\ Rabs (y - c1) < Rabs (y - c0) /\
  nearest1d64 [ints [10; 20]%Z] [yi] [yo] = Ok [out] /\ nth_error out 0 = nth_error (ints [10; 20]%Z) 0.
Proof.
  exists [mk64 (-1) (-60); mk64 2 0], (ints [1]%Z).
  assert (B : bits (nearest1d64 [ints [10; 20]%Z] [[mk64 (-1) (-60); mk64 2 0]] [ints [1]%Z]) = Some [[B2SF (mk64 10 0)]]) by (vm_compute; reflexivity).
  destruct (nearest1d64 _ _ _) as [l|e]; [|discriminate]. cbn [bits] in B. injection B as B. destruct l as [|r [|]]; try discriminate. cbn [map] in B. injection B as B.
  destruct r as [|x [|]]; try discriminate. cbn [map] in B. injection B as B. assert (X : x = mk64 10 0) by (apply B2SF_inj; rewrite B; vm_compute; reflexivity). subst x.
  destruct (const_val (mk64 (-1) (-60)) true 4503599627370496 (-112) eq_refl) as [F V].
  exists [mk64 10 0], 1, (B2R (mk64 (-1) (-60))), 2.
  assert (V' : B2R (mk64 (-1) (-60)) = - bpow radix2 (-60)).
  { rewrite V. unfold F2R. cbn [Fnum Fexp]. change (cond_Zopp true 4503599627370496) with (- (4503599627370496))%Z. rewrite opp_IZR. change (-60)%Z with (52 + -112)%Z. rewrite bpow_plus. change (bpow radix2 52) with (IZR 4503599627370496). ring. }
  assert (P := bpow_gt_0 radix2 (-60)).
  split; [exists (mk64 (-1) (-60)); split; [reflexivity|unfold real64; now rewrite F]|].
  split; [destruct (mk64_int 2 ltac:(lia)) as [F2 V2]; exists (mk64 2 0); split; [reflexivity|unfold real64; rewrite F2; now rewrite V2]|].
  split; [apply (val_ints [1]%Z 0 1); [small_tac|reflexivity]|].
  split; [rewrite V'; lra|]. split; [rewrite V', (Rabs_left1 (1 - 2)), Rabs_pos_eq; lra|].
  split; reflexivity.
Qed.
Print Assumptions C62_closest_refuted.

(** ** C63 *)
Theorem C63_cubic1d_binary64 : forall vari yi yo nxi nxiy nxo nyi nyo,
  gshape vari nxi nyi -> gshape yi nxiy nyi -> gshape yo nxo nyo ->
  (0 < nxi)%nat -> (0 < nxiy)%nat -> (0 < nxo)%nat -> (0 < nyo)%nat -> (nxo <= nxi)%nat ->
  all_within 900 vari -> Forall (fun v => forall i, (i < nyi)%nat -> gvalid real64 v i) vari ->
  all_within 1000 yi -> all_within 1000 yo ->
  Forall (gincreasing real64) yi -> Forall (gincreasing real64) yo ->
  exists out, cubic1d64 vari yi yo = Ok out /\ gshape out nxi nyo /\
    grows_ok (poly64_row lower_end) vari yi yo out.
Proof.
  intros vari yi yo nxi nxiy nxo nyi nyo S1 S2 S3 P1 P2 P3 P4 Le W1 V W2 W3 I1 I2.
  apply (poly64_ok (cubic_formula_g ops64) false vari yi yo nxi nxiy nxo nyi nyo); auto.
  - intros mu c0 v0 v1 c1_ A B C D E. destruct (cubic_ok mu c0 v0 v1 c1_ A B C D E) as [X Y]. split; auto. split; auto. discriminate.
  - destruct S1 as [_ F1]. rewrite Forall_forall in *. intros v Hv i Hi. apply (V v Hv). now rewrite <- (F1 v Hv).
Qed.
Print Assumptions C63_cubic1d_binary64.
Theorem C63_hermit1d_binary64 : forall vari yi yo nxi nxiy nxo nyi nyo bias tension,
  gshape vari nxi nyi -> gshape yi nxiy nyi -> gshape yo nxo nyo ->
  (0 < nxi)%nat -> (0 < nxiy)%nat -> (0 < nxo)%nat -> (0 < nyo)%nat -> (nxo <= nxi)%nat ->
  all_within 900 vari -> Forall (fun v => forall i, (i < nyi)%nat -> gvalid real64 v i) vari ->
  all_within 1000 yi -> all_within 1000 yo ->
  within 40 bias -> ~ isNaN bias -> within 40 tension -> ~ isNaN tension ->
  Forall (gincreasing real64) yi -> Forall (gincreasing real64) yo ->
  exists out, hermit1d64 vari yi yo bias tension = Ok out /\ gshape out nxi nyo /\
    grows_ok (poly64_row some_end) vari yi yo out.
Proof.
  intros vari yi yo nxi nxiy nxo nyi nyo bias tension S1 S2 S3 P1 P2 P3 P4 Le W1 V W2 W3 Wb Nb Wt Nt I1 I2.
  assert (FIN : forall x, within 40 x -> ~ isNaN x -> fin 40 x).
  { intros x [N|(r & Hr & B)] NN; [now contradiction NN|]. unfold real64 in Hr. destruct (is_finite x) eqn:F; [|discriminate]. injection Hr as <-. split; auto. now rewrite <- pow64. }
  apply (poly64_ok (hermit_formula_g ops64 bias tension) true vari yi yo nxi nxiy nxo nyi nyo); auto.
  - intros mu c0 v0 v1 c1_ A B C D E. destruct (hermit_ok bias tension mu c0 v0 v1 c1_) as (X & Y & Z); auto.
  - destruct S1 as [_ F1]. rewrite Forall_forall in *. intros v Hv i Hi. apply (V v Hv). now rewrite <- (F1 v Hv).
Qed.
Print Assumptions C63_hermit1d_binary64.
Example C63_ex : gshape [ints [7; 8; 9]%Z] 1 3 /\ gshape [ints [0; 3; 6]%Z] 1 3 /\
  all_within 900 [ints [7; 8; 9]%Z] /\ Forall (fun v => forall i, (i < 3)%nat -> gvalid real64 v i) [ints [7; 8; 9]%Z] /\
  all_within 1000 [ints [0; 3; 6]%Z] /\ Forall (gincreasing real64) [ints [0; 3; 6]%Z] /\
  bits (cubic1d64 [ints [7; 8; 9]%Z] [ints [0; 3; 6]%Z] [ints [0; 3; 6]%Z]) = Some [map (@B2SF 53 1024) (ints [7; 8; 9]%Z)] /\
  bits (hermit1d64 [ints [7; 8; 9]%Z] [ints [0; 3; 6]%Z] [ints [0; 3; 6; 7]%Z] zero64 zero64) = Some [map (@B2SF 53 1024) (ints [7; 8; 9]%Z ++ [B754_nan])].
Proof.
  assert (S1 : small [0; 3; 6]%Z) by small_tac. assert (S2 : small [7; 8; 9]%Z) by small_tac.
  split; [repeat constructor|]. split; [repeat constructor|].
  split; [constructor; [apply ints_within; [lia|auto]|constructor]|].
  split; [constructor; [|constructor]; intros i Hi; now apply ints_all_valid|].
  split; [constructor; [apply ints_within; [lia|auto]|constructor]|].
  split; [constructor; [apply ints_increasing; auto|constructor]|].
  split; vm_compute; reflexivity.
Qed.
(** At the last node cubic1d may miss its datum altogether: 2^-60 becomes 0. *)
Theorem C63_cubic_last_node_refuted : exists vari yi out x,
  gincreasing real64 yi /\ gval real64 vari 1 x /\ 0 < x /\
  cubic1d64 [vari] [yi] [yi] = Ok [out] /\ gval real64 out 1 0.
Proof.
  exists [mk64 1 0; mk64 1 (-60)], (ints [0; 1]%Z).
  assert (B : bits (cubic1d64 [[mk64 1 0; mk64 1 (-60)]] [ints [0; 1]%Z] [ints [0; 1]%Z]) = Some [[B2SF (mk64 1 0); SpecFloat.S754_zero false]]) by (vm_compute; reflexivity).
  destruct (cubic1d64 _ _ _) as [l|e]; [|discriminate]. cbn [bits] in B. injection B as B. destruct l as [|r [|]]; try discriminate. cbn [map] in B. injection B as B.
  destruct r as [|x [|z [|]]]; try discriminate. cbn [map] in B. injection B as _ B.
  destruct (const_val (mk64 1 (-60)) false 4503599627370496 (-112) eq_refl) as [F V].
  exists [x; z], (B2R (mk64 1 (-60))).
  split; [apply ints_increasing; [small_tac|reflexivity]|].
  split; [exists (mk64 1 (-60)); split; [reflexivity|unfold real64; now rewrite F]|].
  split; [rewrite V; apply F2R_gt_0; cbn; lia|]. split; [reflexivity|].
  exists z. split; [reflexivity|]. destruct z; try discriminate. reflexivity.
Qed.
Print Assumptions C63_cubic_last_node_refuted.

(** ** C64: whatever the doubles, infinities included *)
Theorem C64_get_iminmax_binary64 : forall d, exists r, get_iminmax64 d = Ok r /\ iminmax64 d r.
Proof. exact iminmax64_ok. Qed.
Print Assumptions C64_get_iminmax_binary64.
Theorem C64_safe_binary64 : forall vari yi yo nxi nxiy nxo nyi nyo order,
  gshape vari nxi nyi -> gshape yi nxiy nyi -> gshape yo nxo nyo ->
  (0 < nxi)%nat -> (0 < nxiy)%nat -> (0 < nxo)%nat -> (0 < nyo)%nat ->
  (forall x, In x order -> (0 <= x < Z.of_nat (Nat.max nxi nxo))%Z) ->
  linear1d_sched_g ops64 vari yi yo order <> Raise IndexError /\
  nearest1d_sched_g ops64 vari yi yo order <> Raise IndexError.
Proof.
  intros vari yi yo nxi nxiy nxo nyi nyo order S1 S2 S3 P1 P2 P3 P4 Ho.
  split.
  - eapply grows_kernel_safe; try eassumption. intros ix ixi ryi ryo ro Hi Li Lo Lr.
    destruct (gshape_get ops64 _ _ _ _ S1 Hi) as [v Ev]. rewrite (pyget_nat _ _ _ Ev). cbn [bind]. rewrite <- Lo.
    apply glinear_row_safe; try reflexivity; try apply L64_sub; try apply L64_fdiv; try lia. rewrite (gshape_row ops64 _ _ _ _ _ S1 Ev). lia.
  - eapply grows_kernel_safe; try eassumption. intros ix ixi ryi ryo ro Hi Li Lo Lr.
    destruct (gshape_get ops64 _ _ _ _ S1 Hi) as [v Ev]. rewrite (pyget_nat _ _ _ Ev). cbn [bind]. rewrite <- Lo.
    apply gnearest_row_safe; try reflexivity; try apply L64_sub; try apply L64_fdiv; try lia. rewrite (gshape_row ops64 _ _ _ _ _ S1 Ev). lia.
Qed.
Print Assumptions C64_safe_binary64.
Theorem C64_schedule_binary64 : forall vari yi yo bias tension order,
  Permutation order (seq_order_g ops64 vari yo) ->
  forall out,
  (linear1d_sched_g ops64 vari yi yo order = Ok out <-> linear1d64 vari yi yo = Ok out) /\
  (nearest1d_sched_g ops64 vari yi yo order = Ok out <-> nearest1d64 vari yi yo = Ok out) /\
  (cubic1d_sched_g ops64 vari yi yo order = Ok out <-> cubic1d64 vari yi yo = Ok out) /\
  (hermit1d_sched_g ops64 bias tension vari yi yo order = Ok out <-> hermit1d64 vari yi yo bias tension = Ok out).
Proof.
  intros vari yi yo bias tension order HP out.
  split; [exact (grows_kernel_perm ops64 _ vari yi yo order HP out)|].
  split; [exact (grows_kernel_perm ops64 _ vari yi yo order HP out)|].
  split; exact (grows_kernel_perm ops64 _ vari yi yo order HP out).
Qed.
Print Assumptions C64_schedule_binary64.
Theorem C64_extrap1d_binary64 : forall vari mode, exists out, extrap1d64 vari mode = Ok out /\
  Forall2 (extrap64_row (String.eqb mode "both" || String.eqb mode "bottom") (String.eqb mode "both" || String.eqb mode "top")) vari out.
Proof. exact extrap64_ok. Qed.
Print Assumptions C64_extrap1d_binary64.
Definition inf64 : f64 := B754_infinity false.
Example C64_ex :
  get_iminmax64 [B754_nan; inf64; B754_nan; mk64 1 0; B754_nan] = Ok (1, 3)%Z /\
  bits (extrap1d64 [[B754_nan; inf64; B754_nan; mk64 1 0; B754_nan]] "both") =
    Some [map (@B2SF 53 1024) [inf64; inf64; B754_nan; mk64 1 0; mk64 1 0]] /\
  gshape [[inf64; mk64 1 0]] 1 2 /\ Permutation [1; 0]%Z (seq_order_g ops64 [[inf64; mk64 1 0]] [[inf64]; [B754_nan]]) /\
  bits (linear1d_sched_g ops64 [[inf64; mk64 1 0]] [[B754_infinity true; inf64]] [[mk64 1 0]; [inf64]] [1; 0]%Z) = Some [[SpecFloat.S754_nan]; [SpecFloat.S754_nan]].
Proof.
  split; [vm_compute; reflexivity|]. split; [vm_compute; reflexivity|]. split; [repeat constructor|].
  split; [apply perm_swap|vm_compute; reflexivity].
Qed.
