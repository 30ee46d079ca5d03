(** C63, continued: how far cubic1d and hermit1d are from the polynomials in real arithmetic. *)
From Verif Require Export Float64PolyErr Float64Props.
From Coq Require Import Reals Lra Psatz.
Open Scope R_scope.

(** The bound is 2^-44 (cubic) and 2^-41 (Hermite) of the largest datum of the row. *)
Theorem C63_cubic1d_error_binary64 : forall vari yi yo nxi nxiy nxo nyi nyo,
  gshape vari nxi nyi -> gshape yi nxiy nyi -> gshape yo nxo nyo ->
  (0 < nxi)%nat -> (0 < nxiy)%nat -> (0 < nxo)%nat -> (0 < nyo)%nat -> (nxo <= nxi)%nat ->
  all_within 900 vari -> Forall (fun v => forall i, (i < nyi)%nat -> gvalid real64 v i) vari ->
  all_within 1000 yi -> all_within 1000 yo ->
  Forall (gincreasing real64) yi -> Forall (gincreasing real64) yo ->
  exists out, cubic1d64 vari yi yo = Ok out /\
    grows_ok (poly64_err cubic_poly 512) vari yi yo out.
Proof.
  intros vari yi yo nxi nxiy nxo nyi nyo S1 S2 S3 P1 P2 P3 P4 Le W1 V W2 W3 I1 I2.
  destruct (C63_cubic1d_binary64 vari yi yo nxi nxiy nxo nyi nyo) as (out & E & _); auto.
  exists out. split; auto. apply (poly64_err_all (cubic_formula_g ops64) cubic_poly 512 vari yi yo nxi nxiy nxo nyi nyo out); auto; try lra.
  - intros M mu c0 v0 v1 c1_ m l p q r. intros. exists 25. now apply cubic_app.
  - destruct S1 as [_ F1]. rewrite Forall_forall in *. intros v Hv i Hi. apply (V v Hv). now rewrite <- (F1 v Hv).
Qed.
Print Assumptions C63_cubic1d_error_binary64.

Theorem C63_hermit1d_error_binary64 : forall vari yi yo nxi nxiy nxo nyi nyo bias tension bi te,
  gshape vari nxi nyi -> gshape yi nxiy nyi -> gshape yo nxo nyo ->
  (0 < nxi)%nat -> (0 < nxiy)%nat -> (0 < nxo)%nat -> (0 < nyo)%nat -> (nxo <= nxi)%nat ->
  all_within 900 vari -> Forall (fun v => forall i, (i < nyi)%nat -> gvalid real64 v i) vari ->
  all_within 1000 yi -> all_within 1000 yo ->
  real64 bias = Some bi -> -1 <= bi <= 1 -> real64 tension = Some te -> -1 <= te <= 1 ->
  Forall (gincreasing real64) yi -> Forall (gincreasing real64) yo ->
  exists out, hermit1d64 vari yi yo bias tension = Ok out /\
    grows_ok (poly64_err (hermite_poly bi te) 4096) vari yi yo out.
Proof.
  intros vari yi yo nxi nxiy nxo nyi nyo bias tension bi te S1 S2 S3 P1 P2 P3 P4 Le W1 V W2 W3 Wb Bb Wt Bt I1 I2.
  assert (AP : forall x z, real64 x = Some z -> -1 <= z <= 1 -> Float64App.app 1 x z 1 0 /\ within 40 x /\ ~ isNaN x).
  { intros x z H B. split; [|split].
    - unfold real64 in H. destruct (is_finite x) eqn:F; [|discriminate]. injection H as <-. apply app_exact; auto using scale_1. rewrite Rmult_1_l. apply Rabs_le_iff. lra.
    - right. exists z. split; auto. apply Rle_trans with 1; [apply Rabs_le_iff; lra|]. rewrite pow64. apply (bpow_le radix2 0 40). lia.
    - intros N. unfold isNaN in N. subst x. discriminate. }
  destruct (AP _ _ Wb Bb) as (Ab & Bb1 & Bb2). destruct (AP _ _ Wt Bt) as (At & Bt1 & Bt2).
  destruct (C63_hermit1d_binary64 vari yi yo nxi nxiy nxo nyi nyo bias tension) as (out & E & _); auto.
  exists out. split; auto. apply (poly64_err_all (hermit_formula_g ops64 bias tension) (hermite_poly bi te) 4096 vari yi yo nxi nxiy nxo nyi nyo out); auto; try lra.
  - intros M mu c0 v0 v1 c1_ m l p q r. intros. exists 83. now apply hermit_app.
  - destruct S1 as [_ F1]. rewrite Forall_forall in *. intros v Hv i Hi. apply (V v Hv). now rewrite <- (F1 v Hv).
Qed.
Print Assumptions C63_hermit1d_error_binary64.
(** The data of C63_ex meet the hypotheses of the theorems; here the point 1 of the cell [0, 3], at both
    ends of which there are data, with the outer values of [poly64_err]: the cubic is 7 + 1/3, and the
    kernel returns the double just below it. *)
Example C63_error_ex :
  let yi := ints [0; 3; 6]%Z in let v := ints [7; 8; 10]%Z in
  gval real64 yi 0 0 /\ gval real64 yi 1 3 /\ 0 <= 1 <= 3 /\ left_value v yi 0 7 8 6 /\ right_value v yi 0 7 8 10 /\
  cubic_poly 6 7 8 10 (1 / 3) = 7 + 1 / 3 /\
  bits (cubic1d64 [v] [yi] [ints [0; 1]%Z]) = Some [[B2SF (mk64 7 0); SpecFloat.S754_finite false 8256599316845909 (-50)]].
Proof.
  assert (S1 : small [0; 3; 6]%Z) by small_tac. assert (S2 : small [7; 8; 10]%Z) by small_tac.
  cbv zeta. split; [|split; [|split; [|split; [|split; [|split]]]]].
  - exact (val_ints _ 0 _ S1 eq_refl).
  - exact (val_ints _ 1 _ S1 eq_refl).
  - lra.
  - left. split; [intros k Hk; lia|lra].
  - right. split; [exists 2%nat; split; [lia|exists 6; exact (val_ints _ 2 _ S1 eq_refl)]|exact (val_ints _ 2 _ S2 eq_refl)].
  - unfold cubic_poly. lra.
  - vm_compute. reflexivity.
Qed.
