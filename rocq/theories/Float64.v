(** The binary64 numbers of IEEE 754, with the operations that the compiled kernels of
    xoa/interp.py use on them: rounding to nearest even, one NaN, infinities and signed zeros.
    From Flocq. *)
From Flocq Require Export Core BinarySingleNaN Relative Plus_error.
From Coq Require Export Reals.
From Verif Require Export InterpG.
Open Scope Z_scope.

Notation f64 := (binary_float 53 1024).
Definition Hprec64 : Prec_gt_0 53 := eq_refl.
Definition Hmax64 : Prec_lt_emax 53 1024 := eq_refl.
Definition add64 : f64 -> f64 -> f64 := @Bplus 53 1024 Hprec64 Hmax64 mode_NE.
Definition sub64 : f64 -> f64 -> f64 := @Bminus 53 1024 Hprec64 Hmax64 mode_NE.
Definition mul64 : f64 -> f64 -> f64 := @Bmult 53 1024 Hprec64 Hmax64 mode_NE.
Definition div64 : f64 -> f64 -> f64 := @Bdiv 53 1024 Hprec64 Hmax64 mode_NE.
Definition zero64 : f64 := B754_zero false.
(** [m * 2 ^ e], rounded *)
Definition mk64 (m e : Z) : f64 := binary_normalize 53 1024 Hprec64 Hmax64 mode_NE m e false.
(** A rational constant of the code *)
Definition const64 (q : Q) : f64 :=
  if Z.eqb (Qnum q) 0 then zero64 else div64 (mk64 (Qnum q) 0) (mk64 (Zpos (Qden q)) 0).
(** numba raises ZeroDivisionError when the divisor is a zero *)
Definition pydiv64 (x y : f64) : res f64 := if Beqb y zero64 then Raise ZeroDivisionError else Ok (div64 x y).
Definition ops64 : fops := mkops f64 B754_nan is_nan add64 sub64 mul64 pydiv64 Bltb Bleb Beqb const64.

(** The real value of a number that is one *)
Definition rank64 (x : f64) : option R := if is_finite x then Some (B2R x) else None.
(** Not an infinity *)
Definition good64 (x : f64) : Prop := is_finite x = true \/ x = B754_nan.
