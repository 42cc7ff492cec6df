(** C's double arithmetic: IEEE 754 binary64, round to nearest even, every operation rounded once
    (FLT_EVAL_METHOD 0, no contraction). The operations are Flocq's. *)
From Coq Require Import ZArith.
From Flocq Require Import Core IEEE754.BinarySingleNaN.

#[export] Instance prec53 : Prec_gt_0 53 := eq_refl.
#[export] Instance emax1024 : Prec_lt_emax 53 1024 := eq_refl.

Definition double : Type := binary_float 53 1024.
Definition dadd : double -> double -> double := Bplus mode_NE.
Definition dsub : double -> double -> double := Bminus mode_NE.
Definition dmul : double -> double -> double := Bmult mode_NE.
Definition ddiv : double -> double -> double := Bdiv mode_NE.
Definition dneg : double -> double := Bopp.
Definition dlt : double -> double -> bool := Bltb.
Definition dle : double -> double -> bool := Bleb.
(** Conversion of an integer, and the value of a literal that denotes an integer: rounded once. *)
Definition of_int (z : Z) : double := binary_normalize 53 1024 prec53 emax1024 mode_NE z 0 false.

(** float: binary32; (float)x rounds once. *)
#[export] Instance prec24 : Prec_gt_0 24 := eq_refl.
#[export] Instance emax128 : Prec_lt_emax 24 128 := eq_refl.
Definition float : Type := binary_float 24 128.
Definition to_float (x : double) : float :=
  match x with
  | B754_zero s => B754_zero s
  | B754_infinity s => B754_infinity s
  | B754_nan => B754_nan
  | B754_finite s m e _ => binary_normalize 24 128 prec24 emax128 mode_NE (SpecFloat.cond_Zopp s (Zpos m)) e s
  end.
