(** What a printed floating point number is. Uses the literals of DblSpec.v and their value. *)
From Coq Require Import Reals ZArith NArith List Bool.
From Flocq Require Import Core.
From Verif Require Import Base DigitsSpec DblSpec.
Import ListNotations.

(** A plain decimal: no exponent, the digits before the point are those of [n]. *)
Definition plain (l : literal) (n : Z) : Prop :=
  well_formed l /\ lit_exponent l = None /\ canonical 10 (Z.to_N n) (lit_before l).

(** No digit is superfluous behind the point: either there is no point, or the last digit is not 0. *)
Definition no_trailing_zero (l : literal) : Prop :=
  if lit_point l then last (lit_after l) 0%N <> 0%N else lit_after l = [].

(** The number next to [x], rounded to [p] digits behind the point, does not reach the next integer;
    2^-51 is room for the rounding errors of the addition. *)
Definition carry_free (x : R) (p : Z) : Prop :=
  (x + bpow radix10 (- p) / 2 <= IZR (Zfloor x + 1) * (1 - bpow radix2 (-51)))%R.

(** How the flags and the precision are read (tm_conversion.h 509-521, the comments of
    tmc_print_flags): a negative precision and PF_SHORTEST ask for the shortest text, otherwise zeros
    fill up to the precision; at most 14 digits. *)
Definition shortest (flags : N) (precision : Z) : bool := (precision <? 0)%Z || N.testbit flags 3.
Definition used_precision (flags : N) (precision : Z) : Z := if shortest flags precision then 14%Z else Z.min 14 precision.
Definition shows_zeros (flags : N) (precision : Z) : bool := N.testbit flags 4 || negb (shortest flags precision).

(** A real number is a double. *)
Definition is_double (x : R) : Prop := generic_format radix2 (FLT_exp (-1074) 53) x.
