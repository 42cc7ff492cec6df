(** Model of the floating point functions of tm_utility.h. A float is an IEEE binary32 number, operations round to
    nearest (no excess precision); NaNs are not distinguished from each other. *)
From Coq Require Import ZArith Bool.
From Flocq Require Import Core IEEE754.BinarySingleNaN.

Definition prec := 24%Z.
Definition emax := 128%Z.
Global Instance prec_gt_0_ : FLX.Prec_gt_0 prec := eq_refl.
Global Instance prec_lt_emax_ : Prec_lt_emax prec emax := eq_refl.
Definition float := binary_float prec emax.
Definition fsub (x y : float) : float := Bminus mode_NE x y.
Definition fadd (x y : float) : float := Bplus mode_NE x y.
Definition fmul (x y : float) : float := Bmult mode_NE x y.
Definition fdiv (x y : float) : float := Bdiv mode_NE x y.
Definition fzero : float := B754_zero false.
(** the float [m * 2^e] *)
Definition fnum (m : Z) (e : Z) : float := binary_normalize prec emax prec_gt_0_ prec_lt_emax_ mode_NE m e false.
Definition fone : float := fnum 1 0.

(** tm_utility.h:454-460: 0.000001f and 0.001f *)
Definition epsilon : float := fnum 8796093 (-43).
Definition big_epsilon : float := fnum 8589935 (-33).
(** tm_utility.h:180-183 *)
Definition fmax (x y : float) : float := if Bltb x y then y else x.
(** tm_utility.h:703-711 *)
Definition tolerance_comparison (a b : float) : bool :=
  if Beqb a b then true
  else Bleb (Babs (fsub a b)) epsilon || Bleb (Babs (fsub a b)) (fmul epsilon (fmax (Babs a) (Babs b))).
(** tm_utility.h:465-468 *)
Definition eq_zero_soft (x : float) : bool := Bltb (Babs x) big_epsilon.
Definition gt_zero_soft (x : float) : bool := Bltb big_epsilon x.
Definition lt_zero_soft (x : float) : bool := Bltb x big_epsilon.
(** tm_utility.h:650-652 *)
Definition clampf (val lower upper : float) : float :=
  if Bltb val lower then lower else if Bltb upper val then upper else val.
(** tm_utility.h:405-409 with T = float *)
Definition lerp (t a b : float) : float := fadd a (fmul t (fsub b a)).
(** tm_utility.h:412-417 with T = float *)
Definition remap (t tmin tmax a b : float) : float := fadd a (fmul (fdiv (fsub t tmin) (fsub tmax tmin)) (fsub b a)).
(** tm_utility.h:654 *)
Definition safe_divide (a b def : float) : float := if Beqb b fzero then def else fdiv a b.
