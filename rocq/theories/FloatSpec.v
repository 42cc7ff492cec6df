(** IEEE-754 binary formats, as exact numbers. *)
From Coq Require Import NArith Bool.
Local Open Scope N_scope.

(** The value of a non-negative finite number with exponent field [e] and mantissa field [m] in
    a format of precision [p], in units of the smallest positive number of the format. *)
Definition decode (p e m : N) : N := if e =? 0 then m else (2 ^ (p - 1) + m) * 2 ^ (e - 1).

(** binary32: units of 2^-149. Non-negative finite numbers are the patterns below 0x7F800000. *)
Definition finite32 (bits : N) : Prop := bits < 255 * 2 ^ 23.
Definition value32 (bits : N) : N := decode 24 (bits / 2 ^ 23) (bits mod 2 ^ 23).
Definition unit32 : N := 2 ^ 149.   (* the number 1 in these units *)

(** binary64: units of 2^-1074. *)
Definition finite64 (bits : N) : Prop := bits < 2047 * 2 ^ 52.
Definition value64 (bits : N) : N := decode 53 (bits / 2 ^ 52) (bits mod 2 ^ 52).
Definition unit64 : N := 2 ^ 1074.

Definition dist (a b : N) : N := N.max a b - N.min a b.

(** Correct rounding of the exact quantity [t] among the finite numbers of a format. *)
Definition rounded_nearest_even (finite : N -> Prop) (value : N -> N) (t r : N) : Prop :=
  finite r /\ forall f, finite f ->
    dist (value r) t <= dist (value f) t /\
    (dist (value f) t = dist (value r) t -> f = r \/ N.even r = true).
Definition rounded_up (finite : N -> Prop) (value : N -> N) (t r : N) : Prop :=
  finite r /\ t <= value r /\ forall f, finite f -> t <= value f -> value r <= value f.
Definition rounded_down (finite : N -> Prop) (value : N -> N) (t r : N) : Prop :=
  finite r /\ value r <= t /\ forall f, finite f -> value f <= t -> value f <= value r.
