(** Cubic Bezier curves over the rationals. *)
From Coq Require Import ZArith QArith.
Local Open Scope Q_scope.

(** The curve, by its Bernstein form. *)
Definition bezier (p0 p1 p2 p3 t : Q) : Q :=
  p0 * ((1 - t) * (1 - t) * (1 - t)) + 3 * p1 * ((1 - t) * (1 - t) * t) + 3 * p2 * ((1 - t) * t * t) + p3 * (t * t * t).
(** The k-th of n steps. *)
Definition at_step (n : Z) (k : nat) : Q := inject_Z (Z.of_nat k) / inject_Z n.
