(** What the functions of tm_utility.h are for, independent of their definitions. *)
From Coq Require Import NArith ZArith Bool List Permutation.
Import ListNotations.

(** A strict weak order, given as a test. *)
Record weak_order {T : Type} (lt : T -> T -> bool) : Prop := {
  wo_irrefl : forall x, lt x x = false;
  wo_trans : forall x y z, lt x y = true -> lt y z = true -> lt x z = true;
  wo_incomp : forall x y z, lt x y = false -> lt y z = false -> lt x z = false
}.
(** [x] is at most [y]. *)
Definition below {T : Type} (lt : T -> T -> bool) (x y : T) : Prop := lt y x = false.
(** The first and the last of the arguments when sorted; they are different arguments. *)
Definition sorts {T : Type} (lt : T -> T -> bool) (l : list T) (first : T) (mid : list T) (last : T) : Prop :=
  Permutation (first :: mid ++ [last]) l /\ Forall (below lt first) l /\ Forall (fun x => below lt x last) l.

Local Open Scope N_scope.
(** Byte [i] of a word, from the least significant one. *)
Definition byte (i : N) (x : N) : N := (x / 2 ^ (8 * i)) mod 256.
