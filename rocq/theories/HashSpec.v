(** Independent specifications for the hash map properties. *)
From Coq Require Import NArith List Bool.
Import ListNotations.
Local Open Scope N_scope.

(** 64-bit FNV-1a as published: offset basis 14695981039346656037, prime 1099511628211. *)
Definition fnv1a_from (basis : N) (bytes : list N) : N :=
  fold_left (fun h b => (N.lxor h b * 1099511628211) mod 2 ^ 64) bytes basis.
Definition fnv1a (bytes : list N) : N := fnv1a_from 14695981039346656037 bytes.

(** [n] is the number of keys a finite map holds. *)
Definition size_is {K V : Type} (s : K -> option V) (n : N) : Prop :=
  exists l, NoDup l /\ N.of_nat (length l) = n /\ forall k, In k l <-> s k <> None.
