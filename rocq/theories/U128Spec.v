(** Independent specification vocabulary for 128-bit integers. *)
From Coq Require Import NArith.
From Verif Require Import Base U128Model.
Local Open Scope N_scope.

(** The number represented by a pair of 64-bit words. *)
Definition val (v : u128) : N := high v * 2 ^ 64 + low v.

(** Both words are uint64_t values: the C type guarantees this for every tmi_uint128_t. *)
Definition wf (v : u128) : Prop := low v < 2 ^ 64 /\ high v < 2 ^ 64.

(** [k] is the position of the highest / lowest set bit of [n]. *)
Definition highest_bit (n k : N) : Prop :=
  N.testbit n k = true /\ forall j, k < j -> N.testbit n j = false.
Definition lowest_bit (n k : N) : Prop :=
  N.testbit n k = true /\ forall j, j < k -> N.testbit n j = false.

(** Number of set bits among the lowest [bits] bits. *)
Fixpoint count_bits (bits : nat) (n : N) : N :=
  match bits with
  | O => 0
  | S b => count_bits b n + (if N.testbit n (N.of_nat b) then 1 else 0)
  end.
