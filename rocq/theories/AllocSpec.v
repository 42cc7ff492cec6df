(** What a client of an allocator relies on, independent of the model. *)
From Coq Require Import NArith List.
Import ListNotations.
Local Open Scope N_scope.

Record block := Block { b_ptr : N; b_size : N; b_align : N }.
Definition b_end (b : block) : N := b_ptr b + b_size b.

(** Blocks of the memory from [lo] to [hi] that can be used independently. *)
Definition inside (lo hi : N) (b : block) : Prop := lo <= b_ptr b /\ b_end b <= hi.
Definition aligned (b : block) : Prop := b_ptr b mod b_align b = 0.
Definition disjoint (b c : block) : Prop := b_end b <= b_ptr c \/ b_end c <= b_ptr b.
Definition usable (lo hi : N) (live : list block) : Prop :=
  Forall (inside lo hi) live /\ Forall aligned live /\ ForallOrdPairs disjoint live.

(** Alignments are powers of two that fit a size_t. *)
Definition pow2 (a : N) : Prop := exists k, k < 64 /\ a = 2 ^ k.

(** The number of octets from [x] to the next multiple of [a]. *)
Definition pad (x a : N) : N := (a - x mod a) mod a.
