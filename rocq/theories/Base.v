(** Common vocabulary of the models: machine words, undefined behaviour, buffers. *)
From Coq Require Import NArith ZArith List Bool Lia.
Import ListNotations.
Local Open Scope N_scope.

(** 2^32 and 2^64 as literals, so that [lia] sees them. *)
Notation W32 := 4294967296 (only parsing).
Notation W64 := 18446744073709551616 (only parsing).
Notation W128 := 340282366920938463463374607431768211456 (only parsing).

(** Truncation to uint32_t / uint64_t. *)
Definition w32 (x : N) : N := x mod W32.
Definition w64 (x : N) : N := x mod W64.

(** Wrapping uint64_t / uint32_t subtraction. *)
Definition sub64 (a b : N) : N := (a + W64 - b) mod W64.
Definition sub32 (a b : N) : N := (a + W32 - b) mod W32.

(** [None] is undefined behaviour: a failing TM_ASSERT, an access outside of an object,
    signed overflow, a shift by the width of the type or more. *)
Notation "x <- e ;; k" := (match e with Some x => k | None => None end)
  (at level 61, e at next level, right associativity).
Notation "' p <- e ;; k" := (match e with Some p => k | None => None end)
  (at level 61, p pattern, e at next level, right associativity).

Definition assert_ {A} (b : bool) (k : option A) : option A := if b then k else None.

(** C's 0/1 value of a condition. *)
Definition b2n (b : bool) : N := if b then 1 else 0.

(** A write to cell [i] of a buffer; outside of the buffer it is undefined behaviour. *)
Fixpoint write {A} (buf : list A) (i : nat) (c : A) : option (list A) :=
  match buf, i with
  | [], _ => None
  | _ :: t, O => Some (c :: t)
  | h :: t, S i' => t' <- write t i' c ;; Some (h :: t')
  end.

(** POSIX error codes used by the conversion functions. *)
Inductive errc := OK | EINVAL | ERANGE | EOVERFLOW | ENOMEM | EILSEQ.

Definition errc_eqb (a b : errc) : bool :=
  match a, b with
  | OK, OK | EINVAL, EINVAL | ERANGE, ERANGE | EOVERFLOW, EOVERFLOW
  | ENOMEM, ENOMEM | EILSEQ, EILSEQ => true
  | _, _ => false
  end.

(** tmi_conv_result / tmc_conv_result: number of characters and error code. Sizes are lengths of
    objects in memory and modelled as [nat]. *)
Record conv := Conv { cv_size : nat; cv_ec : errc }.
