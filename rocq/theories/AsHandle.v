(** Handles and error codes of tm_async.h. *)
From Coq Require Import ZArith Bool Lia.
From Verif Require Import Base.
Open Scope Z_scope.

(** signed arithmetic of 32 bits: [None] on overflow *)
Definition int32 (z : Z) : option Z := if (-2147483648 <=? z) && (z <=? 2147483647) then Some z else None.
(** tm_async.h:800-804; the conversion (int32_t)ec of an enumerator is the identity *)
Definition handle_of_error (ec : Z) : option Z := x <- int32 (ec - 1) ;; int32 (- x).
(** tm_async.h:805-809 *)
Definition handle_of_index (i : Z) : option Z := int32 (i + 1).
(** tm_async.h:810 *)
Definition index_of_handle (h : Z) : option Z := int32 (h - 1).
(** tm_async.h:205 and 199 *)
Definition handle_valid (h : Z) : bool := 0 <? h.
(** tm_async.h:206-208 and 200 *)
Definition error_of_handle (h : Z) : option Z := if h <=? 0 then x <- int32 (h - 1) ;; int32 (- x) else Some 0.

Lemma int32_ok z : -2147483648 <= z <= 2147483647 -> int32 z = Some z.
Proof. intros H. unfold int32. destruct (Z.leb_spec (-2147483648) z); [|lia]. destruct (Z.leb_spec z 2147483647); [|lia]. reflexivity. Qed.
