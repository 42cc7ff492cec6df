(** What the views of tm_arrayview.h are for: a sequence of bounded length in given memory. *)
From Coq Require Import Arith NArith List.
Import ListNotations.

Section Bounded.
Variable A : Type.

(** Operations on a sequence; positions are indices. *)
Inductive op :=
| Push (x : A) | TryPush (x : A) | Pop | TryPop | Clear | Shrink (n : nat)
| AssignValue (n : nat) (x : A) | AssignOwn (n i : nat) | AssignList (xs : list A) | AssignFrom (xs : list A)
| InsertValue (k n : nat) (x : A) | InsertOwn (k n i : nat) | InsertFrom (k : nat) (xs : list A)
| Erase (k : nat) | EraseRange (k n : nat).

(** [bounded c xs o ys]: the operation [o] is allowed for the sequence [xs] in memory for [c] elements and yields [ys].
    Operations that would not fit are not allowed, but insertion of a value is cut off. *)
Inductive bounded (c : nat) : list A -> op -> list A -> Prop :=
| B_push xs x : length xs < c -> bounded c xs (Push x) (xs ++ [x])
| B_try_push xs x : length xs < c -> bounded c xs (TryPush x) (xs ++ [x])
| B_try_full xs x : length xs = c -> bounded c xs (TryPush x) xs
| B_pop xs x : bounded c (xs ++ [x]) Pop xs
| B_try_pop xs x : bounded c (xs ++ [x]) TryPop xs
| B_try_empty : bounded c [] TryPop []
| B_clear xs : bounded c xs Clear []
| B_shrink xs n : n <= length xs -> bounded c xs (Shrink n) (firstn n xs)
| B_assign_value xs n x : bounded c xs (AssignValue n x) (repeat x (min n c))
| B_assign_own xs n i x : nth_error xs i = Some x -> bounded c xs (AssignOwn n i) (repeat x (min n c))
| B_assign_list xs ys : length ys <= c -> bounded c xs (AssignList ys) ys
| B_assign_from xs ys : length ys <= c -> bounded c xs (AssignFrom ys) ys
| B_insert_value a b n x : (N.of_nat (min n (c - length (a ++ b))) < 2 ^ 31)%N ->
    bounded c (a ++ b) (InsertValue (length a) n x) (a ++ repeat x (min n (c - length (a ++ b))) ++ b)
| B_insert_own a b n i x : (N.of_nat (min n (c - length (a ++ b))) < 2 ^ 31)%N -> nth_error (a ++ b) i = Some x ->
    bounded c (a ++ b) (InsertOwn (length a) n i) (a ++ repeat x (min n (c - length (a ++ b))) ++ b)
| B_insert_from a b ys : length (a ++ ys ++ b) <= c -> bounded c (a ++ b) (InsertFrom (length a) ys) (a ++ ys ++ b)
| B_erase a x b : bounded c (a ++ x :: b) (Erase (length a)) (a ++ b)
| B_erase_range a xs b : bounded c (a ++ xs ++ b) (EraseRange (length a) (length xs)) (a ++ b).
End Bounded.
