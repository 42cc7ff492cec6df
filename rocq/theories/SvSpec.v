(** What the operations of a vector mean for the sequence of its elements. *)
From Coq Require Import Arith List.
Import ListNotations.

Definition insert_at {X} (pos : nat) (l xs : list X) : list X := firstn pos xs ++ l ++ skipn pos xs.
Definition erase_at {X} (first last : nat) (xs : list X) : list X := firstn first xs ++ skipn last xs.
Definition resized {X} (n : nat) (x : X) (xs : list X) : list X := firstn n xs ++ repeat x (n - length xs).
Definition part {X} (first last : nat) (xs : list X) : list X := firstn (last - first) (skipn first xs).
Definition replace_at {X} (i : nat) (x : X) (xs : list X) : list X := firstn i xs ++ x :: skipn (S i) xs.
