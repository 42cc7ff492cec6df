(** Model of tm_resource_ptr.h: programs working with several pointers. A resource is a number; [None] is T(). What
    destroy_resource does to T() is nothing; what it does to a resource is recorded. *)
From Coq Require Import Arith List.
From Verif Require Import Base.
Import ListNotations.

Definition resource := option nat.
(** the objects, [None] when not constructed; what was destroyed; what release returned *)
Record heap := Heap { objects : list (option resource); destroyed : list nat; released : list nat }.
Definition put (i : nat) (o : option resource) (H : heap) : heap := Heap (firstn i (objects H) ++ o :: skipn (S i) (objects H)) (destroyed H) (released H).
Definition data (H : heap) (i : nat) : option resource := o <- nth_error (objects H) i ;; o.
(** the customization point destroy_resource *)
Definition destroy_resource (r : resource) (H : heap) : heap := Heap (objects H) (match r with Some x => x :: destroyed H | None => destroyed H end) (released H).

Inductive op :=
| Make (r : resource)           (* a new object: tm_resource_ptr.h:39-40, 84-87 *)
| Move_construct (j : nat)      (* a new object from object [j]: tm_resource_ptr.h:41 *)
| Move_assign (i j : nat)       (* tm_resource_ptr.h:43-46 *)
| Destruct (i : nat)            (* tm_resource_ptr.h:48 *)
| Release (i : nat)             (* tm_resource_ptr.h:50-54 *)
| Reset (i : nat) (r : resource) (* tm_resource_ptr.h:56-59 *)
| Swap (i j : nat)              (* tm_resource_ptr.h:61-65 *).
(** tm_resource_ptr.h:61-65 *)
Definition swap (i j : nat) (H : heap) : option heap :=
  temp <- data H j ;; x <- data H i ;;
  let H := put j (Some x) H in Some (put i (Some temp) H).
Definition run1 (o : op) (H : heap) : option heap :=
  match o with
  | Make r => Some (Heap (objects H ++ [Some r]) (destroyed H) (released H))
  | Move_construct j => x <- data H j ;; let H := put j (Some None) H in Some (Heap (objects H ++ [Some x]) (destroyed H) (released H))
  | Move_assign i j => swap i j H
  | Destruct i => x <- data H i ;; Some (put i None (destroy_resource x H))
  | Release i => x <- data H i ;; let H := put i (Some None) H in Some (Heap (objects H) (destroyed H) (match x with Some r => r :: released H | None => released H end))
  | Reset i r => x <- data H i ;; Some (put i (Some r) (destroy_resource x H))
  | Swap i j => swap i j H
  end.
Fixpoint run (os : list op) (H : heap) : option heap :=
  match os with
  | [] => Some H
  | o :: os => H <- run1 o H ;; run os H
  end.
Definition empty : heap := Heap [] [] [].
