(** What a user of the file functions sees, independently of how they are written. *)
From Coq Require Import Arith NArith List Bool.
From Verif Require Import Base FiModel.
Import ListNotations.
Local Open Scope N_scope.

(** What is found under a path. *)
Definition found (s : os) (p : path) : option node := match p with [] => None | _ => lookup (o_tree s) (key_of p) end.
(** Every entry lies in a directory. *)
Definition sound_tree (t : tree) : Prop := forall a cs c, lookup t (a, cs ++ [c]) <> None -> lookup t (a, cs) = Some Dir.
(** Nothing goes wrong from here on: no call fails and every request for memory is granted. *)
Definition calm (s : os) : Prop := Forall (fun f => f = None) (o_faults s) /\ Forall (fun b => b = true) (o_mem s).
(** The result of a read holds these octets: nothing for an empty file, otherwise a block with the octets in front. *)
Definition holds_bytes (c : contents) (bs : list N) : Prop :=
  f_size c = length bs /\
  match bs with
  | [] => c = no_contents
  | _ => exists cells, f_data c = Some cells /\ length cells = f_capacity c /\ firstn (length bs) cells = bs
  end.
(** The blocks a result owns. *)
Definition owned (c : contents) : nat := match f_data c with Some _ => 1%nat | None => 0%nat end.
(** Two trees show the same except under some keys. *)
Definition same_but (t t' : tree) (ks : key -> Prop) : Prop := forall k, ~ ks k -> lookup t' k = lookup t k.
