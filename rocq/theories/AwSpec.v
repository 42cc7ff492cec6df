(** What users of the waits on several handles rely on. *)
From Coq Require Import Arith Bool List.
From Verif Require Import Base AsModel AsSpec AwModel.
Import ListNotations.

(** the slot of a handle holds a work that has ended *)
Definition ended (t : state) (s : nat) : Prop := exists x w, nth_error (slots t) s = Some x /\ work x = Some w /\ In (Finished w) (log t).
(** the handle of slot [s] is in use *)
Definition busy (t : state) (s : nat) : Prop := exists x w, nth_error (slots t) s = Some x /\ work x = Some w.
(** no handle occurs twice, except invalid ones *)
Definition unique (hs : list handle) : Prop := forall i j s, nth_error hs i = Some (Some s) -> nth_error hs j = Some (Some s) -> i = j.
(** The calls that behave: waiting for any without a limit for at most [K] handles, polling or with a limit for any
    number; waiting for all with a limit only with assertions switched off, and when polling for exactly [K] handles. *)
Definition fine_call (K : nat) (checks : bool) (hs : list handle) (all : bool) (m : mode) : Prop :=
  if all then checks = false /\ match m with Poll => length hs = K | Timed => True | Forever => False end
  else match m with Forever => length hs <= K | _ => True end.
Definition allowed (K : nat) (checks : bool) (t : state) (l : xlabel) : Prop :=
  match l with
  | X l => timed l = false /\ (is_push l = true -> ~ stale t)
  | X_all _ => True
  | X_multi hs all m => fine_call K checks hs all m
  | X_go _ _ => True
  end.
Inductive xcareful (N C : nat) (checks : bool) (K : nat) (c0 : call) (t0 : state) : list xlabel -> call -> state -> Prop :=
| xcareful_nil : xcareful N C checks K c0 t0 [] c0 t0
| xcareful_snoc ls c t l c' t' :
    xcareful N C checks K c0 t0 ls c t -> allowed K checks t l -> xexec N C checks K l c t = Some (c', t') ->
    xcareful N C checks K c0 t0 (ls ++ [l]) c' t'.
Definition dispatched_count (l : list event) : nat := length (filter (fun e => match e with Dispatched _ => true | _ => false end) l).
(** what happens during a call: the threads of the pool and the main thread go on *)
Definition in_call (l : xlabel) : bool := match l with X l => environment l | X_go _ _ => true | _ => false end.
