(** What users of the thread pool rely on, in terms of what happens: issue, start, end, waits and frees of work. *)
From Coq Require Import Arith Bool List.
From Verif Require Import Base AsModel.
Import ListNotations.

(** [w] runs at most once; it runs only between being issued and being freed; it is not withdrawn and run; a wait that
    returns TM_OK returns after the end of it; it is freed once, and then it has ended, was withdrawn or never begun. *)
Definition event_ok (before : list event) (e : event) : Prop :=
  match e with
  | Dispatched w => ~ In (Dispatched w) before /\ ~ In (Freed w) before
  | Started w => ~ In (Started w) before /\ ~ In (Withdrawn w) before /\ ~ In (Freed w) before
  | Finished w => In (Started w) before /\ ~ In (Finished w) before /\ ~ In (Freed w) before
  | Withdrawn w => ~ In (Started w) before /\ ~ In (Withdrawn w) before /\ ~ In (Freed w) before
  | Waited w ok => (ok = true -> In (Finished w) before) /\ ~ In (Freed w) before
  | Freed w => ~ In (Freed w) before /\ (In (Started w) before -> In (Finished w) before) /\
               (In (Dispatched w) before -> In (Finished w) before \/ In (Withdrawn w) before)
  end.
Definition history_ok (l : list event) : Prop := forall before e after, l = before ++ e :: after -> event_ok before e.

(** The calls of a schedule *)
Definition timed (l : label) : bool := match l with L_wait_for _ | L_timeout => true | _ => false end.
Definition is_push (l : label) : bool := match l with L_push _ => true | _ => false end.
Definition is_free (l : label) : bool := match l with L_free _ => true | _ => false end.
Definition dispatches (l : label) : bool := match l with L_push deferred => negb deferred | L_dispatch _ => true | _ => false end.
Definition is_call (l : label) : bool := match l with L_push _ | L_dispatch _ | L_wait _ | L_wait_for _ | L_free _ => true | _ => false end.
(** an available slot whose event is set or about to be: its last work was freed after the worker set the flag and
    before it set the event *)
Definition stale (t : state) : Prop :=
  exists s x, nth_error (slots t) s = Some x /\ nth_error (avail t) s = Some true /\
    (evt x = true \/ exists k w, nth_error (workers t) k = Some (W_set s w)).
(** The schedules for which the properties hold: no timed waits, and no work issued while a slot is stale *)
Inductive careful (N C : nat) (checks : bool) : state -> list label -> state -> Prop :=
| careful_nil t : careful N C checks t [] t
| careful_snoc t ls t1 l t2 :
    careful N C checks t ls t1 -> timed l = false -> (is_push l = true -> ~ stale t1) -> exec N C checks l t1 = Some t2 ->
    careful N C checks t (ls ++ [l]) t2.
(** Calls a program may make: with handles in use; a wait only for work that was dispatched *)
Definition legal (t : state) (l : label) : Prop :=
  match l with
  | L_dispatch s | L_free s => exists x w, nth_error (slots t) s = Some x /\ work x = Some w
  | L_wait s | L_wait_for s => exists x w, nth_error (slots t) s = Some x /\ work x = Some w /\ In (Dispatched w) (log t)
  | _ => True
  end.
Inductive proper (N C : nat) (checks : bool) : state -> list label -> state -> Prop :=
| proper_nil t : proper N C checks t [] t
| proper_snoc t ls t1 l t2 :
    proper N C checks t ls t1 -> timed l = false -> (is_push l = true -> ~ stale t1) -> legal t1 l -> exec N C checks l t1 = Some t2 ->
    proper N C checks t (ls ++ [l]) t2.
