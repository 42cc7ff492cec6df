(** Model of the thread pool of tm_async.h: the main thread (the only one that may issue and free work), any number of
    workers and the dispatch thread, interleaved step by step. A step is an access to memory shared by threads, or an
    operation on a semaphore or event, which behave as documented for Windows. Simplifications: accesses are sequentially
    consistent; the loops that advance read_pos and write_pos by compare-and-swap are one step (a failed round has no
    effect); tma_impl_init_slot, the two loads at the start of tma_impl_free_async_work, the end of that function from
    ResetEvent on and the dispatch thread's handling of an item are one step each; the ring has [N] entries (256) and a block of slots [C] (256); memory and events can always be created. Not modelled: waiting
    on several handles, progress, cancellation, storage, start-up and shutdown. *)
From Coq Require Import Arith Bool List.
From Verif Require Import Base.
Import ListNotations.

(** What happens, for the specification: [w] numbers the work issued. [Dispatched]: it was put into a queue, [Withdrawn]:
    taken out by tma_free_async_work, [Waited w ok]: a wait for it returned, TM_OK if [ok]. *)
Inductive event := Dispatched (w : nat) | Started (w : nat) | Finished (w : nat) | Withdrawn (w : nat) | Waited (w : nat) (ok : bool) | Freed (w : nat).

(** tm_async.h:709-724; [work]: procedure and context, [ring_pos]: [None] is -1 *)
Record slot := Slot { work : option nat; ring_pos : option nat; signaled : bool; evt : bool }.
(** tm_async.h:757-763 *)
Record queue := Queue { ring : list (option nat); read_pos : nat; write_pos : nat; read_sem : nat; write_sem : nat }.
(** where a worker is: in tma_worker_procedure, tma_impl_pop_force, tma_impl_execute *)
Inductive worker :=
| W_idle                              (* in WaitForMultipleObjects *)
| W_credit                            (* before read_pos is advanced *)
| W_claimed (p : nat)                 (* before the exchange *)
| W_took (s : option nat)             (* before the write semaphore is released *)
| W_run (s : nat)                     (* before the procedure is called *)
| W_running (s w : nat)               (* in the procedure *)
| W_ran (s w : nat)                   (* before event_signaled is set *)
| W_set (s w : nat)                   (* before SetEvent *).
(** where the main thread is; [d]: the queue is the dispatch queue *)
Inductive main :=
| M_ready
| M_try (s : nat)                     (* tma_impl_push on the work queue, before WaitForSingleObject *)
| M_block (s : nat)                   (* tma_impl_push on the dispatch queue, in WaitForSingleObject *)
| M_claim (d : bool) (s : nat)        (* tma_impl_try_push, before write_pos is advanced *)
| M_store (d : bool) (s p : nat)      (* before the compare-and-swap *)
| M_pos (d : bool) (s p : nat)        (* before work_ring_pos is stored *)
| M_post (d : bool) (s : nat)         (* before the read semaphore is released *)
| M_wait (s w : nat) (inf : bool)     (* tma_impl_wait_single, before event_signaled is loaded *)
| M_pop (s w : nat)                   (* before tma_impl_pop_slot *)
| M_event (s w : nat) (inf : bool)    (* in WaitForSingleObject *)
| M_signal (s w : nat) (ok : bool)    (* before event_signaled is set *)
| M_run (s w : nat)                   (* tma_impl_execute on the main thread *)
| M_running (s w w' : nat)
| M_ran (s w : nat)
| M_set (s w : nat)
| M_free (s w : nat)                  (* tma_impl_free_async_work *)
| M_fpop (s w : nat)
| M_fevent (s w : nat)
| M_fsignal (s w : nat)
| M_reset (s w : nat).
Record state := State {
  slots : list slot; avail : list bool; counts : list nat; wq : queue; dq : queue; arr : list nat; dispatcher : bool;
  main_at : main; workers : list worker; log : list event; next_work : nat; fault : bool
}.

Section Pool.
Variables N C : nat.
(** whether TM_ASSERT is compiled in, for the assertion that valid calls can break *)
Variable checks : bool.
(** tm_async.h:886-897 *)
Definition new_queue : queue := Queue (repeat None N) 0 0 0 N.
(** tm_async.h:2092-2199, [n] workers; the slots of a block are created with it *)
Definition no_slot : slot := Slot None None false false.
Definition initial (n : nat) : state := State (repeat no_slot C) (repeat true C) [C] new_queue new_queue [] true M_ready (repeat W_idle n) [] 0 false.

Definition set {A} (l : list A) (i : nat) (x : A) : list A := firstn i l ++ x :: skipn (S i) l.
Definition with_main (m : main) (t : state) : state := State (slots t) (avail t) (counts t) (wq t) (dq t) (arr t) (dispatcher t) m (workers t) (log t) (next_work t) (fault t).
Definition with_worker (k : nat) (w : worker) (t : state) : state := State (slots t) (avail t) (counts t) (wq t) (dq t) (arr t) (dispatcher t) (main_at t) (set (workers t) k w) (log t) (next_work t) (fault t).
Definition with_wq (q : queue) (t : state) : state := State (slots t) (avail t) (counts t) q (dq t) (arr t) (dispatcher t) (main_at t) (workers t) (log t) (next_work t) (fault t).
Definition with_dq (q : queue) (t : state) : state := State (slots t) (avail t) (counts t) (wq t) q (arr t) (dispatcher t) (main_at t) (workers t) (log t) (next_work t) (fault t).
Definition with_q (d : bool) (q : queue) (t : state) : state := if d then with_dq q t else with_wq q t.
Definition the_q (d : bool) (t : state) : queue := if d then dq t else wq t.
Definition with_slot (s : nat) (x : slot) (t : state) : state := State (set (slots t) s x) (avail t) (counts t) (wq t) (dq t) (arr t) (dispatcher t) (main_at t) (workers t) (log t) (next_work t) (fault t).
Definition logged (e : event) (t : state) : state := State (slots t) (avail t) (counts t) (wq t) (dq t) (arr t) (dispatcher t) (main_at t) (workers t) (log t ++ [e]) (next_work t) (fault t).
(** a failed assertion, access outside of an array or exit of the process *)
Definition failed (t : state) : state := State (slots t) (avail t) (counts t) (wq t) (dq t) (arr t) (dispatcher t) (main_at t) (workers t) (log t) (next_work t) true.
Definition put_ring (q : queue) (p : nat) (x : option nat) : queue := Queue (set (ring q) p x) (read_pos q) (write_pos q) (read_sem q) (write_sem q).
Definition set_signaled (x : slot) : slot := Slot (work x) (ring_pos x) true (evt x).
Definition set_event (x : slot) : slot := Slot (work x) (ring_pos x) (signaled x) true.

(** ** Workers *)
(** tm_async.h:854-871, 936-991; [None]: the step is not possible now *)
Definition worker_step (k : nat) (t : state) : option state :=
  w <- nth_error (workers t) k ;;
  let q := wq t in
  match w with
  | W_idle =>
    match read_sem q with
    | O => None
    | S n => Some (with_worker k W_credit (with_wq (Queue (ring q) (read_pos q) (write_pos q) n (write_sem q)) t))
    end
  | W_credit => Some (with_worker k (W_claimed (read_pos q)) (with_wq (Queue (ring q) ((read_pos q + 1) mod N) (write_pos q) (read_sem q) (write_sem q)) t))
  | W_claimed p => x <- nth_error (ring q) p ;; Some (with_worker k (W_took x) (with_wq (put_ring q p None) t))
  | W_took s =>
    Some (with_worker k (match s with Some s => W_run s | None => W_idle end)
           (with_wq (Queue (ring q) (read_pos q) (write_pos q) (read_sem q) (if Nat.ltb (write_sem q) N then write_sem q + 1 else write_sem q)) t))
  | W_run s =>
    x <- nth_error (slots t) s ;;
    match work x with Some w => Some (logged (Started w) (with_worker k (W_running s w) t)) | None => Some (failed t) end
  | W_running s w => Some (logged (Finished w) (with_worker k (W_ran s w) t))
  | W_ran s w => x <- nth_error (slots t) s ;; Some (with_worker k (W_set s w) (with_slot s (set_signaled x) t))
  | W_set s w => x <- nth_error (slots t) s ;; Some (with_worker k W_idle (with_slot s (set_event x) t))
  end.

(** ** The dispatch thread *)
(** tm_async.h:993-1010, 1018-1077. The work queue's write semaphore is the third handle, number WAIT_OBJECT_0 + 2, for
    which there is no case: the thread ends. Handles are tried in order. A grown array: with 16 entries from the start,
    malloc is called at the fifteenth and the test of its result is the wrong way round: exit(-1). *)
Definition dispatcher_step (t : state) : option state :=
  if negb (dispatcher t) then None
  else
    let q := dq t in
    match read_sem q with
    | S n =>
      let p := read_pos q in
      x <- nth_error (ring q) p ;;
      let q' := Queue (set (ring q) p None) ((p + 1) mod N) (write_pos q) n (if Nat.ltb (write_sem q) N then write_sem q + 1 else write_sem q) in
      let t' := with_dq q' t in
      match x with
      | None => Some t'
      | Some s =>
        if Nat.leb 16 (length (arr t) + 1) then Some (failed t')
        else Some (State (slots t') (avail t') (counts t') (wq t') (dq t') (arr t' ++ [s]) (dispatcher t') (main_at t') (workers t') (log t') (next_work t') (fault t'))
      end
    | O =>
      match arr t, write_sem (wq t) with
      | _ :: _, S n =>
        let w := wq t in
        let t' := with_wq (Queue (ring w) (read_pos w) (write_pos w) (read_sem w) n) t in
        Some (State (slots t') (avail t') (counts t') (wq t') (dq t') (arr t') false (main_at t') (workers t') (log t') (next_work t') (fault t'))
      | _, _ => None
      end
    end.

(** ** The main thread *)
(** the first block with a count, the first available slot of it: tm_async.h:1793-1829; a new block if there is none *)
Fixpoint first_block (i : nat) (cs : list nat) : option nat :=
  match cs with
  | [] => None
  | c :: cs => if Nat.eqb c 0 then first_block (S i) cs else Some i
  end.
Fixpoint first_true (i : nat) (l : list bool) : option nat :=
  match l with
  | [] => None
  | b :: l => if b then Some i else first_true (S i) l
  end.
(** tm_async.h:1786-1859, up to the dispatching *)
Definition allocate (t : state) : option (nat * state) :=
  let t := match first_block 0 (counts t) with
           | Some _ => t
           | None => State (slots t ++ repeat no_slot C) (avail t ++ repeat true C) (counts t ++ [C]) (wq t) (dq t) (arr t) (dispatcher t) (main_at t) (workers t) (log t) (next_work t) (fault t)
           end in
  i <- first_block 0 (counts t) ;;
  s <- first_true (i * C) (firstn C (skipn (i * C) (avail t))) ;;
  x <- nth_error (slots t) s ;;
  c <- nth_error (counts t) i ;;
  Some (s, State (set (slots t) s (Slot (Some (next_work t)) None false (evt x))) (set (avail t) s false) (set (counts t) i (c - 1)) (wq t) (dq t) (arr t) (dispatcher t) (main_at t) (workers t) (log t) (next_work t + 1) (fault t)).

Inductive label :=
| L_push (deferred : bool)   (* tma_push_async_work *)
| L_dispatch (s : nat)       (* tma_dispatch_async_work, handle of slot [s] *)
| L_wait (s : nat)           (* tma_wait_single *)
| L_wait_for (s : nat)       (* tma_wait_single_for *)
| L_free (s : nat)           (* tma_free_async_work *)
| L_main                     (* the main thread goes on *)
| L_timeout                  (* the time it waits for is over *)
| L_worker (k : nat)
| L_dispatcher.
(** the handle of a slot in use *)
Definition in_use (t : state) (s : nat) : option (slot * nat) := x <- nth_error (slots t) s ;; w <- work x ;; Some (x, w).
(** tm_async.h:1860-1868: tma_impl_dispatch_async_work unless it has a place *)
Definition begin_dispatch (s : nat) (x : slot) (t : state) : state := match ring_pos x with Some _ => t | None => with_main (M_try s) t end.
(** tm_async.h:880-884: whether the slot was in the ring; an index of -1 is outside of it *)
Definition pop_slot (s : nat) (x : slot) (t : state) : option (option (bool * state)) :=
  match ring_pos x with
  | None => Some None
  | Some p =>
    y <- nth_error (ring (wq t)) p ;;
    if match y with Some s' => Nat.eqb s' s | None => false end then Some (Some (true, with_wq (put_ring (wq t) p None) t)) else Some (Some (false, t))
  end.
(** tm_async.h:827-847 (try_push), 848-852 (push), 1079-1089, 936-950, 1108-1123, 1869-1911 *)
Definition main_step (t : state) : option state :=
  match main_at t with
  | M_ready => None
  | M_try s =>
    let q := wq t in
    match write_sem q with
    | S n => Some (with_main (M_claim false s) (with_wq (Queue (ring q) (read_pos q) (write_pos q) (read_sem q) n) t))
    | O => Some (with_main (M_block s) t)
    end
  | M_block s =>
    let q := dq t in
    match write_sem q with
    | S n => Some (with_main (M_claim true s) (with_dq (Queue (ring q) (read_pos q) (write_pos q) (read_sem q) n) t))
    | O => None
    end
  | M_claim d s =>
    let q := the_q d t in
    Some (with_main (M_store d s (write_pos q)) (with_q d (Queue (ring q) (read_pos q) ((write_pos q + 1) mod N) (read_sem q) (write_sem q)) t))
  | M_store d s p =>
    let q := the_q d t in
    y <- nth_error (ring q) p ;;
    match y with
    | None => Some (with_main (M_pos d s p) (with_q d (put_ring q p (Some s)) t))
    | Some _ => Some (with_main (if d then M_ready else M_block s) t)
    end
  | M_pos d s p => x <- nth_error (slots t) s ;; Some (with_main (M_post d s) (with_slot s (Slot (work x) (Some p) (signaled x) (evt x)) t))
  | M_post d s =>
    x <- nth_error (slots t) s ;;
    w <- work x ;;
    let q := the_q d t in
    Some (logged (Dispatched w) (with_main M_ready (with_q d (Queue (ring q) (read_pos q) (write_pos q) (if Nat.ltb (read_sem q) N then read_sem q + 1 else read_sem q) (write_sem q)) t)))
  | M_wait s w inf =>
    x <- nth_error (slots t) s ;;
    if signaled x then Some (logged (Waited w true) (with_main M_ready t))
    else if inf then Some (with_main (M_pop s w) t) else Some (with_main (M_event s w inf) t)
  | M_pop s w =>
    x <- nth_error (slots t) s ;;
    r <- pop_slot s x t ;;
    match r with
    | None => Some (failed t)
    | Some (true, t') => Some (with_main (M_run s w) t')
    | Some (false, t') => Some (with_main (M_event s w true) t')
    end
  | M_event s w inf => x <- nth_error (slots t) s ;; if evt x then Some (with_main (M_signal s w true) t) else None
  | M_signal s w ok => x <- nth_error (slots t) s ;; Some (logged (Waited w ok) (with_main M_ready (with_slot s (set_signaled x) t)))
  | M_run s w =>
    x <- nth_error (slots t) s ;;
    match work x with Some w' => Some (logged (Started w') (with_main (M_running s w w') t)) | None => Some (failed t) end
  | M_running s w w' => Some (logged (Finished w') (with_main (M_ran s w) t))
  | M_ran s w => x <- nth_error (slots t) s ;; Some (with_main (M_set s w) (with_slot s (set_signaled x) t))
  | M_set s w => x <- nth_error (slots t) s ;; Some (logged (Waited w true) (with_main M_ready (with_slot s (set_event x) t)))
  | M_free s w =>
    x <- nth_error (slots t) s ;;
    match ring_pos x with
    | Some _ => if signaled x then Some (with_main (M_reset s w) t) else Some (with_main (M_fpop s w) t)
    | None => Some (with_main (M_reset s w) t)
    end
  | M_fpop s w =>
    x <- nth_error (slots t) s ;;
    r <- pop_slot s x t ;;
    match r with
    | None => Some (failed t)
    | Some (true, t') => Some (logged (Withdrawn w) (with_main (M_reset s w) t'))
    | Some (false, t') => Some (with_main (M_fevent s w) t')
    end
  | M_fevent s w => x <- nth_error (slots t) s ;; if evt x then Some (with_main (M_fsignal s w) t) else None
  | M_fsignal s w => x <- nth_error (slots t) s ;; Some (with_main (M_reset s w) (with_slot s (set_signaled x) t))
  | M_reset s w =>
    x <- nth_error (slots t) s ;;
    let t' := with_slot s no_slot t in
    if checks && negb (signaled x) && match ring_pos x with Some _ => true | None => false end then Some (failed t)
    else Some (logged (Freed w) (State (slots t') (set (avail t') s true) (counts t') (wq t') (dq t') (arr t') (dispatcher t') M_ready (workers t') (log t') (next_work t') (fault t')))
  end.
(** [None]: not possible now. Calls with a handle that is not in use fail. *)
Definition exec (l : label) (t : state) : option state :=
  if fault t then None
  else match l with
  | L_worker k => worker_step k t
  | L_dispatcher => dispatcher_step t
  | L_main => main_step t
  | L_timeout => match main_at t with M_event s w false => Some (with_main (M_signal s w false) t) | _ => None end
  | _ =>
    match main_at t with
    | M_ready =>
      match l with
      | L_push deferred => ' (s, t') <- allocate t ;; Some (if deferred then t' else with_main (M_try s) t')
      | L_dispatch s => match in_use t s with Some (x, _) => Some (begin_dispatch s x t) | None => Some (failed t) end
      | L_wait s => match in_use t s with Some (x, w) => Some (with_main (M_wait s w true) t) | None => Some (failed t) end
      | L_wait_for s => match in_use t s with Some (x, w) => Some (with_main (M_wait s w false) t) | None => Some (failed t) end
      | L_free s => match in_use t s with Some (x, w) => Some (with_main (M_free s w) t) | None => Some (failed t) end
      | _ => None
      end
    | _ => None
    end
  end.
Fixpoint execs (ls : list label) (t : state) : option state :=
  match ls with
  | [] => Some t
  | l :: ls => t <- exec l t ;; execs ls t
  end.
End Pool.
