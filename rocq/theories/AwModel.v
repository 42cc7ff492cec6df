(** Model of waiting on several handles of tm_async.h, on top of the thread pool of AsModel: what the main thread does in
    such a call, step by step, interleaved with the workers and the dispatch thread. The slots, the queues and the calls
    that are used on the way (tma_impl_dispatch_async_work, tma_impl_pop_slot, tma_impl_execute) are those of AsModel.
    Simplifications: those of AsModel; an event is identified with its slot; WaitForMultipleObjects behaves as documented:
    it fails if a handle occurs twice, otherwise reports the first object that is set, or all; a time that is not zero
    may be over at any moment; the timer, the semaphore and the memory of the case of more than 64 handles can always be
    created. That the wait has seen the end of a work is logged as [Waited]. *)
From Coq Require Import Arith Bool List.
From Verif Require Import Base AsModel.
Import ListNotations.

(** a handle: the slot, [None] for an invalid one *)
Definition handle := option nat.
Fixpoint distinct (l : list nat) : bool := match l with [] => true | a :: l => negb (existsb (Nat.eqb a) l) && distinct l end.
(** the event of slot [s] is set *)
Definition is_set (t : state) (s : nat) : bool := match nth_error (slots t) s with Some x => evt x | None => false end.
(** work_ring_pos < 0 *)
Definition no_pos (x : slot) : bool := match ring_pos x with Some _ => false | None => true end.
(** storing 1 into event_signaled of slot [s] *)
Definition mark (s : nat) (t : state) : option state :=
  match in_use t s with Some (x, w) => Some (logged (Waited w true) (with_slot s (set_signaled x) t)) | None => Some (failed t) end.

(** ** tma_impl_wait_all_infinite: tm_async.h:1264-1365 *)
(** where the main thread is; [c]: chunk_start *)
Inductive apc :=
| P_chunk (c : nat)                   (* test of the loop over the chunks *)
| P_flag (c i : nat)                  (* before event_signaled of handles_start[i] is loaded *)
| P_pos (c i s : nat)                 (* before work_ring_pos is loaded *)
| P_dispatch (c i s : nat)            (* in tma_impl_dispatch_async_work *)
| Q_pos (c i : nat)                   (* second pass, before work_ring_pos of slots[i] is loaded *)
| Q_dispatch (c i s : nat)            (* in tma_impl_dispatch_async_work *)
| Q_pop (c i s : nat)                 (* before tma_impl_pop_slot *)
| Q_execute (c i s : nat)             (* in tma_impl_execute *)
| Q_wait (c : nat)                    (* WaitForMultipleObjects *)
| Q_mark (c j : nat)                  (* before event_signaled of slots[slot_index[j]] is set *)
| P_return (ok : bool).
(** [acc]: slots, [evs]: the slots of events_buffer; [pend]: the slots whose pending is set, which outlives the call *)
Record all_call := AllCall { apc_of : apc; first_pass : bool; todo : bool; did : bool; acc : list nat; evs : list nat; pend : list nat }.
Section Calls.
Variables N C : nat.
Variable checks : bool.
(** MAXIMUM_WAIT_OBJECTS *)
Variable K : nat.
Definition at_pc (p : apc) (a : all_call) : all_call := AllCall p (first_pass a) (todo a) (did a) (acc a) (evs a) (pend a).
Definition more_acc (s : nat) (a : all_call) : all_call := AllCall (apc_of a) (first_pass a) (todo a) (did a) (acc a ++ [s]) (evs a) (pend a).
Definition more_evs (s : nat) (a : all_call) : all_call := AllCall (apc_of a) (first_pass a) (todo a) (did a) (acc a) (evs a ++ [s]) (pend a).
Definition now_pending (s : nat) (a : all_call) : all_call := AllCall (apc_of a) (first_pass a) (todo a) (did a) (acc a) (evs a) (s :: pend a).
Definition has_did (a : all_call) : all_call := AllCall (apc_of a) (first_pass a) (todo a) true (acc a) (evs a) (pend a).
Definition has_todo (a : all_call) : all_call := AllCall (apc_of a) (first_pass a) true (did a) (acc a) (evs a) (pend a).
(** the start of a chunk and of a pass *)
Definition fresh (a : all_call) : all_call := AllCall (apc_of a) (first_pass a) (todo a) (did a) [] [] (pend a).
Definition start_all (pend : list nat) : all_call := AllCall (P_chunk 0) true false false [] [] pend.
Definition next_pass (a : all_call) : all_call := AllCall (P_chunk 0) false false false [] [] (pend a).
(** the slot is added to events_buffer or tried first: tm_async.h:1317-1334 *)
Definition try_slot (c i s : nat) (a : all_call) : all_call :=
  if existsb (Nat.eqb s) (pend a) then at_pc (Q_pos c (i + 1)) (more_evs s a) else at_pc (Q_pop c i s) a.
(** [None]: not possible now *)
Definition all_step (hs : list handle) (a : all_call) (t : state) : option (all_call * state) :=
  match apc_of a with
  | P_chunk c =>
    if Nat.ltb c (length hs) then Some (at_pc (P_flag c 0) (fresh a), t)
    else if todo a then Some (next_pass a, t)
    else Some (at_pc (P_return true) a, t)
  | P_flag c i =>
    (* remaining: min (K, handles_count - chunk_start) *)
    if Nat.ltb i (Nat.min K (length hs - c)) then
      match nth_error hs (c + i) with
      | None => Some (a, failed t)
      | Some None => Some (at_pc (P_flag c (i + 1)) a, t)
      | Some (Some s) =>
        match in_use t s with
        | None => Some (a, failed t)
        | Some (x, _) => if signaled x then Some (at_pc (P_flag c (i + 1)) a, t) else Some (at_pc (P_pos c i s) a, t)
        end
      end
    else match acc a with
         | [] => Some (at_pc (P_chunk (c + K)) a, t)
         | _ => Some (at_pc (Q_pos c 0) a, t)
         end
  | P_pos c i s =>
    x <- nth_error (slots t) s ;;
    if no_pos x then Some (at_pc (P_dispatch c i s) a, with_main (M_try s) t) else Some (at_pc (P_flag c (i + 1)) (more_acc s a), t)
  | P_dispatch c i s =>
    match main_at t with
    | M_ready => Some (at_pc (P_flag c (i + 1)) (more_acc s a), t)
    | _ => t' <- main_step N checks t ;; Some (a, t')
    end
  | Q_pos c i =>
    match nth_error (acc a) i with
    | None => Some (at_pc (Q_wait c) a, t)
    | Some s => x <- nth_error (slots t) s ;; if no_pos x then Some (at_pc (Q_dispatch c i s) a, with_main (M_try s) t) else Some (try_slot c i s a, t)
    end
  | Q_dispatch c i s =>
    match main_at t with
    | M_ready =>
      (* TM_TRUE is returned after a position was stored *)
      match in_use t s with
      | None => Some (a, failed t)
      | Some (x, w) => if no_pos x then Some (at_pc (Q_execute c i s) a, with_main (M_run s w) t) else Some (try_slot c i s a, t)
      end
    | _ => t' <- main_step N checks t ;; Some (a, t')
    end
  | Q_pop c i s =>
    match in_use t s with
    | None => Some (a, failed t)
    | Some (x, w) =>
      r <- pop_slot s x t ;;
      match r with
      | None => Some (a, failed t)
      | Some (true, t') => Some (at_pc (Q_execute c i s) a, with_main (M_run s w) t')
      | Some (false, t') => Some (at_pc (Q_pos c (i + 1)) (more_evs s (now_pending s a)), t')
      end
    end
  | Q_execute c i s =>
    match main_at t with
    | M_ready => Some (at_pc (Q_pos c (i + 1)) (has_did a), t)
    | _ => t' <- main_step N checks t ;; Some (a, t')
    end
  | Q_wait c =>
    match evs a with
    | [] => Some (at_pc (P_chunk (c + K)) a, t)
    | _ =>
      let a := has_todo a in
      if negb (distinct (evs a)) then Some (at_pc (P_return false) a, t)
      else if forallb (is_set t) (evs a) then Some (at_pc (Q_mark c 0) a, t)
      else if did a || first_pass a then Some (at_pc (P_chunk (c + K)) a, t)
      else None
    end
  | Q_mark c j =>
    match nth_error (evs a) j with
    | None => Some (at_pc (P_chunk (c + K)) a, t)
    | Some s => t' <- mark s t ;; Some (at_pc (Q_mark c (j + 1)) a, t')
    end
  | P_return _ => None
  end.

(** ** tma_impl_wait_multiple_chunk: tm_async.h:1126-1245 *)
Inductive mode := Poll | Timed | Forever.
(** [Found i]: tma_impl_processed with TM_OK and index [i]; [Late]: TM_ETIMEDOUT; [Bad]: another error; [NoWork]:
    tma_impl_no_work; [Overflow]: tma_impl_overflow, with TM_OK *)
Inductive outcome := Found (i : nat) | Late | Bad | NoWork | Overflow.
Inductive cpc :=
| C_flag (i : nat)                    (* before event_signaled of handles[i] is loaded *)
| C_pos (i s : nat)                   (* before work_ring_pos is loaded *)
| C_dispatch (i s : nat)              (* in tma_impl_dispatch_async_work *)
| C_execute (i s : nat)               (* in tma_impl_execute *)
| C_wait                              (* WaitForMultipleObjects *)
| C_mark (k : nat)                    (* before event_signaled is set for handles_index[k] *)
| C_marks (j i : nat)                 (* the same for all, from the j-th; [i]: the index to be returned *)
| C_again (i : nat)                   (* dispatching [undispatched]; [i]: the index to be returned *)
| C_return (o : outcome).
(** [buf]: events_buffer and handles_index; [fin]: has_finished_work; [und]: undispatched *)
Record chunk_call := ChunkCall { cpc_of : cpc; buf : list (nat * nat); fin : bool; und : option nat }.
Definition at_cpc (p : cpc) (a : chunk_call) : chunk_call := ChunkCall p (buf a) (fin a) (und a).
Definition returns (o : outcome) (a : chunk_call) : chunk_call := at_cpc (C_return o) a.
Definition start_chunk : chunk_call := ChunkCall (C_flag 0) [] false None.
(** tm_async.h:1158-1162, 1200-1204 *)
Definition add_buf (i s : nat) (a : chunk_call) : chunk_call :=
  if Nat.leb K (length (buf a)) then returns Overflow a else ChunkCall (C_flag (i + 1)) (buf a ++ [(s, i)]) (fin a) (und a).
(** the first event that is set *)
Fixpoint first_set (t : state) (k : nat) (l : list (nat * nat)) : option nat :=
  match l with
  | [] => None
  | (s, _) :: l => if is_set t s then Some k else first_set t (S k) l
  end.
(** tm_async.h:1239-1243: the end after a successful wait *)
Definition finish (i : nat) (a : chunk_call) : chunk_call := match und a with Some _ => at_cpc (C_again i) a | None => returns (Found i) a end.
(** [start], [count]: the part of the handles; [all]: wait_all; [over]: the time is over *)
Definition chunk_step (hs : list handle) (start count : nat) (all : bool) (m : mode) (over : bool) (a : chunk_call) (t : state) : option (chunk_call * state) :=
  match cpc_of a with
  | C_flag i =>
    if Nat.ltb i count then
      match nth_error hs (start + i) with
      | None => Some (a, failed t)
      | Some None => Some (at_cpc (C_flag (i + 1)) a, t)
      | Some (Some s) =>
        match in_use t s with
        | None => Some (a, failed t)
        | Some (x, _) =>
          if signaled x then
            if all then Some (ChunkCall (C_flag (i + 1)) (buf a) true (und a), t) else Some (returns (Found i) a, t)
          else Some (at_cpc (C_pos i s) a, t)
        end
      end
    else match buf a with
         | [] => if all && fin a then Some (returns (Found 0) a, t) else Some (returns NoWork a, t)
         | _ => Some (at_cpc C_wait a, t)
         end
  | C_pos i s =>
    x <- nth_error (slots t) s ;;
    if no_pos x then Some (at_cpc (C_dispatch i s) a, with_main (M_try s) t) else Some (add_buf i s a, t)
  | C_dispatch i s =>
    match main_at t with
    | M_ready =>
      match in_use t s with
      | None => Some (a, failed t)
      | Some (x, w) =>
        if no_pos x then
          if all then match m with
                      | Forever => Some (ChunkCall (C_execute i s) (buf a) true (und a), with_main (M_run s w) t)
                      | Poll => Some (returns Late a, t)
                      | Timed => Some (returns Overflow a, t)
                      end
          else Some (ChunkCall (C_flag (i + 1)) (buf a) (fin a) (Some s), t)
        else Some (add_buf i s a, t)
      end
    | _ => t' <- main_step N checks t ;; Some (a, t')
    end
  | C_execute i s =>
    match main_at t with
    | M_ready => Some (at_cpc (C_flag (i + 1)) a, t)
    | _ => t' <- main_step N checks t ;; Some (a, t')
    end
  | C_wait =>
    if negb (distinct (map fst (buf a))) then Some (returns Bad a, t)
    else
      match (if all then if forallb (is_set t) (map fst (buf a)) then Some 0 else None else first_set t 0 (buf a)) with
      | Some k => if over then None else Some (at_cpc (if all then C_marks 0 (match nth_error (buf a) 0 with Some (_, i) => i | None => 0 end) else C_mark k) a, t)
      | None => match m with
                | Poll => if over then None else Some (returns Late a, t)
                | Timed => if over then Some (returns Late a, t) else None
                | Forever => None
                end
      end
  | C_mark k =>
    match nth_error (buf a) k with
    | None => Some (a, failed t)
    | Some (s, i) => t' <- mark s t ;; Some (finish i a, t')
    end
  | C_marks j i =>
    match nth_error (buf a) j with
    | None => Some (finish i a, t)
    | Some (s, h) =>
      (* the assertion after the store compares with events_buffer[handle_index] *)
      t' <- mark s t ;;
      if checks && negb (match nth_error (buf a) h with Some (s', _) => Nat.eqb s' s | None => false end) then Some (a, failed t')
      else Some (at_cpc (C_marks (j + 1) i) a, t')
    end
  | C_again i =>
    match main_at t, und a with
    | M_ready, Some s => Some (ChunkCall (C_again i) (buf a) (fin a) None, with_main (M_try s) t)
    | M_ready, None => Some (returns (Found i) a, t)
    | _, _ => t' <- main_step N checks t ;; Some (a, t')
    end
  | C_return _ => None
  end.

(** ** tma_impl_wait_multiple for all but the case above: tm_async.h:1390-1777 *)
(** [W_chunk]: in the chunk from [i], [late]: timed_out; [S_...]: more than K handles, waiting for any without a limit
    of time, lines 1571-1605 and 1694-1704; [W_return]: the result; on success the index *)
Inductive wpc :=
| W_chunk (i : nat) (late : bool) (a : chunk_call)
| S_flag (i : nat) (regs : list nat) (und : option nat)
| S_pos (i s : nat) (regs : list nat) (und : option nat)
| S_dispatch (i s : nat) (regs : list nat) (und : option nat)
| S_wait (regs : list nat)
| S_mark (i : nat)
| W_return (o : outcome).
(** the size of a chunk: without limit of time or with one all of them; polling in parts, for wait_all the comparison in
    line 1416 is the wrong way round *)
Definition chunk_size (hs : list handle) (all : bool) (m : mode) (i : nat) : nat :=
  match m with
  | Poll => if all then Nat.max K (length hs - i) else Nat.min K (length hs - i)
  | _ => length hs
  end.
Definition start_multi : wpc := W_chunk 0 false start_chunk.
(** what follows the result of a chunk: lines 1409-1456, 1464-1468, 1558-1569 *)
Definition after_chunk (hs : list handle) (all : bool) (m : mode) (i : nat) (late : bool) (o : outcome) : wpc :=
  match m with
  | Poll =>
    if all then
      match o with
      (* the result is OK also for an overflow *)
      | Found j => if Nat.ltb (i + K) (length hs) then W_chunk (i + K) late start_chunk else W_return (Found (i + j))
      | Overflow => if Nat.ltb (i + K) (length hs) then W_chunk (i + K) late start_chunk else W_return (Found i)
      | NoWork => W_return Bad
      | o => W_return o
      end
    else
      let last := negb (Nat.ltb (i + K) (length hs)) in
      match o with
      | NoWork => if last then W_return (if late then Late else Bad) else W_chunk (i + K) late start_chunk
      | Found j => W_return (Found (i + j))
      | Late => if last then W_return Late else W_chunk (i + K) true start_chunk
      | Overflow => W_return (Found i)
      | Bad => W_return Bad
      end
  | Timed =>
    match o with
    (* the timer was set, which is taken for an error in line 1559 *)
    | Overflow | NoWork => W_return Bad
    | o => W_return o
    end
  | Forever =>
    match o with
    | Overflow | NoWork => S_flag 0 [] None
    | o => W_return o
    end
  end.
(** [sel]: which of the registered callbacks stored its index last *)
Definition multi_step (hs : list handle) (all : bool) (m : mode) (over : bool) (sel : nat) (p : wpc) (t : state) : option (wpc * state) :=
  match p with
  | W_chunk i late a =>
    match cpc_of a with
    | C_return o => Some (after_chunk hs all m i late o, t)
    | _ => ' (a', t') <- chunk_step hs i (chunk_size hs all m i) all m over a t ;; Some (W_chunk i late a', t')
    end
  | S_flag i regs und =>
    match nth_error hs i with
    | None => match regs with [] => Some (W_return Bad, t) | _ => Some (S_wait regs, t) end
    | Some None => Some (S_flag (i + 1) regs und, t)
    | Some (Some s) =>
      match in_use t s with
      | None => Some (p, failed t)
      | Some (x, _) => if signaled x then Some (W_return (Found i), t) else Some (S_pos i s regs und, t)
      end
    end
  | S_pos i s regs und =>
    x <- nth_error (slots t) s ;;
    if no_pos x then Some (S_dispatch i s regs und, with_main (M_try s) t) else Some (S_flag (i + 1) (regs ++ [i]) und, t)
  | S_dispatch i s regs und =>
    match main_at t with
    | M_ready =>
      match in_use t s with
      | None => Some (p, failed t)
      | Some (x, _) => if no_pos x then Some (S_flag (i + 1) regs (Some s), t) else Some (S_flag (i + 1) (regs ++ [i]) und, t)
      end
    | _ => t' <- main_step N checks t ;; Some (p, t')
    end
  | S_wait regs =>
    i <- nth_error regs sel ;;
    match nth_error hs i with
    | Some (Some s) => if is_set t s then Some (S_mark i, t) else None
    | _ => None
    end
  (* the slot of that number, not that of the handle: line 1702; [und] is not used *)
  | S_mark i =>
    match nth_error (slots t) i with
    | Some x => Some (W_return (Found i), with_slot i (set_signaled x) t)
    | None => Some (p, failed t)
    end
  | W_return _ => None
  end.

(** ** Programs that use all of it *)
(** the last call with several handles; [pending]: the flag of the slots while there is no call *)
Inductive call := NoCall (pending : list nat) | All (hs : list handle) (a : all_call) | Multi (pending : list nat) (hs : list handle) (all : bool) (m : mode) (p : wpc).
Definition pending_of (c : call) : list nat := match c with NoCall p => p | All _ a => pend a | Multi p _ _ _ _ => p end.
Definition over_call (c : call) : bool :=
  match c with
  | NoCall _ => true
  | All _ a => match apc_of a with P_return _ => true | _ => false end
  | Multi _ _ _ _ p => match p with W_return _ => true | _ => false end
  end.
Inductive xlabel :=
| X (l : label)                                        (* as in AsModel *)
| X_all (hs : list handle)                             (* tma_wait_all *)
| X_multi (hs : list handle) (all : bool) (m : mode)   (* tma_wait_any; tma_wait_all_for, tma_wait_any_for with time 0 or more *)
| X_go (over : bool) (sel : nat).                      (* the main thread goes on in the call *)
Definition environment (l : label) : bool := match l with L_worker _ | L_dispatcher => true | _ => false end.
(** tm_async.h:2279-2296 *)
Definition xexec (l : xlabel) (c : call) (t : state) : option (call * state) :=
  if fault t then None
  else match l with
  | X l => if environment l || over_call c then t' <- exec N C checks l t ;; Some (c, t') else None
  | X_all hs => if over_call c then match main_at t with M_ready => Some (All hs (start_all (pending_of c)), t) | _ => None end else None
  | X_multi hs all m =>
    if over_call c && negb (match m with Forever => all | _ => false end) then match main_at t with M_ready => Some (Multi (pending_of c) hs all m start_multi, t) | _ => None end else None
  | X_go over sel =>
    match c with
    | NoCall _ => None
    | All hs a => ' (a', t') <- all_step hs a t ;; Some (All hs a', t')
    | Multi p hs all m w => ' (w', t') <- multi_step hs all m over sel w t ;; Some (Multi p hs all m w', t')
    end
  end.
Fixpoint xexecs (ls : list xlabel) (c : call) (t : state) : option (call * state) :=
  match ls with
  | [] => Some (c, t)
  | l :: ls => ' (c, t) <- xexec l c t ;; xexecs ls c t
  end.
End Calls.
