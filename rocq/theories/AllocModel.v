(** Model of the stack and monotonic allocators of tm_allocator.h. Addresses, sizes and alignments are
    N; size_t and uintptr_t are 64 bit. The null pointer is address 0 and no object lives there. *)
From Coq Require Import NArith ZArith List Bool.
From Verif Require Import Base.
Import ListNotations.
Local Open Scope N_scope.

(** tm_allocator.h 316-321: StackAllocator. *)
Record stack := Stack { p : N; sz : N; cap : N; lpa : N }.
(** tm_allocator.h 299-309: MemoryBlock; the block {} (null) is [None]. *)
Definition memory_block : Type := option (N * N).

(** tm_allocator.h 1330: is_power_of_two. *)
Definition is_power_of_two (v : N) : bool := negb (v =? 0) && (N.land v (v - 1) =? 0).

Section Stack.
  (** [dbg]: TM_ASSERT checks its argument; otherwise it is compiled out. *)
  Variable dbg : bool.
  Definition check {A} (b : bool) (k : option A) : option A := if dbg then assert_ b k else k.

  (** tm_allocator.h 1333-1344: alignment_offset, of pointers and of integers. (alignment - ptr) is
      the difference of size_t. *)
  Definition alignment_offset (ptr alignment : N) : option N :=
    check (negb (alignment =? 0) && is_power_of_two alignment)
    (let offset := N.land (sub64 alignment ptr) (sub64 alignment 1) in
     check (w64 (ptr + offset) mod alignment =? 0) (Some offset)).

  (** tm_allocator.h 351-353: is_valid (the allocator pointer itself is not null). *)
  Definition is_valid (s : stack) : bool := (p s =? 0) || (negb (cap s =? 0) && (sz s <=? cap s)).

  (** tm_allocator.h 341-344: end. *)
  Definition end_ (s : stack) : option N := check (is_valid s) (Some (w64 (p s + sz s))).

  (** tm_allocator.h 1553-1555: the constructor; last_popped_alignment keeps its initializer 0. *)
  Definition stack_create (ptr capacity : N) : option stack :=
    check (negb (ptr =? 0) || (capacity =? 0)) (Some (Stack ptr 0 capacity 0)).

  (** tm_allocator.h 1557-1568: allocate_bytes. *)
  Definition allocate_bytes (s : stack) (size alignment : N) : option (stack * memory_block) :=
    if size =? 0 then Some (s, None)
    else
      e <- end_ s ;;
      offset <- alignment_offset e alignment ;;
      if cap s <? w64 (sz s + offset + size) then Some (s, None)
      else
        let result := w64 (e + offset) in
        check (result mod alignment =? 0)
        (Some (Stack (p s) (w64 (sz s + (offset + size))) (cap s) 1, Some (result, size))).

  (** tm_allocator.h 1613-1617: is_most_recent_allocation. *)
  Definition is_most_recent_allocation (s : stack) (ptr size : N) : option bool :=
    let end_ptr := w64 (ptr + size) in
    offset <- alignment_offset end_ptr (lpa s) ;;
    e <- end_ s ;;
    Some (w64 (end_ptr + offset) =? e).

  (** TM_MEMCPY on overlapping objects is undefined. [mem] is the content of memory. *)
  Definition memcpy (mem : N -> N) (dst src n : N) : option (N -> N) :=
    if (dst <? src + n) && (src <? dst + n) then None
    else Some (fun x => if (dst <=? x) && (x <? dst + n) then mem (src + (x - dst)) else mem x).

  (** tm_allocator.h 1569-1587: reallocate_bytes. *)
  Definition reallocate_bytes (s : stack) (mem : N -> N) (ptr old_size new_size alignment : N)
    : option (stack * memory_block * (N -> N)) :=
    check (is_valid s)
    (recent <- is_most_recent_allocation s ptr old_size ;;
     if recent : bool then
       if cap s <? w64 (sz s + sub64 new_size old_size) then Some (s, None, mem)
       else Some (Stack (p s) (w64 (sz s + sub64 new_size old_size)) (cap s) (lpa s), Some (ptr, new_size), mem)
     else if new_size <? old_size then Some (s, Some (ptr, old_size), mem)
     else
       ' (s', result) <- allocate_bytes s new_size alignment ;;
       match result with
       | None => Some (s', None, mem)
       | Some (r, n) => mem' <- memcpy mem r ptr (if old_size <? new_size then old_size else new_size) ;; Some (s', Some (r, n), mem')
       end).

  (** tm_allocator.h 1588-1598: reallocate_bytes_in_place. *)
  Definition reallocate_bytes_in_place (s : stack) (ptr old_size new_size : N) : option (stack * bool) :=
    check (negb (p s =? 0))
    (recent <- is_most_recent_allocation s ptr old_size ;;
     if (recent : bool) && (w64 (sz s + sub64 new_size old_size) <=? cap s)
     then Some (Stack (p s) (w64 (sz s + sub64 new_size old_size)) (cap s) (lpa s), true)
     else Some (s, false)).

  (** tm_allocator.h 1618-1626: owns. *)
  Definition owns (s : stack) (ptr : N) : option bool :=
    if ptr =? 0 then Some true
    else
      let result := (p s <=? ptr) && (ptr <? p s + sz s) in
      check (result || negb ((p s <=? ptr) && (ptr <? p s + cap s))) (Some result).

  (** An assertion whose condition itself may assert; not evaluated if assertions are off. *)
  Definition check_ {A} (b : option bool) (k : option A) : option A :=
    if dbg then (v <- b ;; assert_ v k) else k.

  (** tm_allocator.h 1599-1612: free_bytes. *)
  Definition free_bytes (s : stack) (ptr size alignment : N) : option stack :=
    check (is_valid s)
    (check_ (if ptr =? 0 then Some true else owns s ptr)
    (check_ (if (ptr =? 0) || (size =? 0) then Some true else is_most_recent_allocation s ptr size)
    (if ptr =? 0 then Some s
     else
       recent <- is_most_recent_allocation s ptr size ;;
       if recent : bool then
         offset <- alignment_offset (w64 (ptr + size)) (lpa s) ;;
         Some (Stack (p s) (sub64 (sz s) (size + offset)) (cap s) alignment)
       else Some s))).

  (** tm_allocator.h 1627-1638: remaining. *)
  Definition remaining (s : stack) (alignment : N) : option N :=
    check (is_valid s)
    (let result := sub64 (cap s) (sz s) in
     e <- end_ s ;;
     offset <- alignment_offset e alignment ;;
     Some (if offset <=? result then result - offset else 0)).

  (** tm_allocator.h 1639-1642: clear. *)
  Definition clear (s : stack) : stack := Stack (p s) 0 (cap s) 1.
  (** tm_allocator.h 360 and 1643-1646: get_state, set_state; the guard (1786-1809) takes the state
      on construction and sets it on destruction. *)
  Definition get_state (s : stack) : N * N := (sz s, lpa s).
  Definition set_state (s : stack) (st : N * N) : stack := Stack (p s) (fst st) (cap s) (snd st).
End Stack.

(** * The monotonic allocator *)

(** tm_allocator.h 434-439: MonotonicAllocator. [blocks] is the array of stack allocators; [None] is
    an element that was never initialized. capacity is the length of [blocks]; int32_t indices do not
    overflow as long as it is below 2^31 (not checked in the model). *)
Record mono := Mono { blocks : list (option stack); current : nat; block_size : N }.

Section Mono.
  Variable dbg : bool.

  (** tm_allocator.h 1688-1694: the constructor, the allocation having succeeded. The element is not
      initialized. *)
  Definition mono_create (granularity : N) : mono := Mono [None] 0 granularity.

  (** tm_allocator.h 1744-1771: allocate_bytes. [realloc_ok]: TM_REALLOC of the array succeeds;
      [mapped]: the result of tmal_mmap, 0 on failure. *)
  Definition mono_allocate (m : mono) (size alignment : N) (realloc_ok : bool) (mapped : N)
    : option (mono * memory_block) :=
    match nth_error (blocks m) (current m) with
    | None | Some None => None
    | Some (Some s) =>
      ' (s', result) <- allocate_bytes dbg s size alignment ;;
      bs <- write (blocks m) (current m) (Some s') ;;
      match result with
      | Some b => Some (Mono bs (current m) (block_size m), Some b)
      | None =>
        if negb realloc_ok then Some (Mono bs (current m) (block_size m), None)
        else
          let index := length bs in
          let fits := size <=? block_size m in
          let cur := if fits then index else current m in
          let allocation_size := if fits then block_size m else size in
          if mapped =? 0 then Some (Mono (bs ++ [Some (Stack 0 0 0 0)]) cur (block_size m), None)
          else
            s0 <- stack_create dbg mapped allocation_size ;;
            ' (s1, result1) <- allocate_bytes dbg s0 size alignment ;;
            Some (Mono (bs ++ [Some s1]) cur (block_size m), result1)
      end
    end.
End Mono.
