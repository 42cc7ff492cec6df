(** Model of tm_small_vector.h. Element storage is a list of slots; a slot is [Dead] (no object lives there) or
    holds an element, which is a value or moved from (valid, value unspecified). Pointers into the storage are
    indices. [None] is undefined behaviour or a failing TM_ASSERT (assertions are on): reading, assigning or
    destroying a dead slot, constructing over a live one, leaving the storage, freeing or reallocating a pointer that
    did not come from the allocator. Sizes are nat; the assertions about max_count and the wrap of the byte
    count in calls of TM_MALLOC are kept. *)
From Coq Require Import Arith NArith ZArith List Bool.
From Verif Require Import Base.
Import ListNotations.

Section Model.
  Context {A : Type}.
  Inductive elt := Val (a : A) | Moved.
  Inductive slot := Dead | Live (e : elt).

  (** [triv]: T is trivially copyable; otherwise none of copy, move and destruction is trivial (types that are
      trivially destructible but not trivially copyable are not modelled). [alloc]: malloc_allocator_tag, otherwise
      no_allocator_tag. [esize] is sizeof(T). *)
  Variables triv alloc : bool.
  Variable esize : N.

  (** The outside world: the answers of the allocator to come (refused if none is left) and the number of its
      blocks in use. *)
  Record world := World { oracle : list bool; blocks : Z }.
  Definition ask (w : world) : bool * world :=
    match oracle w with b :: r => (b, World r (blocks w)) | [] => (false, w) end.
  Definition more (w : world) (d : Z) : world := World (oracle w) (blocks w + d)%Z.
  (** The slots in a block that was asked for with sizeof(T) * c in size_t. *)
  Definition fresh_slots (c : nat) : list slot := repeat Dead (N.to_nat (w64 (esize * N.of_nat c) / esize)).

  (** tm_small_vector.h 146-169: small_vector_guts, with what ptr points to. [inl] is the inline buffer
      (line 540), [blk] the block of the allocator if ptr points to one. TM_SIZE_T is size_t. *)
  Inductive place := Null | Inline | Heap.
  Record vec := Vec { ptr : place; sz : nat; cap : nat; is_sbo : bool; inl : list slot; blk : list slot }.
  Definition max_count : N := (2 ^ 63 - 1)%N.
  Definition in_range (n : nat) : bool := (N.of_nat n <=? max_count)%N.
  Definition stor (v : vec) : list slot := match ptr v with Null => [] | Inline => inl v | Heap => blk v end.
  Definition with_stor (v : vec) (st : list slot) : vec :=
    match ptr v with
    | Null => v
    | Inline => Vec (ptr v) (sz v) (cap v) (is_sbo v) st (blk v)
    | Heap => Vec (ptr v) (sz v) (cap v) (is_sbo v) (inl v) st
    end.
  Definition with_sz (v : vec) (n : nat) : vec := Vec (ptr v) n (cap v) (is_sbo v) (inl v) (blk v).
  Definition null (v : vec) : bool := match ptr v with Null => true | _ => false end.

  (** ** Elements *)
  Definition read (st : list slot) (i : nat) : option elt :=
    match nth_error st i with Some (Live e) => Some e | _ => None end.
  Definition construct (st : list slot) (i : nat) (e : elt) : option (list slot) :=
    match nth_error st i with
    | Some Dead => write st i (Live e)
    | Some (Live _) => if triv then write st i (Live e) else None
    | None => None
    end.
  Definition assign (st : list slot) (i : nat) (e : elt) : option (list slot) :=
    match nth_error st i with
    | Some (Live _) => write st i (Live e)
    | Some Dead => if triv then write st i (Live e) else None
    | None => None
    end.
  Definition destruct (st : list slot) (i : nat) : option (list slot) :=
    if triv then Some st
    else match nth_error st i with Some (Live _) => write st i Dead | _ => None end.
  (** std::move out of an element. *)
  Definition take (st : list slot) (i : nat) : option (elt * list slot) :=
    e <- read st i ;;
    if triv then Some (e, st) else st' <- write st i (Live Moved) ;; Some (e, st').
  (** Move assignment of the element s to d inside of one storage; a self move leaves an unspecified value. *)
  Definition move_assign (st : list slot) (d s : nat) : option (list slot) :=
    if d =? s then ' (_, st1) <- take st s ;; Some st1
    else ' (e, st1) <- take st s ;; assign st1 d e.

  (** memcpy/memmove of n slots. *)
  Definition copy_slots (dst : list slot) (j : nat) (src : list slot) (i n : nat) : option (list slot) :=
    if (j + n <=? length dst) && (i + n <=? length src)
    then Some (firstn j dst ++ firstn n (skipn i src) ++ skipn (j + n) dst) else None.

  (** Loops: assign or construct values from index i on, destroy n slots from index i on, move n elements to
      new storage destroying the old ones. *)
  Fixpoint assign_vals (st : list slot) (i : nat) (l : list elt) : option (list slot) :=
    match l with [] => Some st | e :: r => st' <- assign st i e ;; assign_vals st' (S i) r end.
  Fixpoint construct_vals (st : list slot) (i : nat) (l : list elt) : option (list slot) :=
    match l with [] => Some st | e :: r => st' <- construct st i e ;; construct_vals st' (S i) r end.
  Fixpoint destruct_n (st : list slot) (i n : nat) : option (list slot) :=
    match n with O => Some st | S n' => st' <- destruct st i ;; destruct_n st' (S i) n' end.
  Fixpoint relocate (old : list slot) (i : nat) (new : list slot) (j n : nat) : option (list slot * list slot) :=
    match n with
    | O => Some (old, new)
    | S n' =>
      ' (e, old1) <- take old i ;;
      new1 <- construct new j e ;;
      old2 <- destruct old1 i ;;
      relocate old2 (S i) new1 (S j) n'
    end.

  (** tm_small_vector.h 264-270: pop_back. *)
  Definition pop_back (v : vec) : option vec :=
    assert_ (negb (null v)) (assert_ (0 <? sz v)
    (st <- destruct (stor v) (sz v - 1) ;; Some (with_sz (with_stor v st) (sz v - 1)))).

  (** The assertion in clear (276) and owns (333, 337, 345). *)
  Definition has_ptr (v : vec) : bool := negb (null v) || ((sz v =? 0) && (cap v =? 0)).

  (** tm_small_vector.h 275-284: clear; the elements are destroyed from the last to the first. *)
  Fixpoint destruct_down (st : list slot) (n : nat) : option (list slot) :=
    match n with O => Some st | S n' => st' <- destruct st n' ;; destruct_down st' n' end.
  Definition clear (v : vec) : option vec :=
    assert_ (has_ptr v) (st <- destruct_down (stor v) (sz v) ;; Some (with_sz (with_stor v st) 0)).

  (** tm_small_vector.h 292-329: erase of a range given by indices (erase of one element, 286-290, is the
      range of length one). *)
  Fixpoint move_down (n : nat) (st : list slot) (d s : nat) : option (list slot) :=
    match n with O => Some st | S n' => st' <- move_assign st d s ;; move_down n' st' (S d) (S s) end.
  Definition erase (v : vec) (first last : nat) : option vec :=
    assert_ (has_ptr v) (assert_ ((first <=? sz v) && (last <=? sz v)) (assert_ (first <=? last)
    (if first =? last then Some v
     else
       let n := last - first in
       st <- (if triv then (if last =? sz v then Some (stor v) else copy_slots (stor v) first (stor v) last (sz v - last))
              else
                st1 <- (if last =? sz v then Some (stor v) else move_down (sz v - last) (stor v) first last) ;;
                destruct_n st1 (sz v - n) n) ;;
       Some (with_sz (with_stor v st) (sz v - n))))).

  (** tm_small_vector.h 350-354: get_next_capacity. *)
  Definition next_capacity (old_capacity at_least : nat) : nat :=
    let result := old_capacity + old_capacity / 2 + 1 in
    if result <? old_capacity + at_least then old_capacity + at_least else result.

  (** ** Allocation *)

  (** tm_small_vector.h 369-378 and 518: create, as the assignment of its result to the guts of [v]: whatever ptr
      pointed to is forgotten. *)
  Definition become_new (w : world) (v : vec) (capacity : nat) : option (vec * world) :=
    let none := Vec Null 0 0 false (inl v) [] in
    if alloc then
      let '(ok, w1) := ask w in
      if ok then
        assert_ (in_range capacity) (Some (Vec Heap 0 capacity false (inl v) (fresh_slots capacity), more w1 1))
      else Some (none, w1)
    else Some (none, w).

  (** TM_FREE(ptr). *)
  Definition release (w : world) (v : vec) : option world :=
    match ptr v with Null => Some w | Inline => None | Heap => Some (more w (-1)) end.

  (** tm_small_vector.h 379-444 (TM_REALLOC is defined, TM_REALLOC_IN_PLACE is not, as in lines 81-90) and
      519-523: grow_by. *)
  Definition grow_by (w : world) (v : vec) (amount : nat) : option (bool * vec * world) :=
    assert_ (in_range (sz v + amount))
    (if negb alloc then Some (sz v + amount <=? cap v, v, w)
     else if null v then
       assert_ ((sz v =? 0) && (cap v =? 0)) (' (v1, w1) <- become_new w v amount ;; Some (negb (null v1), v1, w1))
     else if sz v + amount <=? cap v then Some (true, v, w)
     else
       let new_capacity := next_capacity (cap v) amount in
       let move_over (w : world) :=
         let '(ok, w1) := ask w in
         if negb ok then Some (false, v, w1)
         else
           ' (old, new) <- (if triv then new <- copy_slots (fresh_slots new_capacity) 0 (stor v) 0 (sz v) ;; Some (stor v, new)
                            else relocate (stor v) 0 (fresh_slots new_capacity) 0 (sz v)) ;;
           let v1 := with_stor v old in
           w2 <- (if is_sbo v then Some w1 else release w1 v) ;;
           assert_ (in_range new_capacity) (Some (true, Vec Heap (sz v) new_capacity false (inl v1) new, more w2 1)) in
       if triv && negb (is_sbo v) then
         match ptr v with
         | Heap =>
           let '(ok, w1) := ask w in
           if ok then
             let n := length (fresh_slots new_capacity) in
             assert_ (in_range new_capacity)
             (Some (true, Vec Heap (sz v) new_capacity false (inl v) (firstn n (blk v) ++ repeat Dead (n - length (blk v))), w1))
           else move_over w1
         | _ => None
         end
       else move_over w).

  (** tm_small_vector.h 445-458 and 524-532: destroy. *)
  Definition destroy (w : world) (v : vec) : option (vec * world) :=
    st <- destruct_n (stor v) 0 (sz v) ;;
    let v1 := with_stor v st in
    if alloc && negb (is_sbo v) then
      w1 <- release w v ;; Some (Vec Null 0 0 false (inl v1) [], w1)
    else Some (with_sz v1 0, w).

  (** tm_small_vector.h 459-509: shrink_to_fit of the guts. *)
  Definition shrink_guts (w : world) (v : vec) : option (vec * world) :=
    if negb alloc then Some (v, w)
    else if sz v =? 0 then destroy w v
    else
      let size := sz v in
      let move_over (w : world) :=
        ' (nv, w1) <- become_new w (Vec Null 0 0 false [] []) size ;;
        if null nv then Some (v, w1)
        else
          ' (old, new) <- (if triv then new <- copy_slots (blk nv) 0 (stor v) 0 size ;; Some (stor v, new)
                           else relocate (stor v) 0 (blk nv) 0 size) ;;
          (* destroy(guts), with the size it still has, then *guts = new_guts, whose size is 0 *)
          ' (v1, w2) <- destroy w1 (with_stor v old) ;;
          Some (Vec Heap 0 (cap nv) false (inl v1) new, w2) in
      if triv then
        match ptr v with
        | Heap =>
          let '(ok, w1) := ask w in
          if ok then
            let n := length (fresh_slots size) in
            assert_ (in_range size)
            (Some (Vec Heap (sz v) size false (inl v) (firstn n (blk v) ++ repeat Dead (n - length (blk v))), w1))
          else move_over w1
        | _ => None (* realloc of the inline buffer *)
        end
      else move_over w.

  (** tm_small_vector.h 587-599 with required = 0: back to the inline buffer (of small_vector_sbo, 536-547:
      null if N is 0). *)
  Definition use_inline (v : vec) : vec :=
    match length (inl v) with
    | O => Vec Null 0 0 false (inl v) []
    | n => Vec Inline 0 n true (inl v) []
    end.
  (** tm_small_vector.h 1271: the default constructor of small_vector<T, N>. *)
  Definition new_vec (n : nat) : vec := use_inline (Vec Null 0 0 false (repeat Dead n) []).
  (** tm_small_vector.h 814-818 and 1333-1340: shrink_to_fit. As written line 817 does not compile, since the member
      without parameters hides the one that is called; the model is what it means to call. *)
  Definition shrink_to_fit (w : world) (v : vec) : option (vec * world) :=
    assert_ (negb (null v) || (cap v =? 0))
    (' (v1, w1) <- shrink_guts w v ;;
     Some (if null v1 || (cap v1 =? 0) then use_inline v1 else v1, w1)).

  (** ** Insertion *)

  (** tm_small_vector.h 945-987: make_room. [tail] and [current1] are the pointers tail and current + 1. *)
  Fixpoint shift_construct (n : nat) (st : list slot) (tail current1 : nat) : option (list slot) :=
    match n with
    | O => Some st
    | S n' =>
      ' (e, st1) <- take st (tail - 1) ;;
      st2 <- construct st1 (current1 - 1) e ;;
      shift_construct n' st2 (tail - 1) (current1 - 1)
    end.
  Fixpoint shift_assign (n : nat) (st : list slot) (tail current1 : nat) : option (list slot) :=
    match n with
    | O => Some st
    | S n' => st1 <- move_assign st (current1 - 1) (tail - 1) ;; shift_assign n' st1 (tail - 1) (current1 - 1)
    end.
  Definition make_room (w : world) (v0 : vec) (pos n : nat) : option (bool * vec * world * nat * nat) :=
    assert_ (pos <=? sz v0)
    (' (ok, v, w1) <- grow_by w v0 n ;;
     if negb ok then Some (false, v, w1, 0, 0)
     else
       let suffix := sz v - pos in
       if triv then
         st <- (if suffix =? 0 then Some (stor v) else copy_slots (stor v) (pos + n) (stor v) pos suffix) ;;
         Some (true, with_sz (with_stor v st) (sz v + n), w1, pos, pos + n)
       else if suffix =? 0 then Some (true, with_sz v (sz v + n), w1, pos, pos)
       else
         let k := if n <? suffix then n else suffix in
         let m := if n <? suffix then suffix - n else 0 in
         st1 <- shift_construct k (stor v) (sz v) (sz v + n) ;;
         assert_ ((sz v + n - k <=? sz v) || (m =? 0))
         (st2 <- shift_assign m st1 (sz v - k) (sz v + n - k) ;;
          Some (true, with_sz (with_stor v st2) (sz v + n), w1, pos, pos + k))).

  (** What insert_value_impl (989-1030), insert_n_impl (1032-1059) and copy_unchecked (1080-1120) do with the
      room: assign to the part with elements, construct the rest. *)
  Definition insert_vals (w : world) (v : vec) (pos : nat) (l : list elt) : option (bool * vec * world) :=
    ' (ok, v1, w1, first_initialized, first_uninitialized) <- make_room w v pos (length l) ;;
    if negb ok then Some (false, v1, w1)
    else
      let k := first_uninitialized - first_initialized in
      st1 <- assign_vals (stor v1) first_initialized (firstn k l) ;;
      st2 <- construct_vals st1 first_uninitialized (skipn k l) ;;
      Some (true, with_stor v1 st2, w1).

  (** A value passed by reference: an object elsewhere, or an element of the vector itself (owns, 344-347, assuming
      that no other object lies in the storage). *)
  Inductive arg := Ext (a : A) | Own (i : nat).
  (** T temp{value} of the public functions. *)
  Definition copy_arg (v : vec) (x : arg) : option elt :=
    match x with
    | Ext a => Some (Val a)
    | Own i => assert_ (i <? sz v) (read (stor v) i)
    end.
  (** T temp{std::move(value)}. *)
  Definition move_arg (v : vec) (x : arg) : option (elt * vec) :=
    match x with
    | Ext a => Some (Val a, v)
    | Own i => assert_ (i <? sz v) (' (e, st) <- take (stor v) i ;; Some (e, with_stor v st))
    end.

  (** tm_small_vector.h 754-778: insert of n copies, of a copy, of a moved value. *)
  Definition insert_n (w : world) (v : vec) (pos n : nat) (x : arg) : option (bool * vec * world) :=
    assert_ (has_ptr v) (e <- copy_arg v x ;; assert_ (pos <=? sz v) (insert_vals w v pos (repeat e n))).
  Definition insert (w : world) (v : vec) (pos : nat) (x : arg) : option (bool * vec * world) :=
    assert_ (has_ptr v) (e <- copy_arg v x ;; assert_ (pos <=? sz v) (insert_vals w v pos [e])).
  Definition insert_move (w : world) (v : vec) (pos : nat) (x : arg) : option (bool * vec * world) :=
    assert_ (has_ptr v) (' (e, v1) <- move_arg v x ;; assert_ (pos <=? sz v1) (insert_vals w v1 pos [e])).
  (** tm_small_vector.h 780-795: push_back; the result is that of the insertion at the end. *)
  Definition push_back (w : world) (v : vec) (x : arg) := insert w v (sz v) x.
  Definition push_back_move (w : world) (v : vec) (x : arg) := insert_move w v (sz v) x.

  (** tm_small_vector.h 819-829 and 1062-1077: insert of a range outside of the vector; [l] are its values. [null_range]: both
      iterators are null pointers of the type of the vector's own iterators, which lie between
      begin and end if these are null as well. *)
  Definition insert_range (w : world) (v : vec) (pos : nat) (null_range : bool) (l : list A) : option (bool * vec * world) :=
    assert_ (has_ptr v) (assert_ (negb (null_range && null v)) (assert_ (pos <=? sz v)
    (match l with [] => Some (true, v, w) | _ => insert_vals w v pos (map Val l) end))).

  (** tm_small_vector.h 849-886: emplace, emplace_back, with one argument of type const T&. It is looked at
      after make_room: if the storage was replaced in the meantime, an element of the vector is gone, otherwise it is what
      the slot holds then. *)
  Definition emplace (w : world) (v : vec) (pos : nat) (x : arg) : option (bool * vec * world) :=
    assert_ (has_ptr v)
    (' (ok, v1, w1, fi, fu) <- make_room w v pos 1 ;;
     if negb ok then Some (false, v1, w1)
     else
       e <- (match x with
             | Ext a => Some (Val a)
             | Own i => if sz v + 1 <=? cap v then read (stor v1) i else None
             end) ;;
       st <- (if fi =? fu then construct (stor v1) fu e else assign (stor v1) fi e) ;;
       Some (true, with_stor v1 st, w1)).
  Definition emplace_back (w : world) (v : vec) (x : arg) := emplace w v (sz v) x.

  (** tm_small_vector.h 798-808: resize. *)
  Definition resize (w : world) (v : vec) (count : nat) (x : arg) : option (bool * vec * world) :=
    if sz v =? count then Some (true, v, w)
    else if count <? sz v then v1 <- erase v count (sz v) ;; Some (negb (sz v1 =? sz v), v1, w)
    else
      ' (_, v1, w1) <- insert_n w v (sz v) (count - sz v) x ;;
      Some (negb (sz v1 =? sz v), v1, w1).

  (** tm_small_vector.h 809-812: reserve. *)
  Definition reserve (w : world) (v : vec) (count : nat) : option (bool * vec * world) :=
    if count <=? cap v then Some (true, v, w) else grow_by w v (count - cap v).

  (** ** Assignment *)

  (** The common part of assign_n_impl (1137-1158), assign_unchecked (1197-1253) and the move assignment (703-729):
      assign to the elements there are, construct the others, destroy the rest. A trivially copyable type is
      copied as a whole. *)
  Definition fill (v : vec) (l : list elt) : option vec :=
    let n := length l in
    assert_ (negb (null v))
    (if triv then st <- assign_vals (stor v) 0 l ;; Some (with_sz (with_stor v st) n)
     else
       let k := if sz v <? n then sz v else n in
       st1 <- assign_vals (stor v) 0 (firstn k l) ;;
       st2 <- construct_vals st1 k (skipn k l) ;;
       st3 <- (if n <? sz v then destruct_n st2 n (sz v - n) else Some st2) ;;
       Some (with_sz (with_stor v st3) n)).

  (** tm_small_vector.h 831-838 and 1122-1160: assign of n copies. *)
  Definition assign_n (w : world) (v : vec) (n : nat) (x : arg) : option (bool * vec * world) :=
    assert_ (has_ptr v)
    (e <- copy_arg v x ;;
     if cap v <? n then
       ' (v1, w1) <- destroy w v ;;
       ' (v2, w2) <- become_new w1 v1 n ;;
       if null v2 then Some (false, v2, w2)
       else v3 <- fill v2 (repeat e n) ;; Some (true, v3, w2)
     else v1 <- fill v (repeat e n) ;; Some (true, v1, w)).

  (** tm_small_vector.h 840-845 and 1162-1194: assign of a range outside of the vector. When memory is needed the new
      storage is filled while the vector is empty already; destroying it once more has no effect but is
      part of the model. *)
  Definition assign_range (w : world) (v : vec) (l : list elt) : option (bool * vec * world) :=
    match l with
    | [] => v1 <- clear v ;; Some (true, v1, w)
    | _ =>
      let n := length l in
      if cap v <? n then
        assert_ (has_ptr v)
        (' (v1, w1) <- destroy w v ;;
         ' (nv, w2) <- become_new w1 (Vec Null 0 0 false [] []) n ;;
         if null nv then Some (false, v1, w2)
         else
           nv1 <- fill nv l ;;
           ' (v2, w3) <- destroy w2 v1 ;;
           Some (true, Vec Heap (sz nv1) (cap nv1) false (inl v2) (blk nv1), w3))
      else v1 <- fill v l ;; Some (true, v1, w)
    end.
  (** The same with a range of the vector itself: the elements first .. last - 1 are copied to the front one by
      one. It is never longer than the capacity. *)
  Fixpoint copy_down (n : nat) (st : list slot) (d s : nat) : option (list slot) :=
    match n with O => Some st | S n' => e <- read st s ;; st' <- assign st d e ;; copy_down n' st' (S d) (S s) end.
  Definition assign_self (w : world) (v : vec) (first last : nat) : option (bool * vec * world) :=
    assert_ ((first <=? last) && (last <=? sz v))
    (if first =? last then v1 <- clear v ;; Some (true, v1, w)
     else if cap v <? last - first then None
     else
       let n := last - first in
       assert_ (negb (null v))
       (st <- (if triv then copy_slots (stor v) 0 (stor v) first n
               else st1 <- copy_down n (stor v) 0 first ;; destruct_n st1 n (sz v - n)) ;;
        Some (true, with_sz (with_stor v st) n, w))).

  (** ** Whole vectors *)

  (** Moving n elements out of the storage of another vector: they are left behind moved from. *)
  Fixpoint take_all (st : list slot) (i n : nat) : option (list elt * list slot) :=
    match n with
    | O => Some ([], st)
    | S n' => ' (e, st1) <- take st i ;; ' (l, st2) <- take_all st1 (S i) n' ;; Some (e :: l, st2)
    end.
  Fixpoint read_all (st : list slot) (i n : nat) : option (list elt) :=
    match n with O => Some [] | S n' => e <- read st i ;; l <- read_all st (S i) n' ;; Some (e :: l) end.

  (** tm_small_vector.h 1272-1284: the copy constructor of small_vector<T, N>. *)
  Definition copy_new (w : world) (n : nat) (other : vec) : option (vec * world) :=
    let v := new_vec n in
    if sz other =? 0 then Some (v, w)
    else
      ' (v1, w1) <- (if n <? sz other then
                       ' (nv, w1) <- become_new w v (sz other) ;; Some (if null nv then v else nv, w1)
                     else Some (v, w)) ;;
      if sz other <=? cap v1 then
        l <- read_all (stor other) 0 (sz other) ;;
        st <- construct_vals (stor v1) 0 l ;;
        Some (with_sz (with_stor v1 st) (sz other), w1)
      else Some (v1, w1).
  (** tm_small_vector.h 1285-1310: the move constructor: the new vector and what is left of the other one. *)
  Definition forget (v : vec) : vec := Vec Null 0 0 false (inl v) [].
  Definition move_new (w : world) (n : nat) (other : vec) : option (vec * vec * world) :=
    let v := new_vec n in
    if is_sbo other then
      ' (v1, w1) <- (if n <? sz other then
                       ' (nv, w1) <- become_new w v (sz other) ;; Some (if null nv then v else nv, w1)
                     else Some (v, w)) ;;
      ' (v2, other1) <- (if sz other <=? cap v1 then
                           ' (l, ost) <- take_all (stor other) 0 (sz other) ;;
                           st <- construct_vals (stor v1) 0 l ;;
                           Some (with_sz (with_stor v1 st) (sz other), with_stor other ost)
                         else Some (v1, other)) ;;
      other2 <- clear other1 ;;
      Some (v2, other2, w1)
    else if (sz other =? 0) && (cap other <? cap v) then Some (v, other, w)
    else
      match ptr other with
      | Inline => None
      | p => Some (Vec p (sz other) (cap other) false (inl v) (blk other), forget other, w)
      end.

  (** tm_small_vector.h 667-672: copy assignment from another vector. *)
  Definition copy_assign (w : world) (v other : vec) : option (vec * world) :=
    l <- read_all (stor other) 0 (sz other) ;;
    ' (_, v1, w1) <- assign_range w v l ;; Some (v1, w1).
  (** tm_small_vector.h 673-748: move assignment from another vector. *)
  Definition move_from (w : world) (v other : vec) : option (vec * vec * world) :=
    if is_sbo other then
      if sz other =? 0 then v1 <- clear v ;; other1 <- clear other ;; Some (v1, other1, w)
      else
        ' (v1, w1) <- (if cap v <? sz other then
                         assert_ (has_ptr v) (destroy w v)
                       else Some (v, w)) ;;
        ' (nv, w2) <- (if cap v <? sz other then become_new w1 (Vec Null 0 0 false [] []) (sz other) else Some (v1, w1)) ;;
        if (cap v <? sz other) && null nv then other1 <- clear other ;; Some (v1, other1, w2)
        else
          ' (l, ost) <- take_all (stor other) 0 (sz other) ;;
          nv1 <- fill nv l ;;
          ' (v2, w3) <- (if cap v <? sz other then
                           ' (v2, w3) <- destroy w2 v1 ;;
                           Some (Vec Heap (sz nv1) (cap nv1) false (inl v2) (blk nv1), w3)
                         else Some (nv1, w2)) ;;
          other1 <- clear (with_stor other ost) ;;
          Some (v2, other1, w3)
    else
      ' (v1, w1) <- destroy w v ;;
      match ptr other with
      | Inline => None
      | p => Some (Vec p (sz other) (cap other) false (inl v1) (blk other), forget other, w1)
      end.

  (** tm_small_vector.h 888-938: swap of two different vectors. *)
  Fixpoint swap_slots (n : nat) (a b : list slot) (i : nat) : option (list slot * list slot) :=
    match n with
    | O => Some (a, b)
    | S n' =>
      x <- read a i ;; y <- read b i ;;
      a1 <- assign a i y ;; b1 <- assign b i x ;;
      swap_slots n' a1 b1 (S i)
    end.
  Definition set_cap (v : vec) (c : nat) : vec :=
    Vec (ptr v) (sz v) c (is_sbo v && (0 <? c)) (inl v) (blk v).
  Definition swap (w : world) (a b : vec) : option (bool * vec * vec * world) :=
    ' (ok, a1, b1, w1) <-
      (if is_sbo b || is_sbo a then
         ' (ok1, a1, w1) <- reserve w a (sz b) ;;
         if negb ok1 then Some (false, a1, b, w1)
         else
           ' (ok2, b1, w2) <- reserve w1 b (sz a1) ;;
           if negb ok2 then Some (false, a1, b1, w2)
           else
             let m := if sz b1 <? sz a1 then sz b1 else sz a1 in
             ' (sa, sb) <- swap_slots m (stor a1) (stor b1) 0 ;;
             ' (sa1, sb1) <-
               (if sz b1 <? sz a1 then
                  if triv then sb1 <- copy_slots sb m sa m (sz a1 - sz b1) ;; Some (sa, sb1)
                  else relocate sa m sb m (sz a1 - sz b1)
                else if sz a1 <? sz b1 then
                  if triv then sa1 <- copy_slots sa m sb m (sz b1 - sz a1) ;; Some (sa1, sb)
                  else ' (sb1, sa1) <- relocate sb m sa m (sz b1 - sz a1) ;; Some (sa1, sb1)
                else Some (sa, sb)) ;;
             Some (true, with_stor a1 sa1, with_stor b1 sb1, w2)
       else
         Some (true, Vec (ptr b) (sz a) (cap a) (is_sbo a) (inl a) (blk b), Vec (ptr a) (sz b) (cap b) (is_sbo b) (inl b) (blk a), w)) ;;
    if negb ok then Some (false, a1, b1, w1)
    else
      Some (true, set_cap (with_sz a1 (sz b1)) (cap b1), set_cap (with_sz b1 (sz a1)) (cap a1), w1).
End Model.
Arguments elt A : clear implicits.
Arguments slot A : clear implicits.
Arguments vec A : clear implicits.
Arguments arg A : clear implicits.
