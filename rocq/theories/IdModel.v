(** Model of the id allocators of tm_allocator.h. Everything is Z; int32_t arithmetic that overflows is
    undefined, uint32_t arithmetic wraps. The memory of an allocator is a map from byte offsets to the 32 bit cell there
    ([None]: not initialized); only the first cell of every slot is looked at by the allocators, and
    cells at different offsets are taken to be independent, which is right while slots are at least four
    octets apart. Reallocation keeps the contents. *)
From Coq Require Import ZArith List Bool.
From Verif Require Import Base.
Import ListNotations.
Local Open Scope Z_scope.

Definition u32 (z : Z) : Z := z mod 2 ^ 32.
Definition s32 (z : Z) : Z := if u32 z <? 2 ^ 31 then u32 z else u32 z - 2 ^ 32.
Definition int32 (z : Z) : option Z := if (- 2 ^ 31 <=? z) && (z <? 2 ^ 31) then Some z else None.

(** tm_allocator.h 560-565 and 693-698: the members of both allocators. data is null iff capacity is 0. *)
Record ids := Ids { size : Z; cap : Z; free : Z; asize : Z; heap : Z -> option Z }.

Definition heap_set (h : Z -> option Z) (off v : Z) : Z -> option Z := fun x => if x =? off then Some v else h x.
Definition inside_heap (a : ids) (off : Z) : bool := (0 <=? off) && (off + 4 <=? cap a * asize a).
Definition load (a : ids) (off : Z) : option Z := if inside_heap a off then heap a off else None.
Definition store (a : ids) (off v : Z) : option ids :=
  if inside_heap a off then Some (Ids (size a) (cap a) (free a) (asize a) (heap_set (heap a) off v)) else None.

Section Model.
  (** [dbg]: TM_ASSERT checks its argument. *)
  Variable dbg : bool.
  Definition check {A} (b : bool) (k : option A) : option A := if dbg then assert_ b k else k.

  (** tm_allocator.h 201: next_capacity. *)
  Definition next_capacity (c : Z) : Z := 3 * ((c + 2) / 2).

  (** tm_allocator.h 1813-1822: the constructor. *)
  Definition fixed_new (initial elements : Z) (malloc_ok : bool) : option ids :=
    check (4 <=? elements)
    (if initial <=? 0 then Some (Ids 0 0 (-1) elements (fun _ => None))
     else
       _ <- int32 (elements * initial) ;;
       Some (Ids 0 (if malloc_ok then initial else 0) (-1) elements (fun _ => None))).

  (** tm_allocator.h 1885-1893: pop. *)
  Definition fixed_pop (a : ids) : option (ids * Z) :=
    if 0 <=? free a then
      check (free a <? size a)
      (off <- int32 (free a * asize a) ;;
       next <- load a off ;;
       Some (Ids (size a) (cap a) next (asize a) (heap a), u32 (free a + 1)))
    else Some (a, 0).

  (** The growth common to both create functions: tm_allocator.h 1862-1869 and 1954-1961. *)
  Definition grow (a : ids) (realloc_ok : bool) : ids :=
    if (cap a <=? size a) && realloc_ok
    then Ids (size a) (s32 (next_capacity (cap a))) (free a) (asize a) (heap a)
    else a.

  (** tm_allocator.h 1858-1877: create. [realloc_ok]: TM_REALLOC succeeds. *)
  Definition fixed_create (a : ids) (realloc_ok : bool) : option (ids * Z) :=
    check (negb (cap a =? 0))
    (' (a1, id) <- fixed_pop a ;;
     if negb (id =? 0) then Some (a1, id)
     else
       let a2 := grow a1 realloc_ok in
       if size a2 <? cap a2 then
         n <- int32 (size a2 + 1) ;;
         check (0 <? n) (Some (Ids n (cap a2) (free a2) (asize a2) (heap a2), u32 n))
       else Some (a2, 0)).

  (** tm_allocator.h 1881-1884: data_from_id, as offset from data. *)
  Definition fixed_data (a : ids) (id : Z) : option Z :=
    if (0 <? id) && (s32 (id - 1) <? size a) then Some (u32 (u32 (id - 1) * asize a)) else None.

  (** tm_allocator.h 1894-1900: push. *)
  Definition fixed_push (a : ids) (id : Z) : option ids :=
    check (0 <? id)
    (let index := u32 (id - 1) in
     a' <- store a (u32 (index * asize a)) (free a) ;;
     Some (Ids (size a') (cap a') (s32 index) (asize a') (heap a'))).

  (** tm_allocator.h 1878-1880: destroy. *)
  Definition fixed_destroy (a : ids) (id : Z) : option ids :=
    match fixed_data a id with Some _ => fixed_push a id | None => Some a end.

  (** * Generational ids *)

  (** tm_allocator.h 498-513: the bits of a header. The parts do not overlap, so that | is the sum. *)
  Definition h_gen (bits : Z) : Z := bits / 2 ^ 24.
  Definition h_id (bits : Z) : Z := bits mod 2 ^ 23.
  Definition h_occupied (bits : Z) : bool := (bits / 2 ^ 23) mod 2 =? 1.
  Definition h_make (generation id : Z) (occupied : bool) : Z :=
    generation mod 2 ^ 8 * 2 ^ 24 + (if occupied then 2 ^ 23 else 0) + id mod 2 ^ 23.

  (** tm_allocator.h 1902-1914: the constructor; [elements] already contains the header and its
      padding (see [slot_size] below). *)
  Definition gen_new (initial elements : Z) (malloc_ok : bool) : option ids :=
    if initial <=? 0 then Some (Ids 0 0 (-1) elements (fun _ => None))
    else
      _ <- int32 (elements * initial) ;;
      Some (Ids 0 (if malloc_ok then initial else 0) (-1) elements (fun _ => None)).

  (** tm_allocator.h 1979-1988: pop. *)
  Definition gen_pop (a : ids) : option (ids * Z) :=
    if 0 <? free a then
      check (free a <=? size a)
      (off <- int32 (free a * asize a) ;;
       header <- load a off ;;
       Some (Ids (size a) (cap a) (h_id header) (asize a) (heap a), h_make (h_gen header) (u32 (free a)) true))
    else Some (a, 0).

  (** tm_allocator.h 1950-1971: create. *)
  Definition gen_create (a : ids) (realloc_ok : bool) : option (ids * Z) :=
    check (negb (cap a =? 0))
    (' (a1, id) <- gen_pop a ;;
     if negb (id =? 0) then Some (a1, id)
     else
       let a2 := grow a1 realloc_ok in
       if size a2 <? cap a2 then
         off <- int32 (size a2 * asize a2) ;;
         let bits := h_make 0 (size a2) true in
         a3 <- store a2 off bits ;;
         n <- int32 (size a2 + 1) ;;
         Some (Ids n (cap a3) (free a3) (asize a3) (heap a3), bits)
       else Some (a2, 0)).

  (** tm_allocator.h 1996-2004: base_from_id, as offset from data; the outer [None] is undefined. *)
  Definition gen_base (a : ids) (id : Z) : option (option Z) :=
    if negb (h_occupied id) then Some None
    else if size a <=? s32 (h_id id) then Some None
    else
      let off := u32 (h_id id * asize a) in
      header <- load a off ;;
      Some (if header =? id then Some off else None).

  (** tm_allocator.h 1989-1995: push. *)
  Definition gen_push (a : ids) (id : Z) : option ids :=
    let index := h_id id in
    let off := u32 (index * asize a) in
    header <- load a off ;;
    check (header =? id)
    (a' <- store a off (h_make (h_gen header + 1) (u32 (free a)) false) ;;
     Some (Ids (size a') (cap a') index (asize a') (heap a'))).

  (** tm_allocator.h 1972-1974: destroy. *)
  Definition gen_destroy (a : ids) (id : Z) : option ids :=
    b <- gen_base a id ;;
    match b with Some _ => gen_push a id | None => Some a end.

  (** ** Iteration: tm_allocator.h 2010-2045. An iterator is an offset and the number of slots from there on. *)
  Record iter := It { it_off : Z; it_size : Z }.

  (** The loop of operator++ (2034-2039). Every turn moves on by a slot, so that a load fails at the
      latest after [cap] turns: with [cap + 1] turns the fuel never runs out. *)
  Fixpoint iter_loop (fuel : nat) (a : ids) (off n : Z) : option iter :=
    match fuel with
    | O => None
    | S fuel =>
      header <- load a off ;;
      if h_occupied header then Some (It off n)
      else
        n' <- int32 (n - 1) ;;
        if n' =? 0 then Some (It (off + asize a) n') else iter_loop fuel a (off + asize a) n'
    end.
  Definition iter_next (a : ids) (it : iter) : option iter :=
    check (negb (it_size it =? 0))
    (n <- int32 (it_size it - 1) ;; iter_loop (S (Z.to_nat (cap a))) a (it_off it + asize a) n).
  Definition iter_begin (a : ids) : option iter :=
    if size a =? 0 then Some (It 0 0)
    else
      header <- load a 0 ;;
      if h_occupied header then Some (It 0 (size a)) else iter_next a (It 0 (size a)).
  Definition iter_end (a : ids) : option iter := off <- int32 (size a * asize a) ;; Some (It off 0).
  Definition iter_id (a : ids) (it : iter) : option Z := load a (it_off it).
End Model.

(** * The place of an element in its slot *)

(** tm_allocator.h 1339-1344: alignment_offset, of a power of two. *)
Definition offset_to (x alignment : Z) : Z := (alignment - x) mod alignment.
(** tm_allocator.h 1905-1909: allocation_alignment and allocation_size. *)
Definition slot_alignment (alignment : Z) : Z := Z.max alignment 4.
Definition slot_size (element_size alignment : Z) : Z := element_size + (4 + offset_to 4 alignment).
(** tm_allocator.h 2005-2008: body_from_base. [data] is the address of the memory block. *)
Definition body (data element_size alignment index : Z) : Z :=
  let end_of_header := data + index * slot_size element_size alignment + 4 in
  end_of_header + offset_to end_of_header (slot_alignment alignment).
