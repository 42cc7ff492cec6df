(** Model of tm_hashmapx.h: the FNV-1a hash functions and the X-macro generated hash map. *)
From Coq Require Import NArith List Bool Lia.
From Verif Require Import Base.
Import ListNotations.
Local Open Scope N_scope.

(** ** Hash functions *)

(** tm_hashmapx.h:589-590: TMH_FNV_64_INIT. *)
Definition FNV_INIT : N := 0xCBF29CE484222325.

(** tm_hashmapx.h:601-608 and 619-626: one step; TMH_NO_FNV_GCC_OPTIMIZATION is not defined, so the product is
    the sum of shifts. Every intermediate is a uint64_t. *)
Definition shl64 (x : N) (k : N) : N := w64 (N.shiftl x k).
Definition fnv_step (hval byte : N) : N :=
  let h := N.lxor hval byte in
  w64 (h + w64 (w64 (w64 (w64 (w64 (shl64 h 1 + shl64 h 4) + shl64 h 5) + shl64 h 7) + shl64 h 8) + shl64 h 40)).

(** tm_hashmapx.h:592-612: tmh_hash_combine, tmh_hash on [size] bytes; the early return for size 0 is kept. *)
Definition tmh_hash_combine (data : list N) (prev_hash : N) : N :=
  match data with [] => prev_hash | _ => fold_left fnv_step data prev_hash end.
Definition tmh_hash (data : list N) : N := tmh_hash_combine data FNV_INIT.

(** tm_hashmapx.h:614-630: tmh_string_hash(_combine) reads until the terminating zero; [None] when the memory given
    contains no terminator. *)
Fixpoint tmh_string_hash_combine (mem : list N) (hval : N) : option N :=
  match mem with
  | [] => None
  | b :: rest => if b =? 0 then Some hval else tmh_string_hash_combine rest (fnv_step hval b)
  end.
Definition tmh_string_hash (mem : list N) : option N := tmh_string_hash_combine mem FNV_INIT.

(** tm_hashmapx.h:631: tmh_is_power_of_two. *)
Definition tmh_is_power_of_two (x : N) : bool := N.land x (sub64 x 1) =? 0.

(** ** Outcomes

    [Ub]: failing assertion, access outside of an allocation, read of an uninitialised value, use of freed memory
    or double free. [Fuel]: the recursion budget of the model is exhausted (the theorems show that this never
    happens with the budget used). *)
Inductive outcome (A : Type) := Ret (a : A) | Ub | Fuel.
Arguments Ret {A} a.
Arguments Ub {A}.
Arguments Fuel {A}.

Notation "x <~ e ;; k" := (match e with Ret x => k | Ub => Ub | Fuel => Fuel end)
  (at level 61, e at next level, right associativity).
Notation "' p <~ e ;; k" := (match e with Ret p => k | Ub => Ub | Fuel => Fuel end)
  (at level 61, p pattern, e at next level, right associativity).
Definition check {A} (b : bool) (k : outcome A) : outcome A := if b then k else Ub.

(** A pointer to a block of cells. *)
Inductive ptr (A : Type) := Null | Freed | Mem (cells : list A).
Arguments Null {A}.
Arguments Freed {A}.
Arguments Mem {A} cells.

Definition non_null {A} (p : ptr A) : bool := match p with Null => false | _ => true end.

Definition load {A} (p : ptr A) (i : N) : outcome A :=
  match p with Mem l => match nth_error l (N.to_nat i) with Some x => Ret x | None => Ub end | _ => Ub end.
Definition store {A} (p : ptr A) (i : N) (x : A) : outcome (ptr A) :=
  match p with Mem l => match write l (N.to_nat i) x with Some l' => Ret (Mem l') | None => Ub end | _ => Ub end.
Definition free {A} (p : ptr A) : outcome (ptr A) :=
  match p with Null => Ret Null | Freed => Ub | Mem _ => Ret Null end.

(** tm_hashmapx.h:279: TMH_MAX_LINEAR_PROBE; 679: initial_capacity. *)
Definition MAX_PROBE : nat := 16.
Definition INITIAL_CAPACITY : N := 16.

Section Map.
(** The X-macro parameters: TMH_X_KEY with TMH_X_KEY_EQUALS, the tombstone value, TMH_X_KEY_HASH ([None]: the hash
    function asserts, as tmh_string_hash does for a null pointer) and the number of bytes TMH_X_KEY_COPY allocates
    ([None]: it does not allocate); TMH_X_VALUE with trivial copy and move (TMH_X_VALUE_IS_TRIVIAL).
    Keys are represented by their contents: for string keys a key is its characters and the tombstone is a null
    pointer. Owned string allocations are not tracked. *)
Variable K V : Type.
Variable keq : K -> K -> bool.
Variable tomb : K.
Variable hash : K -> option N.
Variable copy_bytes : K -> option N.
(** sizeof(TMH_X_KEY), sizeof(TMH_X_VALUE). *)
Variable ksize vsize : N.
(** The allocator: whether the n-th allocation request, for so many bytes, is granted. *)
Variable grant : nat -> N -> bool.

(** tm_hashmapx.h:445-450. Values of malloc'd slots are uninitialised ([None]). *)
Record map := Map { keys : ptr K; values : ptr (option V); count : N; capacity : N }.

Definition is_tomb (k : K) : bool := keq k tomb.

(** tm_hashmapx.h:677-698. The loop at 693 runs [capacity] times, writing the tombstone to every slot. *)
Definition create (t : nat) : map * nat :=
  if grant t (INITIAL_CAPACITY * ksize)
  then if grant (S t) (INITIAL_CAPACITY * vsize)
       then (Map (Mem (repeat tomb (N.to_nat INITIAL_CAPACITY))) (Mem (repeat None (N.to_nat INITIAL_CAPACITY))) 0
               INITIAL_CAPACITY, S (S t))
       else (Map Freed Null 0 0, S (S t))
  else (Map Null Null 0 0, S t).

(** tm_hashmapx.h:700-722. Destroying keys and values has no effect that this model tracks, except that all slots
    below [capacity] are accessed when both arrays are present and [count > 0]. *)
Definition destroy (m : map) : outcome map :=
  let walk := non_null (keys m) && non_null (values m) && (0 <? count m) in
  let walk_ok := match keys m, values m with
                 | Mem a, Mem b => (capacity m <=? N.of_nat (length a)) && (capacity m <=? N.of_nat (length b))
                 | _, _ => false end in
  check (negb walk || walk_ok)
    (k' <~ free (keys m) ;; v' <~ free (values m) ;; Ret (Map k' v' 0 0)).

(** tm_hashmapx.h:724-733: the loop from slot [i], [n] more slots; [ins] is insert_move. Returns success, the old
    map, the new map and the allocator time. *)
Fixpoint rehash (ins : map -> K -> V -> nat -> outcome (bool * map * nat)) (n : nat) (i : N) (old new : map)
    (t : nat) : outcome (bool * map * map * nat) :=
  match n with
  | O => Ret (true, old, new, t)
  | S n' =>
    k <~ load (keys old) i ;;
    if is_tomb k then rehash ins n' (i + 1) old new t
    else ov <~ load (values old) i ;;
         match ov with
         | None => Ub
         | Some v =>
           ' (b, new', t') <~ ins new k v t ;;
           if b then ks' <~ store (keys old) i tomb ;;
                     rehash ins n' (i + 1) (Map ks' (values old) (count old) (capacity old)) new' t'
           else Ret (false, old, new', t')
         end
  end.

(** tm_hashmapx.h:735-757. Byte counts are size_t; if the product wrapped, the initialising loop at 747 would
    write behind the allocation. *)
Definition grow (ins : map -> K -> V -> nat -> outcome (bool * map * nat)) (m : map) (t : nat)
    : outcome (bool * map * nat) :=
  let cap' := w64 (capacity m * 2) in
  let kok := grant t (w64 (cap' * ksize)) in
  let vok := grant (S t) (w64 (cap' * vsize)) in
  if negb kok || negb vok then Ret (false, m, S (S t))
  else check ((cap' * ksize <? W64) && (cap' * vsize <? W64))
    (let new := Map (Mem (repeat tomb (N.to_nat cap'))) (Mem (repeat None (N.to_nat cap'))) 0 cap' in
     ' (b, m', new', t') <~ rehash ins (N.to_nat (capacity m)) 0 m new (S (S t)) ;;
     if b then _ <~ destroy m' ;; Ret (true, new', t')
     else _ <~ destroy new' ;; Ret (false, m', t')).

(** tm_hashmapx.h:813-833: the probe loop from offset [i], [n] more steps. Returns slot_found, slot_existing,
    slot_index. *)
Fixpoint probe (ks : ptr K) (mask index : N) (k : K) (n : nat) (i : N) (found : bool) (slot : N)
    : outcome (bool * bool * N) :=
  match n with
  | O => Ret (found, false, slot)
  | S n' =>
    let ni := N.land (w64 (index + i)) mask in
    c <~ load ks ni ;;
    if negb found && is_tomb c then probe ks mask index k n' (i + 1) true ni
    else if keq c k then Ret (true, true, ni)
    else probe ks mask index k n' (i + 1) found slot
  end.

(** The assertions at tm_hashmapx.h:782-787, 852-857 and 892-897. *)
Definition asserted (m : map) : bool :=
  non_null (keys m) && non_null (values m) && (0 <? capacity m) && tmh_is_power_of_two (capacity m) &&
  (count m <=? capacity m).

(** tm_hashmapx.h:792-796. *)
Definition too_full (m : map) : bool :=
  let half := capacity m / 2 in
  let quarter := half / 2 in
  half + quarter <=? w64 (count m + 1).

(** tm_hashmapx.h:834-844: move the pair into the slot. *)
Definition put (m : map) (slot : N) (existing : bool) (k : K) (v : V) : outcome map :=
  ks' <~ store (keys m) slot k ;;
  vs' <~ store (values m) slot (Some v) ;;
  Ret (Map ks' vs' (if existing then count m else w64 (count m + 1)) (capacity m)).

(** tm_hashmapx.h:781-848. [entry = true]: from the start of the function; [entry = false]: from the head of the
    [for (;;)] loop. Every call consumes one unit of the recursion budget. *)
Fixpoint insert_run (fuel : nat) (entry : bool) (m : map) (k : K) (v : V) (t : nat)
    : outcome (bool * map * nat) :=
  match fuel with
  | O => Fuel
  | S fuel' =>
    let grow' := grow (fun m' k' v' t' => insert_run fuel' true m' k' v' t') in
    if entry then
      check (asserted m)
        (if is_tomb k then Ret (false, m, t)
         else if too_full m
              then ' (b, m', t') <~ grow' m t ;;
                   if b then insert_run fuel' false m' k v t' else Ret (false, m', t')
              else insert_run fuel' false m k v t)
    else
      match hash k with
      | None => Ub
      | Some h =>
        let mask := sub64 (capacity m) 1 in
        let index := N.land h mask in
        check (index <? capacity m)
          (' (found, existing, slot) <~ probe (keys m) mask index k MAX_PROBE 0 false 0 ;;
           if found then m' <~ put m slot existing k v ;; Ret (true, m', t)
           else ' (b, m', t') <~ grow' m t ;;
                if b then insert_run fuel' false m' k v t' else Ret (false, m', t'))
      end
  end.

(** The recursion budget: capacities are powers of two below 2^63. *)
Definition FUEL : nat := 200.
Definition insert_move (m : map) (k : K) (v : V) (t : nat) := insert_run FUEL true m k v t.

(** tm_hashmapx.h:759-779. *)
Definition insert (m : map) (k : K) (v : V) (t : nat) : outcome (bool * map * nat) :=
  if is_tomb k then Ret (false, m, t)
  else match copy_bytes k with
       | Some bytes => if grant t bytes then insert_move m k v (S t) else Ret (false, m, S t)
       | None => insert_move m k v t
       end.

(** tm_hashmapx.h:870-879: the search loop. *)
Fixpoint scan (ks : ptr K) (mask index : N) (k : K) (n : nat) (i : N) : outcome (option N) :=
  match n with
  | O => Ret None
  | S n' =>
    let ni := N.land (w64 (index + i)) mask in
    c <~ load ks ni ;;
    if keq c k then Ret (Some ni) else scan ks mask index k n' (i + 1)
  end.

(** tm_hashmapx.h:850-881. *)
Definition find_index (m : map) (k : K) : outcome (option N) :=
  check (asserted m)
    (if count m =? 0 then Ret None
     else match hash k with
          | None => Ub
          | Some h =>
            let mask := sub64 (capacity m) 1 in
            let index := N.land h mask in
            check (index <? capacity m) (scan (keys m) mask index k MAX_PROBE 0)
          end).

(** tm_hashmapx.h:883-889; the value found is read through the returned pointer. *)
Definition find (m : map) (k : K) : outcome (option V) :=
  r <~ find_index m k ;;
  match r with
  | None => Ret None
  | Some i => ov <~ load (values m) i ;; match ov with Some v => Ret (Some v) | None => Ub end
  end.

(** tm_hashmapx.h:891-908; both pointers of the pair are read when they are not null. *)
Definition get (m : map) (i : N) : outcome (option (K * V)) :=
  check (asserted m)
    (if i <? capacity m
     then k <~ load (keys m) i ;;
          if is_tomb k then Ret None
          else ov <~ load (values m) i ;; match ov with Some v => Ret (Some (k, v)) | None => Ub end
     else Ret None).

(** tm_hashmapx.h:912-920 / 930-935: erase slot [i]. *)
Definition erase (m : map) (i : N) : outcome map :=
  ks' <~ store (keys m) i tomb ;;
  _ <~ load (values m) i ;;
  Ret (Map ks' (values m) (sub64 (count m) 1) (capacity m)).

(** tm_hashmapx.h:910-921. *)
Definition remove (m : map) (k : K) : outcome (bool * map) :=
  r <~ find_index m k ;;
  match r with
  | None => Ret (false, m)
  | Some i => m' <~ erase m i ;; Ret (true, m')
  end.

(** tm_hashmapx.h:923-937. *)
Definition remove_index (m : map) (i : N) : outcome (bool * map) :=
  check (0 <? count m)
    (if i <? capacity m
     then k <~ load (keys m) i ;;
          if is_tomb k then Ret (false, m) else m' <~ erase m i ;; Ret (true, m')
     else Ret (false, m)).

(** tm_hashmapx.h:939-952. *)
Definition map_count (m : map) : N := count m.
Definition map_capacity (m : map) : N := capacity m.
Definition map_is_tombstone (m : map) (i : N) : outcome bool :=
  check (i <? capacity m) (k <~ load (keys m) i ;; Ret (is_tomb k)).
End Map.

Arguments Map {K V} keys values count capacity.
Arguments keys {K V} m.
Arguments values {K V} m.
Arguments count {K V} m.
Arguments capacity {K V} m.
