(** Model of tm_arrayview.h: UninitializedArrayView, makeRangeView and GridView.

    Addresses count elements from the start of an arena, a list that holds all memory of the program; pointers do not wrap.
    tm_size_t is unsigned with 64 bits. Elements are copied as bytes. [None]: a failed assertion, an access outside of the
    arena, overlapping ranges given to memcpy, or signed overflow. Not modelled: null pointers. *)
From Coq Require Import Arith NArith ZArith Lia Bool List.
From Verif Require Import Base.
Import ListNotations.
Local Open Scope N_scope.

(** A failed assertion ends everything. *)
Definition check (b : bool) : option unit := if b then Some tt else None.

Section Av.
Variable A : Type.

(** tm_arrayview.h:359-364 *)
Record view := View { base : N; sz : N; cap : N }.

Definition sub64 (a b : N) : N := w64 (a + 2 ^ 64 - b).
(** (tm_size_t)(last - first) *)
Definition distance (first last : N) : N := if first <=? last then last - first else w64 (2 ^ 64 - (first - last)).

(** ** Memory *)
Definition overwrite (m : list A) (a : nat) (xs : list A) : list A := firstn a m ++ xs ++ skipn (a + length xs) m.
Definition load (m : list A) (a : N) : option A := nth_error m (N.to_nat a).
Definition store (m : list A) (a : N) (x : A) : option (list A) :=
  if a <? N.of_nat (length m) then Some (overwrite m (N.to_nat a) [x]) else None.
(** memmove; the size in elements *)
Definition memmove (m : list A) (dst src n : N) : option (list A) :=
  if (dst + n <=? N.of_nat (length m)) && (src + n <=? N.of_nat (length m))
  then Some (overwrite m (N.to_nat dst) (firstn (N.to_nat n) (skipn (N.to_nat src) m))) else None.
Definition memcpy (m : list A) (dst src n : N) : option (list A) :=
  if (n =? 0) || (dst + n <=? src) || (src + n <=? dst) then memmove m dst src n else None.

(** ** UninitializedArrayView *)
(** tm_arrayview.h:376-398 *)
Definition view_begin (v : view) : N := base v.
Definition view_end (v : view) : N := base v + sz v.
Definition full (v : view) : bool := sz v =? cap v.
Definition remaining (v : view) : N := sub64 (cap v) (sz v).
(** tm_arrayview.h:400-427 *)
Definition at_ (v : view) (m : list A) (i : N) : option A := _ <- check (i <? sz v) ;; load m (base v + i).
(** tm_arrayview.h:458-477 *)
Definition back (v : view) (m : list A) : option A := _ <- check (negb (sz v =? 0)) ;; load m (base v + (sz v - 1)).
Definition front (v : view) (m : list A) : option A := _ <- check (negb (sz v =? 0)) ;; load m (base v).

Definition resized (v : view) (n : N) : view := View (base v) n (cap v).
(** tm_arrayview.h:479-484; [x]: the value of the element referred to *)
Definition push_back (v : view) (m : list A) (x : A) : option (view * list A) :=
  _ <- check (w64 (sz v + 1) <=? cap v) ;; m <- store m (base v + sz v) x ;; Some (resized v (w64 (sz v + 1)), m).
(** tm_arrayview.h:485-488: the assertion sz >= 0 holds for all values *)
Definition pop_back (v : view) : view := resized v (sub64 (sz v) 1).
(** tm_arrayview.h:490-501 *)
Definition try_push_back (v : view) (m : list A) (x : A) : option (bool * view * list A) :=
  if remaining v =? 0 then Some (false, v, m) else ' (v, m) <- push_back v m x ;; Some (true, v, m).
Definition try_pop_back (v : view) : bool * view := if 0 <? sz v then (true, resized v (sz v - 1)) else (false, v).
(** tm_arrayview.h:505-519: the address of the new element *)
Definition emplace_back (v : view) : option (N * view) :=
  _ <- check (w64 (sz v + 1) <=? cap v) ;; let v := resized v (w64 (sz v + 1)) in Some (base v + (sz v - 1), v).
(** tm_arrayview.h:521-529 *)
Definition clear (v : view) : view := resized v 0.
Definition resize (v : view) (n : N) : option view := _ <- check (n <=? cap v) ;; Some (resized v n).
Definition grow (v : view) (by_ : N) : option view :=
  let n := w64 (sz v + by_) in _ <- check (n <=? cap v) ;; Some (resized v n).

Definition apart (v : view) (a : N) : bool := (a <? view_begin v) || (view_end v <=? a).
(** tm_arrayview.h:532-537 *)
Definition assign_range (v : view) (m : list A) (first last : N) : option (view * list A) :=
  _ <- check (apart v first && apart v last) ;; let n := distance first last in
  _ <- check (n <=? cap v) ;; m <- memcpy m (base v) first n ;; Some (resized v n, m).
(** tm_arrayview.h:531 *)
Definition assign_view (v : view) (m : list A) (other : view) : option (view * list A) := assign_range v m (view_begin other) (view_end other).
(** tm_arrayview.h:538-544 *)
Definition assign_n (v : view) (m : list A) (first n : N) : option (view * list A) :=
  _ <- check (n <=? cap v) ;; _ <- check (apart v first && apart v (first + n)) ;;
  m <- memcpy m (base v) first n ;; Some (resized v n, m).
(** tm_arrayview.h:551-553: the loop; the value is read through its reference every time *)
Inductive ref := Temp (x : A) | At (a : N).
Definition deref (m : list A) (r : ref) : option A := match r with Temp x => Some x | At a => load m a end.
Fixpoint fill (n : nat) (m : list A) (a : N) (r : ref) : option (list A) :=
  match n with
  | O => Some m
  | S n => x <- deref m r ;; m <- store m a x ;; fill n m (a + 1) r
  end.
(** tm_arrayview.h:545-554 *)
Definition assign_value (v : view) (m : list A) (n : N) (r : ref) : option (view * list A) :=
  let n := N.min n (cap v) in m <- fill (N.to_nat n) m (base v) r ;; Some (resized v n, m).
(** tm_arrayview.h:555-559: the list is not in the arena *)
Definition assign_list (v : view) (m : list A) (xs : list A) : option (view * list A) :=
  _ <- check (N.of_nat (length xs) <=? cap v) ;;
  _ <- check (base v + N.of_nat (length xs) <=? N.of_nat (length m)) ;;
  Some (resized v (N.of_nat (length xs)), overwrite m (N.to_nat (base v)) xs).

Definition inside (v : view) (p : N) : bool := (view_begin v <=? p) && (p <=? view_end v).
(** tm_arrayview.h:561-579; the counter of the loop is an int, line 574 *)
Definition insert_value (v : view) (m : list A) (p n : N) (r : ref) : option (view * list A) :=
  _ <- check (inside v p) ;;
  let count := N.min n (remaining v) in
  if 0 <? count then
    x <- deref m r ;;
    m <- memmove m (p + count) p (view_end v - p) ;;
    let v := resized v (w64 (sz v + count)) in
    _ <- check (count <? 2 ^ 31) ;;
    m <- fill (N.to_nat count) m p (Temp x) ;;
    Some (v, m)
  else Some (v, m).
(** tm_arrayview.h:580-595 *)
Definition insert_range (v : view) (m : list A) (p first last : N) : option (view * list A) :=
  _ <- check (first <=? last) ;; _ <- check (inside v p) ;;
  let rem := remaining v in let count := distance first last in
  _ <- check (count <=? rem) ;;
  if (0 <? count) && (count <=? rem) then
    m <- memmove m (p + count) p (view_end v - p) ;;
    m <- memcpy m p first count ;;
    Some (resized v (w64 (sz v + count)), m)
  else Some (v, m).
(** tm_arrayview.h:597-598 *)
Definition append_range (v : view) (m : list A) (first last : N) := insert_range v m (view_end v) first last.
Definition append_value (v : view) (m : list A) (n : N) (r : ref) := insert_value v m (view_end v) n r.
(** tm_arrayview.h:600-606: end() - position - 1 becomes size_t *)
Definition erase (v : view) (m : list A) (p : N) : option (view * list A) :=
  _ <- check (inside v p) ;; m <- memmove m p (p + 1) (sub64 (view_end v - p) 1) ;; Some (resized v (sub64 (sz v) 1), m).
(** tm_arrayview.h:607-619 *)
Definition erase_range (v : view) (m : list A) (first last : N) : option (view * list A) :=
  _ <- check (first <=? last) ;;
  if (first =? view_begin v) && (last =? view_end v) then Some (clear v, m)
  else if first <? last then
    _ <- check ((view_begin v <=? first) && (last <=? view_end v)) ;;
    m <- memmove m first last (view_end v - last) ;; Some (resized v (sub64 (sz v) (last - first)), m)
  else Some (v, m).

(** ** makeRangeView, tm_arrayview.h:306-353: start and size of the view of a container of [n] elements *)
Definition range_from (n start : N) : N * N := let start := if n <=? start then n else start in (start, sub64 n start).
Definition range_view (n start end_ : N) : option (N * N) :=
  let start := if n <=? start then n else start in let end_ := if n <=? end_ then n else end_ in
  _ <- check (start <=? end_) ;; Some (start, sub64 end_ start).

(** ** GridView, tm_arrayview.h:645-740 *)
Record grid := Grid { width : N; height : N }.
Definition in_bounds (g : grid) (x y : N) : bool := (x <? width g) && (y <? height g).
Definition grid_size (g : grid) : N := w64 (width g * height g).
Definition grid_index (g : grid) (x y : N) : N := w64 (x + w64 (y * width g)).
Definition grid_coordinates (g : grid) (i : N) : option (N * N) := _ <- check (i <? grid_size g) ;; Some (i mod width g, i / width g).
(** tm_arrayview.h:704-717: the index of the element referred to *)
Definition grid_at (g : grid) (x y : N) : option N :=
  _ <- check (in_bounds g x y) ;; let i := grid_index g x y in _ <- check (i <? grid_size g) ;; Some i.
(** tm_arrayview.h:722-735: the offset of the pointer, [None]: null *)
Definition grid_query_index (g : grid) (i : N) : option N := if i <? grid_size g then Some i else None.
Definition grid_query (g : grid) (x y : N) : option N := if in_bounds g x y then Some (x + w64 (y * width g)) else None.
End Av.
