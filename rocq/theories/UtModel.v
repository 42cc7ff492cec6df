(** Model of tm_utility.h: the parts that compute (comparisons, alignment, byte order, ranges, flags).
    Words are numbers below 2^32 or 2^64; values of type int are integers in [-2^31, 2^31). *)
From Coq Require Import Arith NArith ZArith Bool List.
From Verif Require Import Base.
Import ListNotations.

(** ** Order. The results refer to one of the arguments; a reference is its value here.
    [lt]: operator <, [comp]: the functor given. *)
Section Order.
Variable T : Type.
Variable lt comp : T -> T -> bool.
(** tm_utility.h:175-182 *)
Definition min2 (a b : T) : T := if lt a b then a else b.
Definition max2 (a b : T) : T := if lt a b then b else a.
(** tm_utility.h:184-191 *)
Definition min3 (a b c : T) : T := min2 a (min2 b c).
Definition max3 (a b c : T) : T := max2 (max2 a b) c.
(** tm_utility.h:218-221 *)
Definition minmax2 (a b : T) : T * T := if lt a b then (a, b) else (b, a).
(** tm_utility.h:228-237 *)
Definition minmax3 (a b c : T) : T * T :=
  let mm := minmax2 a c in
  if lt b (fst mm) then (b, snd mm) else if lt (snd mm) b then (fst mm, b) else mm.
(** tm_utility.h:250-259 *)
Definition median (a b c : T) : T :=
  let mm := minmax2 a b in
  if lt (snd mm) c then snd mm else if lt (fst mm) c then c else fst mm.
(** tm_utility.h:193-200 *)
Definition min2_comp (a b : T) : T := if comp a b then a else b.
Definition max2_comp (a b : T) : T := if comp a b then b else a.
(** tm_utility.h:203-210 *)
Definition min3_comp (a b c : T) : T := min2_comp a (min2_comp b c).
Definition max3_comp (a b c : T) : T := max2_comp (max2_comp a b) c.
(** tm_utility.h:223-226 *)
Definition minmax2_comp (a b : T) : T * T := if comp a b then (a, b) else (b, a).
(** tm_utility.h:239-248: the second comparison is operator < *)
Definition minmax3_comp (a b c : T) : T * T :=
  let mm := minmax2_comp a c in
  if comp b (fst mm) then (b, snd mm) else if lt (snd mm) b then (fst mm, b) else mm.
(** tm_utility.h:260-269, median with a functor, refers to a member that does not exist; it cannot be instantiated. *)
End Order.

Local Open Scope N_scope.
(** tm_utility.h:287-288; also for 32 bits: the words below 2^32 *)
Definition is_power_of_two (x : N) : bool := negb (x =? 0) && (N.land x (x - 1) =? 0).
(** tm_utility.h:293-296; [p]: the address *)
Definition is_aligned (p alignment : N) : bool := p mod alignment =? 0.
(** tm_utility.h:720-725 *)
Definition get_alignment_offset (ptr alignment : N) : option N :=
  assert_ (negb (alignment =? 0) && is_power_of_two alignment)
  (let off := N.land (w64 (alignment + 2 ^ 64 - ptr)) (alignment - 1) in
   assert_ (is_aligned (w64 (ptr + off)) alignment) (Some off)).

(** tm_utility.h:481-490; the signed versions have the same representation in memory *)
Definition swap16 (v : N) : N :=
  N.lor (N.shiftl (N.land v 0x00ff) 8) (N.shiftr (N.land v 0xff00) 8) mod 2 ^ 16.
(** tm_utility.h:491-502, 729-732 *)
Definition swap32 (v : N) : N :=
  N.lor (N.lor (N.lor (w32 (N.shiftl (N.land v 0x000000FF) 24)) (w32 (N.shiftl (N.land v 0x0000FF00) 8))) (N.shiftr (N.land v 0x00FF0000) 8)) (N.shiftr (N.land v 0xFF000000) 24).
(** tm_utility.h:503-518, 733-736 *)
Definition swap64 (v : N) : N :=
  N.lor (N.lor (N.lor (N.lor (N.lor (N.lor (N.lor
    (w64 (N.shiftl (N.land v 0x00000000000000FF) 56)) (w64 (N.shiftl (N.land v 0x000000000000FF00) 40)))
    (w64 (N.shiftl (N.land v 0x0000000000FF0000) 24))) (w64 (N.shiftl (N.land v 0x00000000FF000000) 8)))
    (N.shiftr (N.land v 0x000000FF00000000) 8)) (N.shiftr (N.land v 0x0000FF0000000000) 24))
    (N.shiftr (N.land v 0x00FF000000000000) 40)) (N.shiftr (N.land v 0xFF00000000000000) 56).

(** tm_utility.h:684-688; [m]: the bytes at ptr. memcmp reads [size-1] bytes at ptr and at ptr+1. *)
Fixpoint equal_bytes (n : nat) (a b : list N) : option bool :=
  match n, a, b with
  | O, _, _ => Some true
  | S n, x :: a, y :: b => if x =? y then equal_bytes n a b else Some false
  | _, _, _ => None
  end.
Definition is_memory_zero (m : list N) (size : nat) : option bool :=
  assert_ (negb (Nat.eqb size 0))
  match m with
  | x :: rest => if x =? 0 then equal_bytes (size - 1) m rest else Some false
  | [] => None
  end.

(** tm_utility.h:439-450: flags of [w] bits, flag of [f] bits, unsigned; the complement has the bits of the flag only *)
Definition complement (f : N) (x : N) : N := 2 ^ f - 1 - x.
Definition set_flag (flags flag : N) : N := N.lor flags flag.
Definition clear_flag (f : N) (flags flag : N) : N := N.land flags (complement f flag).
Definition set_flag_cond (f : N) (flags flag : N) (cond : bool) : N := if cond then set_flag flags flag else clear_flag f flags flag.
Definition toggle_flag (flags flag : N) : N := N.lxor flags flag.
Definition is_flag_set (flags flag : N) : bool := negb (N.land flags flag =? 0).

Local Open Scope Z_scope.
Definition is_int (x : Z) : bool := (- 2 ^ 31 <=? x) && (x <? 2 ^ 31).
Definition as_u32 (x : Z) : Z := x mod 2 ^ 32.
Definition as_int (x : Z) : Z := let y := x mod 2 ^ 32 in if y <? 2 ^ 31 then y else y - 2 ^ 32.
(** tm_utility.h:423-429, 64 bit; overflow of int: [None] *)
Definition map_to_range (value min max : Z) : option Z :=
  assert_ (is_int (max - min))
  (let r := as_int (as_u32 value * as_u32 (max - min) / 2 ^ 32) + min in assert_ (is_int r) (Some r)).
(** tm_utility.h:430-432, 32 bit *)
Definition map_to_range_32 (value min max : Z) : option Z :=
  assert_ (is_int (max - min) && negb (max - min =? 0))
  (let r := Z.rem value (max - min) + min in assert_ (is_int r) (Some r)).

(** tm_utility.h:646-649, all arguments of one type *)
Definition clamp (val lower upper : Z) : Z := if val <? lower then lower else if upper <? val then upper else val.
(** the same with a value of type int and bounds of type unsigned int: the comparisons and the conditional expression are unsigned *)
Definition clamp_mixed (val lower upper : Z) : Z := as_int (if as_u32 val <? lower then lower else if upper <? as_u32 val then upper else as_u32 val).
(** tm_utility.h:635-644; [w], [r]: bits of the value and of the result; result unsigned *)
Definition promote_as_is_to (w r : Z) (value : Z) : option Z := assert_ (w <=? r) (Some (value mod 2 ^ w)).
