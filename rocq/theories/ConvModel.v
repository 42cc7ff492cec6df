(** Model of the integer and boolean conversions of tm_conversion.h: scanning 832-1371 and
    1765-1849, printing 1749-1763, 1856-2560. Characters are byte values (N < 256). The 32 and 64
    bit functions of each group are textual copies of each other (up to parentheses and empty
    lines); they are modelled once, over [W] = 2^32 or 2^64. *)
From Coq Require Import NArith ZArith List Bool.
From Verif Require Import Base CTypeModel.
Import ListNotations.
Local Open Scope N_scope.

(** * Scanning integers *)

(** tm_conversion.h 878-882 (also 955-959, 1014-1018, 1076-1080, 1148-1152, 1224-1228, 1284-1288,
    1346-1350): range check and accumulation of one digit. *)
Definition scan_int_digit (W ubase maxValue maxDigit : N) (st : N * bool) (digit : N) : N * bool :=
  let (value, rangeError) := st in
  if rangeError || (maxValue <? value) || ((value =? maxValue) && (maxDigit <? digit))
  then (value, true)
  else (((value * ubase) mod W + digit) mod W, false).

(** tm_conversion.h 863-883 (scan_i32; the same in scan_u32 999-1019, scan_i64 1133-1153,
    scan_u64 1269-1289): the loop over a null terminated string. [mem] is the memory from p on;
    reading past its end is undefined behaviour. Returns value, rangeError and p - start. *)
Fixpoint scan_int_loop (W ubase maxValue maxDigit : N) (st : N * bool) (dist : nat) (mem : list N)
  : option (N * bool * nat) :=
  match mem with
  | [] => None
  | cp :: rest =>
    if cp =? 0 then Some (st, dist)
    else match scan_digit cp with
         | None => Some (st, dist)
         | Some digit =>
           if ubase <=? digit then Some (st, dist)
           else scan_int_loop W ubase maxValue maxDigit (scan_int_digit W ubase maxValue maxDigit st digit)
                  (S dist) rest
         end
  end.

(** tm_conversion.h 940-960 (scan_i32_n; the same in scan_u32_n 1061-1081, scan_i64_n 1209-1229,
    scan_u64_n 1331-1351): the loop over [len] characters. *)
Fixpoint scan_int_n_loop (W ubase maxValue maxDigit : N) (st : N * bool) (dist : nat) (mem : list N)
  (len : nat) {struct len} : option (N * bool * nat) :=
  match len with
  | O => Some (st, dist)
  | S len' =>
    match mem with
    | [] => None
    | cp :: rest =>
      match scan_digit cp with
      | None => Some (st, dist)
      | Some digit =>
        if ubase <=? digit then Some (st, dist)
        else scan_int_n_loop W ubase maxValue maxDigit (scan_int_digit W ubase maxValue maxDigit st digit)
               (S dist) rest len'
      end
    end
  end.

(** (stype)value: conversion of uint32_t/uint64_t to the signed type of the same width (two's
    complement, as on every compiler the library supports). *)
Definition to_signed (W value : N) : Z :=
  if value <? W / 2 then Z.of_N value else (Z.of_N value - Z.of_N W)%Z.
(** (utype)value: the other direction. *)
Definition to_unsigned (W : N) (value : Z) : N := Z.to_N (value mod Z.of_N W).
(** INT32_MIN, INT64_MIN *)
Definition int_min (W : N) : Z := (- Z.of_N (W / 2))%Z.
(** Unary minus of the signed type; negating the minimum overflows, which is undefined. *)
Definition neg_signed (W : N) (x : Z) : option Z := assert_ (negb (Z.eqb x (int_min W))) (Some (- x)%Z).

(** tm_conversion.h 884-903 (also 961-979, 1154-1173, 1230-1247): result and the write to *out.
    [out] is [None] for a null pointer and [Some v] if *out is v before the call; the second
    component of the result is *out after the call. TMC_CLAMP_ON_RANGE_ERROR is 0 (its default; 1
    does not compile, MAX_VAL is declared twice then). *)
Definition scan_signed_finish (W : N) (negative : bool) (out : option Z) (r : N * bool * nat)
  : option (conv * option Z) :=
  let '(value, rangeError, dist) := r in
  if ((dist =? 0)%nat || (negative && (dist =? 1)%nat))%bool then Some (Conv 0 EINVAL, out)
  else
    let ec := if rangeError : bool then ERANGE else OK in
    match out with
    | None => Some (Conv dist ec, None)
    | Some _ =>
      if rangeError then Some (Conv dist ec, out)
      else if negative then v <- neg_signed W (to_signed W value) ;; Some (Conv dist ec, Some v)
      else Some (Conv dist ec, Some (to_signed W value))
    end.

(** tm_conversion.h 832-904: scan_i32 (W = 2^32); 1102-1174: scan_i64 (W = 2^64). The string is
    [Some mem], or [None] for a null pointer. *)
Definition scan_signed (W : N) (str : option (list N)) (out : option Z) (base : N)
  : option (conv * option Z) :=
  assert_ ((2 <=? base) && (base <=? 36))
  (match str with
   | None => Some (Conv 0 EINVAL, out)
   | Some [] => None
   | Some (c :: rest) =>
     let negative := c =? 45 in
     let max_val := if negative then W / 2 else W / 2 - 1 in
     r <- (if negative then scan_int_loop W base (max_val / base) (max_val mod base) (0, false) 1 rest
           else scan_int_loop W base (max_val / base) (max_val mod base) (0, false) 0 (c :: rest)) ;;
     scan_signed_finish W negative out r
   end).

(** tm_conversion.h 905-980: scan_i32_n; 1175-1248: scan_i64_n. (A null [str] with len 0 behaves
    like an empty one.) *)
Definition scan_signed_n (W : N) (mem : list N) (len : nat) (out : option Z) (base : N)
  : option (conv * option Z) :=
  assert_ ((2 <=? base) && (base <=? 36))
  (if (len =? 0)%nat then Some (Conv 0 EINVAL, out)
   else match mem with
   | [] => None
   | c :: rest =>
     let negative := c =? 45 in
     let max_val := if negative then W / 2 else W / 2 - 1 in
     r <- (if negative then scan_int_n_loop W base (max_val / base) (max_val mod base) (0, false) 1 rest (len - 1)
           else scan_int_n_loop W base (max_val / base) (max_val mod base) (0, false) 0 (c :: rest) len) ;;
     scan_signed_finish W negative out r
   end).

(** tm_conversion.h 1020-1039 (also 1082-1100, 1290-1309, 1352-1370). *)
Definition scan_unsigned_finish (out : option N) (r : N * bool * nat) : conv * option N :=
  let '(value, rangeError, dist) := r in
  if (dist =? 0)%nat then (Conv 0 EINVAL, out)
  else (Conv dist (if rangeError : bool then ERANGE else OK),
        match out with None => None | Some o => Some (if rangeError then o else value) end).

(** tm_conversion.h 981-1040: scan_u32; 1249-1310: scan_u64. *)
Definition scan_unsigned (W : N) (str : option (list N)) (out : option N) (base : N)
  : option (conv * option N) :=
  assert_ ((2 <=? base) && (base <=? 36))
  (match str with
   | None => Some (Conv 0 EINVAL, out)
   | Some mem =>
     r <- scan_int_loop W base ((W - 1) / base) ((W - 1) mod base) (0, false) 0 mem ;;
     Some (scan_unsigned_finish out r)
   end).

(** tm_conversion.h 1041-1101: scan_u32_n; 1311-1371: scan_u64_n. *)
Definition scan_unsigned_n (W : N) (mem : list N) (len : nat) (out : option N) (base : N)
  : option (conv * option N) :=
  assert_ ((2 <=? base) && (base <=? 36))
  (if (len =? 0)%nat then Some (Conv 0 EINVAL, out)
   else
     r <- scan_int_n_loop W base ((W - 1) / base) ((W - 1) mod base) (0, false) 0 mem len ;;
     Some (scan_unsigned_finish out r)).

Definition scan_i32 := scan_signed W32.
Definition scan_i64 := scan_signed W64.
Definition scan_u32 := scan_unsigned W32.
Definition scan_u64 := scan_unsigned W64.
Definition scan_i32_n := scan_signed_n W32.
Definition scan_i64_n := scan_signed_n W64.
Definition scan_u32_n := scan_unsigned_n W32.
Definition scan_u64_n := scan_unsigned_n W64.

(** * Scanning booleans *)

(** tm_conversion.h 1765-1784: tm_strnicmp, used where neither strnicmp nor strncasecmp is configured
    (TM_STRNICMP, 348-351). [a] and [b] are the memory at the two pointers. The condition of the
    loop is [*a && *b && maxlen--]: maxlen (an unsigned tm_size_t, W = 2^64) is only decremented if
    both characters are not 0, and wraps around at 0. *)
Fixpoint tm_strnicmp (a b : list N) (maxlen : N) {struct a} : option Z :=
  match a, b with
  | ca :: a', cb :: b' =>
    let finish (maxlen : N) : option Z :=
      if maxlen =? 0 then Some 0%Z else Some (Z.of_N (to_upper ca) - Z.of_N (to_upper cb))%Z in
    if (ca =? 0) || (cb =? 0) then finish maxlen
    else if maxlen =? 0 then finish (sub64 maxlen 1)
    else if negb (to_upper ca =? to_upper cb) then finish (maxlen - 1)
    else tm_strnicmp a' b' (maxlen - 1)
  | _, _ => None
  end.

Definition text_true : list N := [116; 114; 117; 101; 0].
Definition text_false : list N := [102; 97; 108; 115; 101; 0].

(** tm_conversion.h 1786-1817: scan_bool. The comparison is a parameter: TM_STRNICMP is
    configurable (tm_conversion.h 348-351); [tm_strnicmp] is the default. *)
Definition scan_bool_with (strnicmp : list N -> list N -> N -> option Z) (str : option (list N))
  (out : option bool) : option (conv * option bool) :=
  let set (v : bool) (size : nat) :=
    Some (Conv size OK, match out with Some _ => Some v | None => None end) in
  match str with
  | None => Some (Conv 0 EINVAL, out)
  | Some [] => None
  | Some (c :: rest) =>
    if c =? 49 then set true 1%nat
    else if c =? 48 then set false 1%nat
    else
      t <- strnicmp (c :: rest) text_true 4 ;;
      if (t =? 0)%Z then set true 4%nat
      else
        f <- strnicmp (c :: rest) text_false 5 ;;
        if (f =? 0)%Z then set false 5%nat else Some (Conv 0 EINVAL, out)
  end.

(** tm_conversion.h 1818-1852: scan_bool_n. *)
Definition scan_bool_n_with (strnicmp : list N -> list N -> N -> option Z) (mem : list N) (len : nat)
  (out : option bool) : option (conv * option bool) :=
  let set (v : bool) (size : nat) :=
    Some (Conv size OK, match out with Some _ => Some v | None => None end) in
  if (len =? 0)%nat then Some (Conv 0 EINVAL, out)
  else match mem with
  | [] => None
  | c :: rest =>
    if c =? 49 then set true 1%nat
    else if c =? 48 then set false 1%nat
    else
      t <- strnicmp (c :: rest) text_true (N.of_nat len) ;;
      if (t =? 0)%Z then set true 4%nat
      else
        f <- strnicmp (c :: rest) text_false (N.of_nat len) ;;
        if (f =? 0)%Z then set false 5%nat else Some (Conv 0 EINVAL, out)
  end.
Definition scan_bool := scan_bool_with tm_strnicmp.
Definition scan_bool_n := scan_bool_n_with tm_strnicmp.

(** * Digit counts *)

(** tm_conversion.h 1931-1969: get_digits_count_decimal_u64. The recursion has no syntactic bound;
    [None] on exhausted fuel. *)
Fixpoint digits_count_decimal_u64 (fuel : nat) (number : N) : option nat :=
  match fuel with
  | O => None
  | S f =>
    if number <? 10 then Some 1%nat
    else if number <? 100 then Some 2%nat
    else if number <? 1000 then Some 3%nat
    else if number <? 1000000000000 then
      if number <? 100000000 then
        if number <? 1000000 then
          if number <? 10000 then Some 4%nat
          else Some (5 + N.to_nat (b2n (100000 <=? number)%N))%nat
        else Some (7 + N.to_nat (b2n (10000000 <=? number)%N))%nat
      else if number <? 10000000000 then Some (9 + N.to_nat (b2n (1000000000 <=? number)%N))%nat
      else Some (11 + N.to_nat (b2n (100000000000 <=? number)%N))%nat
    else k <- digits_count_decimal_u64 f (number / 1000000000000) ;; Some (12 + k)%nat
  end.
Definition get_digits_count_decimal_u64 (number : N) : option nat := digits_count_decimal_u64 2 number.

(** tm_conversion.h 1970-1999: get_digits_count_decimal_u32. *)
Definition get_digits_count_decimal_u32 (number : N) : option nat :=
  if number <? 10 then Some 1%nat
  else if number <? 100 then Some 2%nat
  else if number <? 1000 then Some 3%nat
  else if number <? 100000000 then
    if number <? 1000000 then
      if number <? 10000 then Some 4%nat
      else Some (5 + N.to_nat (b2n (100000 <=? number)%N))%nat
    else Some (7 + N.to_nat (b2n (10000000 <=? number)%N))%nat
  else Some (9 + N.to_nat (b2n (1000000000 <=? number)%N))%nat.

(** tm_conversion.h 2148-2163: get_digits_count_hex_u32, get_digits_count_hex_u64. [fuel] bounds the
    do-while loop; [None] on exhausted fuel. *)
Fixpoint hex_count_loop (fuel : nat) (value : N) (result : nat) : option nat :=
  match fuel with
  | O => None
  | S f =>
    let value' := N.shiftr value 4 in
    if value' =? 0 then Some (S result) else hex_count_loop f value' (S result)
  end.
Definition get_digits_count_hex (value : N) : option nat := hex_count_loop 16 value 0.

(** tm_conversion.h 2165-2183: get_digits_count_u32; 2184-2202: get_digits_count_u64. The powers of
    the base are uint32_t in both. *)
Fixpoint count_loop (fuel : nat) (p1 p2 p3 p4 : N) (number : N) (result : nat) : option nat :=
  match fuel with
  | O => None
  | S f =>
    if number <? p4 then
      Some (result + N.to_nat (b2n (p1 <=? number)%N) + N.to_nat (b2n (p2 <=? number)%N)
            + N.to_nat (b2n (p3 <=? number)%N))%nat
    else if p4 =? 0 then None (* division by zero *)
    else count_loop f p1 p2 p3 p4 (number / p4) (result + 4)
  end.
Definition get_digits_count (number base : N) : option nat :=
  assert_ ((2 <=? base) && (base <=? 36))
  (let p1 := base in
   let p2 := w32 (p1 * base) in
   let p3 := w32 (p2 * base) in
   let p4 := w32 (p3 * base) in
   count_loop 17 p1 p2 p3 p4 number 1).

(** * Printing *)

(** tm_conversion.h 1749-1763: tmc_print_string. [buf] is the memory at dest. *)
Fixpoint copy_into (buf src : list N) : option (list N) :=
  match src, buf with
  | [], _ => Some buf
  | _ :: _, [] => None
  | c :: s, _ :: t => t' <- copy_into t s ;; Some (c :: t')
  end.
Definition tmc_print_string (buf : list N) (maxlen : nat) (src : list N) : option (conv * list N) :=
  let size := if (maxlen <? length src)%nat then maxlen else length src in
  let ec := if (maxlen <? length src)%nat then EOVERFLOW else OK in
  assert_ (0 <? size)%nat
  (buf' <- copy_into buf (firstn size src) ;; Some (Conv size ec, buf')).

(** tm_conversion.h 1856-1865: print_bool; [as_number] is flags & PF_BOOL_AS_NUMBER. *)
Definition print_bool (buf : list N) (maxlen : nat) (value as_number : bool) : option (conv * list N) :=
  if as_number then tmc_print_string buf maxlen (if value then [49] else [48])
  else tmc_print_string buf maxlen (if value then [116; 114; 117; 101] else [102; 97; 108; 115; 101]).

(** tm_conversion.h 1869-1874: the character tables. *)
Definition number_table_upper : list N :=
  [48; 49; 50; 51; 52; 53; 54; 55; 56; 57; 65; 66; 67; 68; 69; 70; 71; 72; 73; 74; 75; 76; 77;
   78; 79; 80; 81; 82; 83; 84; 85; 86; 87; 88; 89; 90].
Definition number_table_lower : list N :=
  [48; 49; 50; 51; 52; 53; 54; 55; 56; 57; 97; 98; 99; 100; 101; 102; 103; 104; 105; 106; 107; 108;
   109; 110; 111; 112; 113; 114; 115; 116; 117; 118; 119; 120; 121; 122].
Definition number_table (lowercase : bool) : list N :=
  if lowercase then number_table_lower else number_table_upper.

(** tm_conversion.h 1878-1887: print_DoubleDigitsToCharTable. *)
Definition double_digits_table : list N := [
   48; 48; 48; 49; 48; 50; 48; 51; 48; 52; 48; 53; 48; 54; 48; 55; 48; 56; 48; 57;
   49; 48; 49; 49; 49; 50; 49; 51; 49; 52; 49; 53; 49; 54; 49; 55; 49; 56; 49; 57;
   50; 48; 50; 49; 50; 50; 50; 51; 50; 52; 50; 53; 50; 54; 50; 55; 50; 56; 50; 57;
   51; 48; 51; 49; 51; 50; 51; 51; 51; 52; 51; 53; 51; 54; 51; 55; 51; 56; 51; 57;
   52; 48; 52; 49; 52; 50; 52; 51; 52; 52; 52; 53; 52; 54; 52; 55; 52; 56; 52; 57;
   53; 48; 53; 49; 53; 50; 53; 51; 53; 52; 53; 53; 53; 54; 53; 55; 53; 56; 53; 57;
   54; 48; 54; 49; 54; 50; 54; 51; 54; 52; 54; 53; 54; 54; 54; 55; 54; 56; 54; 57;
   55; 48; 55; 49; 55; 50; 55; 51; 55; 52; 55; 53; 55; 54; 55; 55; 55; 56; 55; 57;
   56; 48; 56; 49; 56; 50; 56; 51; 56; 52; 56; 53; 56; 54; 56; 55; 56; 56; 56; 57;
   57; 48; 57; 49; 57; 50; 57; 51; 57; 52; 57; 53; 57; 54; 57; 55; 57; 56; 57; 57].

(** tmc_combine_conv_results, tm_conversion.h 468-473. *)
Definition combine_conv (a b : conv) : conv :=
  Conv (cv_size a + cv_size b) (match cv_ec a with OK => cv_ec b | e => e end).

Section Printing.
  (** The two build options the printing functions depend on: [dbg]: TM_ASSERT checks its
      argument; if false, assertions are compiled out. [cw]: TMC_CHECKED_WIDTH is defined.
      tm_size_t is unsigned, so that TMC_CW_SIGNED_SIZE_T is empty (803-813). *)
  Variables dbg cw : bool.

  Definition tm_assert {A} (b : bool) (k : option A) : option A := if dbg then assert_ b k else k.

  (** Two digits at [pos - 2] and [pos - 1]; [None] if that is outside of the buffer. In the
      printing functions p = dest + pos - 1. *)
  Definition write2 (buf : list N) (pos : nat) (c1 c0 : N) : option (list N) :=
    match pos with
    | S (S pos') => b <- write buf (S pos') c0 ;; write b pos' c1
    | _ => None
    end.
  Definition write1 (buf : list N) (pos : nat) (c : N) : option (list N) :=
    match pos with S pos' => write buf pos' c | O => None end.

  (** tm_conversion.h 2017-2025 / 2065-2073: the loop of print_decimal_u32_w, print_decimal_u64_w.
      [width] only changes with TMC_CHECKED_WIDTH; it then is [pos]. Returns the buffer, pos and
      the rest of the value. *)
  Fixpoint decimal_loop (pos : nat) (buf : list N) (value : N) : option (list N * nat * N) :=
    if (100 <=? value) && (negb cw || (2 <=? pos)%nat) then
      match pos with
      | S (S pos') =>
        let index := (value mod 100) * 2 in
        tm_assert (index <? 200)
        (c0 <- nth_error double_digits_table (N.to_nat (index + 1)) ;;
         c1 <- nth_error double_digits_table (N.to_nat index) ;;
         buf' <- write2 buf pos c1 c0 ;;
         decimal_loop pos' buf' (value / 100))
      | _ => None
      end
    else Some (buf, pos, value).

  (** tm_conversion.h 2001-2047: print_decimal_u32_w; 2048-2095: print_decimal_u64_w; [count] is the
      digit count function of the assertion. *)
  Definition print_decimal_w (count : N -> option nat) (buf : list N) (maxlen width : nat) (value : N)
    : option (conv * list N) :=
    tm_assert (0 <? width)%nat
    (tm_assert (match count value with Some k => (width =? k)%nat | None => false end)
    (if (maxlen <? width)%nat then Some (Conv maxlen EOVERFLOW, buf)
     else
       ' (buf', pos, v) <- decimal_loop width buf value ;;
       if (cw && (((v <? 10) && negb (pos =? 1)%nat) || ((10 <=? v) && negb (pos =? 2)%nat)))%bool
       then Some (Conv maxlen EOVERFLOW, buf')
       else if v <? 10 then b <- write1 buf' pos (48 + v) ;; Some (Conv width OK, b)
       else
         tm_assert (v <? 100)
         (let index := v * 2 in
          tm_assert (index <? 200)
          (c0 <- nth_error double_digits_table (N.to_nat (index + 1)) ;;
           c1 <- nth_error double_digits_table (N.to_nat index) ;;
           b <- write2 buf' pos c1 c0 ;; Some (Conv width OK, b))))).

  (** tm_conversion.h 2119-2121: print_decimal_u32; 2144-2146: print_decimal_u64. *)
  Definition print_decimal_u (count : N -> option nat) (buf : list N) (maxlen : nat) (value : N)
    : option (conv * list N) :=
    k <- count value ;; print_decimal_w count buf maxlen k value.

  (** tm_conversion.h 2231-2237 / 2279-2285: the loop of print_hex_u32_w, print_hex_u64_w. *)
  Fixpoint hex_loop (lowercase : bool) (pos : nat) (buf : list N) (value : N)
    : option (list N * nat * N) :=
    if (16 <=? value) && (negb cw || (2 <=? pos)%nat) then
      match pos with
      | S (S pos') =>
        c0 <- nth_error (number_table lowercase) (N.to_nat (N.land value 15)) ;;
        c1 <- nth_error (number_table lowercase) (N.to_nat (N.land (N.shiftr value 4) 15)) ;;
        buf' <- write2 buf pos c1 c0 ;;
        hex_loop lowercase pos' buf' (N.shiftr value 8)
      | _ => None
      end
    else Some (buf, pos, value).

  (** tm_conversion.h 2204-2251: print_hex_u32_w; 2252-2299: print_hex_u64_w. *)
  Definition print_hex_w (buf : list N) (maxlen width : nat) (value : N) (lowercase : bool)
    : option (conv * list N) :=
    tm_assert (0 <? width)%nat
    (tm_assert (match get_digits_count_hex value with Some k => (width =? k)%nat | None => false end)
    (if (maxlen <? width)%nat then Some (Conv maxlen EOVERFLOW, buf)
     else if value =? 0 then
       tm_assert (width =? 1)%nat (b <- write buf 0 48 ;; Some (Conv 1 OK, b))
     else
       tm_assert (0 <? width)%nat
       (' (buf', pos, v) <- hex_loop lowercase width buf value ;;
        if (cw && (((0 <? v) && (v <=? 15) && negb (pos =? 1)%nat) || (15 <? v)))%bool
        then Some (Conv maxlen EOVERFLOW, buf')
        else if v =? 0 then Some (Conv width OK, buf')
        else
          c <- nth_error (number_table lowercase) (N.to_nat (N.land v 15)) ;;
          b <- write1 buf' pos c ;; Some (Conv width OK, b)))).

  (** tm_conversion.h 2352-2354: print_hex_u32; 2377-2379: print_hex_u64. *)
  Definition print_hex_u (buf : list N) (maxlen : nat) (value : N) (lowercase : bool)
    : option (conv * list N) :=
    k <- get_digits_count_hex value ;; print_hex_w buf maxlen k value lowercase.

  (** tm_conversion.h 2428-2433 / 2509-2514: the do-while loop of print_u32_w, print_u64_w. *)
  Fixpoint base_loop (lowercase : bool) (base : N) (pos : nat) (buf : list N) (value : N)
    : option (list N * nat * N) :=
    match pos with
    | O => None
    | S pos' =>
      tm_assert (value mod base <? 36)
      (c <- nth_error (number_table lowercase) (N.to_nat (value mod base)) ;;
       buf' <- write buf pos' c ;;
       let value' := value / base in
       if negb (value' =? 0) && (negb cw || (0 <? pos')%nat)
       then base_loop lowercase base pos' buf' value'
       else Some (buf', pos', value'))
    end.

  (** tm_conversion.h 2402-2444: print_u32_w; 2483-2525: print_u64_w. *)
  Definition print_base_w (buf : list N) (maxlen width : nat) (value base : N) (lowercase : bool)
    : option (conv * list N) :=
    tm_assert ((2 <=? base) && (base <=? 36))
    (tm_assert (0 <? width)%nat
    (tm_assert (match get_digits_count value base with Some k => (width =? k)%nat | None => false end)
    (if ((maxlen <? width)%nat || (cw && ((width =? 0)%nat || ((value =? 0) && negb (width =? 1)%nat))))%bool
     then Some (Conv maxlen EOVERFLOW, buf)
     else if value =? 0 then
       tm_assert (width =? 1)%nat (b <- write1 buf width 48 ;; Some (Conv width OK, b))
     else
       tm_assert (0 <? width)%nat
       (' (buf', pos, v) <- base_loop lowercase base width buf value ;;
        if (cw && (negb (v =? 0) && (pos =? 0)%nat))%bool then Some (Conv maxlen EOVERFLOW, buf')
        else Some (Conv width OK, buf'))))).

  (** tm_conversion.h 2445-2461: print_u32; 2526-2542: print_u64. *)
  Definition print_unsigned (count : N -> option nat) (buf : list N) (maxlen : nat) (value base : N)
    (lowercase : bool) : option (conv * list N) :=
    tm_assert ((2 <=? base) && (base <=? 36))
    (if base =? 10 then print_decimal_u count buf maxlen value
     else if base =? 16 then print_hex_u buf maxlen value lowercase
     else k <- get_digits_count value base ;; print_base_w buf maxlen k value base lowercase).

  (** tm_conversion.h 2097-2118 (print_decimal_i32), 2122-2143 (print_decimal_i64), 2330-2351
      (print_hex_i32), 2355-2376 (print_hex_i64), 2381-2401 (print_i32), 2462-2482 (print_i64): the
      sign, then [print_u] of the rest on the remaining buffer. *)
  Definition print_sign (W : N) (print_u : list N -> nat -> N -> option (conv * list N))
    (buf : list N) (maxlen : nat) (value : Z) : option (conv * list N) :=
    if (value <? 0)%Z then
      if (maxlen =? 0)%nat then Some (Conv 0 EOVERFLOW, buf)
      else match buf with
           | [] => None
           | _ :: t =>
             v <- (if Z.eqb value (int_min W) then Some value else neg_signed W value) ;;
             ' (r, t') <- print_u t (maxlen - 1)%nat (to_unsigned W v) ;;
             Some (combine_conv (Conv 1 OK) r, 45 :: t')
           end
    else
      ' (r, b) <- print_u buf maxlen (to_unsigned W value) ;; Some (combine_conv (Conv 0 OK) r, b).

  Definition print_decimal_u32 := print_decimal_u get_digits_count_decimal_u32.
  Definition print_decimal_u64 := print_decimal_u get_digits_count_decimal_u64.
  Definition print_decimal_i32 := print_sign W32 print_decimal_u32.
  Definition print_decimal_i64 := print_sign W64 print_decimal_u64.
  Definition print_hex_i (W : N) buf maxlen value lowercase :=
    print_sign W (fun b m v => print_hex_u b m v lowercase) buf maxlen value.
  Definition print_hex_i32 := print_hex_i W32.
  Definition print_hex_i64 := print_hex_i W64.
  Definition print_u32 := print_unsigned get_digits_count_decimal_u32.
  Definition print_u64 := print_unsigned get_digits_count_decimal_u64.
  Definition print_i32 buf maxlen value base lowercase :=
    tm_assert ((2 <=? base) && (base <=? 36))
    (print_sign W32 (fun b m v => print_u32 b m v base lowercase) buf maxlen value).
  Definition print_i64 buf maxlen value base lowercase :=
    tm_assert ((2 <=? base) && (base <=? 36))
    (print_sign W64 (fun b m v => print_u64 b m v base lowercase) buf maxlen value).

  (** tm_conversion.h 2544-2560: tmc_print_zero_padded_u64. *)
  Definition print_zero_padded (buf : list N) (maxlen width : nat) (value : N)
    : option (conv * list N) :=
    count <- get_digits_count_decimal_u64 value ;;
    if (maxlen <? width)%nat then Some (Conv maxlen EOVERFLOW, buf)
    else if (count <? width)%nat then
      let padding := (width - count)%nat in
      if (length buf <? padding)%nat then None
      else
        ' (r, t) <- print_decimal_w get_digits_count_decimal_u64 (skipn padding buf) (maxlen - padding) count value ;;
        Some (combine_conv (Conv padding OK) r, repeat 48 padding ++ t)
    else
      ' (r, b) <- print_decimal_w get_digits_count_decimal_u64 buf maxlen count value ;;
      Some (combine_conv (Conv 0 OK) r, b).
End Printing.

(** tm_conversion.h 2318-2326: the loop of print_hex_bytes. *)
Fixpoint hex_bytes_loop (lowercase : bool) (buf bytes : list N) : option (list N) :=
  match bytes with
  | [] => Some buf
  | v :: rest =>
    match buf with
    | _ :: _ :: t =>
      c0 <- nth_error (number_table lowercase) (N.to_nat (N.land v 15)) ;;
      c1 <- nth_error (number_table lowercase) (N.to_nat (N.land (N.shiftr v 4) 15)) ;;
      t' <- hex_bytes_loop lowercase t rest ;;
      Some (c1 :: c0 :: t')
    | _ => None
    end
  end.
(** tm_conversion.h 2301-2328: print_hex_bytes (tm_size_t is 64 bit; size * 2 wraps). *)
Definition print_hex_bytes (buf : list N) (maxlen : nat) (bytes : list N) (lowercase : bool)
  : option (conv * list N) :=
  let needed_size := w64 (N.of_nat (length bytes) * 2) in
  if N.of_nat maxlen <? needed_size then Some (Conv maxlen EOVERFLOW, buf)
  else buf' <- hex_bytes_loop lowercase buf bytes ;; Some (Conv (N.to_nat needed_size) OK, buf').

(** strncasecmp / _strnicmp as in POSIX, in the "C" locale: the other common setting of TM_STRNICMP
    (tm_conversion.h 348-351). Not code of the library. *)
Fixpoint posix_strnicmp_ (a b : list N) (n : nat) : option Z :=
  match n with
  | O => Some 0%Z
  | S n' =>
    match a, b with
    | ca :: a', cb :: b' =>
      if negb (to_lower ca =? to_lower cb) then Some (Z.of_N (to_lower ca) - Z.of_N (to_lower cb))%Z
      else if ca =? 0 then Some 0%Z
      else posix_strnicmp_ a' b' n'
    | _, _ => None
    end
  end.
Definition posix_strnicmp (a b : list N) (n : N) : option Z := posix_strnicmp_ a b (N.to_nat n).
