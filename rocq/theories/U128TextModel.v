(** Model of the text conversions of tm_uint128.h (scan 1648-1767, print 1769-1849,
    from_string 1851-1860). Characters are byte values (N < 256). *)
From Coq Require Import NArith ZArith List Bool.
From Verif Require Import Base CTypeModel U128Model.
Import ListNotations.
Local Open Scope N_scope.

(** tm_uint128.h 1683-1689 / 1745-1751: range check and accumulation of one digit. *)
Definition scan_u128_digit (ubase : N) (maxValue : u128) (maxDigit : N) (st : u128 * bool) (digit : N)
  : u128 * bool :=
  let (value, rangeError) := st in
  if rangeError || tmi_gt value maxValue || (tmi_eq value maxValue && (maxDigit <? digit))
  then (value, true)
  else (tmi_add_u64 (tmi_mul_u64 value ubase) digit, false).

(** tm_uint128.h 1667-1690: the loop of tmi_scan_u128. [mem] is the memory from p on; reading
    past its end is undefined behaviour. Returns value, rangeError and p - start. *)
Fixpoint scan_u128_loop (ubase : N) (maxValue : u128) (maxDigit : N) (st : u128 * bool)
  (dist : nat) (mem : list N) : option (u128 * bool * nat) :=
  match mem with
  | [] => None
  | cp :: rest =>
    if cp =? 0 then Some (st, dist)
    else match scan_digit cp with
         | None => Some (st, dist)
         | Some digit =>
           if ubase <=? digit then Some (st, dist)
           else scan_u128_loop ubase maxValue maxDigit (scan_u128_digit ubase maxValue maxDigit st digit)
                  (S dist) rest
         end
  end.

(** tm_uint128.h 1729-1752: the loop of tmi_scan_u128_n. *)
Fixpoint scan_u128_n_loop (ubase : N) (maxValue : u128) (maxDigit : N) (st : u128 * bool)
  (dist : nat) (mem : list N) (len : nat) {struct len} : option (u128 * bool * nat) :=
  match len with
  | O => Some (st, dist)
  | S len' =>
    match mem with
    | [] => None
    | cp :: rest =>
      match scan_digit cp with
      | None => Some (st, dist)
      | Some digit =>
        if ubase <=? digit then Some (st, dist)
        else scan_u128_n_loop ubase maxValue maxDigit (scan_u128_digit ubase maxValue maxDigit st digit)
               (S dist) rest len'
      end
    end
  end.

(** tm_uint128.h 1691-1712 / 1753-1772: result and the write to *out. [out] is the value of *out
    before the call; the third component is its value afterwards. TMC_CLAMP_ON_RANGE_ERROR is 0
    (its default); a null [out] only drops the write and is not modelled. *)
Definition scan_u128_finish (out : u128) (r : u128 * bool * nat) : conv * u128 :=
  let '(value, rangeError, dist) := r in
  if (dist =? 0)%nat then (Conv 0 EINVAL, out)
  else (Conv dist (if rangeError : bool then ERANGE else OK), if rangeError then out else value).

(** tm_uint128.h 1648-1708: tmi_scan_u128. The string is [Some mem], or [None] for a null pointer. *)
Definition tmi_scan_u128 (str : option (list N)) (out : u128) (base : N) : option (conv * u128) :=
  assert_ ((2 <=? base) && (base <=? 36))
  (match str with
   | None => Some (Conv 0 EINVAL, out)
   | Some mem =>
     ' (maxValue, md) <- tmi_divmod_u64 tmi_max base ;;
     r <- scan_u128_loop base maxValue (low md) (tmi_zero, false) 0 mem ;;
     Some (scan_u128_finish out r)
   end).

(** tm_uint128.h 1709-1767: tmi_scan_u128_n. *)
Definition tmi_scan_u128_n (mem : list N) (len : nat) (out : u128) (base : N) : option (conv * u128) :=
  assert_ ((2 <=? base) && (base <=? 36))
  (if (len =? 0)%nat then Some (Conv 0 EINVAL, out)
   else
     ' (maxValue, md) <- tmi_divmod_u64 tmi_max base ;;
     r <- scan_u128_n_loop base maxValue (low md) (tmi_zero, false) 0 mem len ;;
     Some (scan_u128_finish out r)).

(** tm_uint128.h 1773-1792: the loop of tmi_get_digits_count_u128. The C loop has no bound;
    [None] on exhausted fuel (shown not to happen with the fuel used below). *)
Fixpoint digits_count_u128_loop (fuel : nat) (p1 p2 p3 p4 : N) (number : u128) (result : nat)
  : option nat :=
  match fuel with
  | O => None
  | S f =>
    if (high number =? 0) && (low number <? p4) then
      Some (result + N.to_nat (b2n (p1 <=? low number)%N) + N.to_nat (b2n (p2 <=? low number)%N)
            + N.to_nat (b2n (p3 <=? low number)%N))%nat
    else
      ' (d, _) <- tmi_divmod_u64 number p4 ;;
      digits_count_u128_loop f p1 p2 p3 p4 d (result + 4)
  end.

(** tm_uint128.h 1773-1792: tmi_get_digits_count_u128. *)
Definition tmi_get_digits_count_u128 (number : u128) (base : N) : option nat :=
  assert_ ((2 <=? base) && (base <=? 36))
  (let p1 := base in
   let p2 := w64 (p1 * base) in
   let p3 := w64 (p2 * base) in
   let p4 := w64 (p3 * base) in
   digits_count_u128_loop 33 p1 p2 p3 p4 number 1).

(** tm_uint128.h 1797-1802: the character tables. *)
Definition print_table_upper : list N :=
  [48; 49; 50; 51; 52; 53; 54; 55; 56; 57; 65; 66; 67; 68; 69; 70; 71; 72; 73; 74; 75; 76; 77;
   78; 79; 80; 81; 82; 83; 84; 85; 86; 87; 88; 89; 90].
Definition print_table_lower : list N :=
  [48; 49; 50; 51; 52; 53; 54; 55; 56; 57; 97; 98; 99; 100; 101; 102; 103; 104; 105; 106; 107; 108;
   109; 110; 111; 112; 113; 114; 115; 116; 117; 118; 119; 120; 121; 122].

(** tm_uint128.h 1832-1840: the do-while loop; [width] is the remaining width, so that
    p = dest + width - 1. Returns the buffer and the remaining value. (After the last digit p
    points before the buffer; forming that pointer is not modelled, it is never dereferenced.) *)
Fixpoint print_u128_loop (table : list N) (ubase : N) (width : nat) (buf : list N) (value : u128)
  : option (list N * u128) :=
  match width with
  | O => None
  | S width' =>
    ' (d, m) <- tmi_divmod_u64 value ubase ;;
    c <- nth_error table (N.to_nat (low m)) ;;
    buf' <- write buf width' c ;;
    if tmi_is_not_zero d && (0 <? width')%nat then print_u128_loop table ubase width' buf' d
    else Some (buf', d)
  end.

(** tm_uint128.h 1805-1849: tmi_print_u128_w. [buf] is the memory at dest. *)
Definition tmi_print_u128_w (buf : list N) (maxlen width : nat) (value : u128) (base : N)
  (lowercase : bool) : option (conv * list N) :=
  assert_ ((2 <=? base) && (base <=? 36))
  (assert_ (0 <? width)%nat
  (k <- tmi_get_digits_count_u128 value base ;;
   assert_ (width =? k)%nat
  (if (maxlen <? width)%nat || (width =? 0)%nat || (tmi_is_zero value && negb (width =? 1)%nat)
   then Some (Conv maxlen EOVERFLOW, buf)
   else
     let table := if lowercase then print_table_lower else print_table_upper in
     if tmi_is_zero value then
       assert_ (width =? 1)%nat
       (buf' <- write buf (width - 1) 48 ;; Some (Conv width OK, buf'))
     else
       ' (buf', rem) <- print_u128_loop table base width buf value ;;
       if tmi_is_not_zero rem then Some (Conv maxlen EOVERFLOW, buf')
       else Some (Conv width OK, buf')))).

(** tm_uint128.h 1769-1772: tmi_print_u128. *)
Definition tmi_print_u128 (buf : list N) (maxlen : nat) (value : u128) (base : N) (lowercase : bool)
  : option (conv * list N) :=
  k <- tmi_get_digits_count_u128 value base ;;
  tmi_print_u128_w buf maxlen k value base lowercase.

(** tm_uint128.h 1851-1860: tmi_from_string, tmi_from_string_n. *)
Definition tmi_from_string (str : option (list N)) (base : N) : option u128 :=
  ' (_, r) <- tmi_scan_u128 str tmi_zero base ;; Some r.
Definition tmi_from_string_n (mem : list N) (maxlen : nat) (base : N) : option u128 :=
  ' (_, r) <- tmi_scan_u128_n mem maxlen tmi_zero base ;; Some r.
