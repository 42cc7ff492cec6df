(** Model of tm_print.h: format strings, numbers, strings and booleans, snprint, print to a FILE and string_format.
    The default backends: snprintf prints numbers, strtoul scans the numbers of placeholders, the width of a string is
    its length. Assertions are compiled in; the format string is null-terminated. Bytes are numbers below 256; sizes are natural numbers, assumed to fit into
    tm_size_t. Not modelled: custom printers, the tm_conversion and charconv
    backends. *)
From Coq Require Import Arith NArith ZArith List Bool.
From Verif Require Import Base.
Import ListNotations.
Local Open Scope N_scope.
Local Open Scope nat_scope.

(** tm_print.h:341-373. The bits of the flags as booleans; Fixed, Scientific, Hex, Shortest and TrailingZeroes only matter
    to snprintf, which gets the whole format. *)
Record format := Format {
  f_base : N; f_precision : Z; f_width : Z;
  f_fixed : bool; f_scientific : bool; f_hex : bool; f_shortest : bool; f_zeroes : bool;
  f_bool_number : bool; f_lower : bool; f_sign : bool; f_char : bool; f_left : bool;
  f_pre_hex : bool; f_pre_binary : bool; f_pre_octal : bool; f_spaces : bool }.
(** tm_print.h:375 *)
Definition default_format : format := Format 10 6 0 false false false false false false false false false false false false false false.

Inductive errc := OK | EOVERFLOW | ERANGE | EINVAL | ENOMEM.
(** tm_print.h:400-404, PrintFormattedResult *)
Record result := Result { r_size : nat; r_ec : errc }.

(** tm_print.h:377-397 and 424-450: an argument with its type. A real number is its sign and the text snprintf gives for
    its absolute value (1462-1481), with the "0x" of %a. *)
Inductive value :=
| V_char (c : Z) | V_bool (b : bool)
| V_i32 (z : Z) | V_u32 (n : N) | V_i64 (z : Z) | V_u64 (n : N)
| V_float (negative : bool) (text : format -> list N) | V_double (negative : bool) (text : format -> list N)
| V_string (s : list N) | V_view (s : list N).
Definition type_code (v : value) : N :=
  (match v with V_char _ => 1 | V_bool _ => 2 | V_i32 _ => 3 | V_u32 _ => 4 | V_i64 _ => 5 | V_u64 _ => 6 | V_float _ _ => 7 | V_double _ _ => 8 | V_string _ => 9 | V_view _ => 10 end)%N.
(** tm_print.h:511-706: four bits for each argument, the first lowest, in a uint64_t *)
Fixpoint type_flags (args : list value) : N :=
  match args with
  | [] => 0
  | v :: args => N.lor (type_code v) (N.shiftl (type_flags args) 4 mod 18446744073709551616)
  end.

(** ** Memory *)
Definition store (b : list N) (p : nat) (s : list N) : option (list N) :=
  if p + length s <=? length b then Some (firstn p b ++ s ++ skipn (p + length s) b) else None.
Definition load (b : list N) (p n : nat) : option (list N) := if p + n <=? length b then Some (firstn n (skipn p b)) else None.

(** snprintf with [m] > 0 bytes at [p] *)
Definition snprintf (b : list N) (p m : nat) (text : list N) : option (list N) := store b p (firstn (m - 1) text ++ [0%N]).
(** what snprintf prints for %u, %x, %X, %o: tm_print.h:1267-1272 *)
Fixpoint digits_loop (fuel : nat) (base v : N) (acc : list N) : list N :=
  match fuel with
  | O => acc
  | S fuel => let acc := (v mod base)%N :: acc in if (v / base =? 0)%N then acc else digits_loop fuel base (v / base) acc
  end.
Definition digit (lower : bool) (d : N) : N := (if d <? 10 then 48 + d else if lower then 87 + d else 55 + d)%N.
Definition unsigned_text (v : N) (f : format) : list N :=
  let base := (if f_base f =? 16 then 16 else if f_base f =? 8 then 8 else 10)%N in
  map (digit (f_lower f)) (digits_loop (S (N.to_nat (N.size v))) base v []).

(** tm_print.h:1262-1309, 1458-1512: tmp_print_value at [p] with [m] bytes; [strip]: the prefix of %a is removed.
    Simplified: snprintf never fails. *)
Definition print_text (b : list N) (p m : nat) (strip : bool) (text : list N) : option (result * list N) :=
  assert_ (0 <? m) (
    b <- snprintf b p m text ;;
    if m <=? length text then Some (Result (length text) ERANGE, b)
    else if strip && (2 <? length text) then
      match text with
      | 48%N :: (120%N | 88%N) :: _ => s <- load b (p + 2) (length text - 2) ;; b <- store b p s ;; Some (Result (length text - 2) OK, b)
      | _ => None
      end
    else Some (Result (length text) OK, b)).

(** tm_print.h:1146-1158, tmp_get_decorated_size *)
Definition decorated_size (digits : nat) (f : format) (negative : bool) : nat :=
  digits + (if negative || f_sign f then 1 else 0) + (if f_pre_hex f || f_pre_binary f then 2 else 0) + (if f_pre_octal f then 1 else 0).

(** tm_print.h:1160-1216, tmp_print_decoration; the assertions on what remains for the sign follow from the first *)
Definition print_decoration (b : list N) (dest maxlen digits decorated size : nat) (f : format) (negative : bool) : option (list N) :=
  assert_ (size <=? maxlen) (
    let width := Z.to_nat (f_width f) in
    ' (b, decorate_pos) <-
      (if (0 <? f_width f)%Z && (size <=? width) then
         if negb (f_left f) then
           let padding := width - decorated in
           assert_ (padding <=? maxlen) (
             if f_spaces f then b <- store b dest (repeat 32%N padding) ;; Some (b, dest + padding)
             else assert_ (digits <=? decorated) (b <- store b (dest + (decorated - digits)) (repeat 48%N padding) ;; Some (b, dest)))
         else assert_ (decorated <=? width) (b <- store b (dest + decorated) (repeat 32%N (width - decorated)) ;; Some (b, dest))
       else assert_ (digits <=? decorated) (Some (b, dest))) ;;
    let sign := if negative then [45%N] else if f_sign f then [43%N] else [] in
    let prefix :=
      if f_pre_hex f then [48%N; if f_lower f then 120%N else 88%N]
      else if f_pre_binary f then [48%N; if f_lower f then 98%N else 66%N]
      else if f_pre_octal f then [48%N] else [] in
    store b decorate_pos (sign ++ prefix)).

(** tm_print.h:1218-1259, tmp_move_printed_value_and_decorate *)
Definition move_and_decorate (b : list N) (dest maxlen : nat) (f : format) (r : result) (negative : bool) : option (result * list N) :=
  match r_ec r with
  | OK =>
    let digits := r_size r in
    let decorated := decorated_size digits f negative in
    let width := Z.to_nat (f_width f) in
    let size := if (0 <? f_width f)%Z && (decorated <? width) then width else decorated in
    let digits_pos := if (f_width f <=? 0)%Z || f_left f then decorated - digits else size - digits in
    let sign := if negative || f_sign f then 1 else 0 in
    b <- (if (0 <? digits_pos) && negb (digits_pos =? sign) then s <- load b (dest + sign) digits ;; store b (dest + digits_pos) s else Some b) ;;
    if maxlen <? size then Some (Result size ERANGE, b)
    else b <- print_decoration b dest maxlen digits decorated size f negative ;; Some (Result size OK, b)
  | _ => Some (r, b)
  end.

(** tm_print.h:1597-1609, tmp_print_formatted of a number *)
Definition print_number (f : format) (negative strip : bool) (text : list N) (b : list N) (dest maxlen : nat) : option (result * list N) :=
  if maxlen =? 0 then Some (Result 0 EOVERFLOW, b)
  else
    let sign := if negative || f_sign f then 1 else 0 in
    ' (r, b) <- print_text b (dest + sign) (maxlen - sign) strip text ;;
    move_and_decorate b dest maxlen f r negative.

(** tm_print.h:1088-1121, tmp_print_formatted of a string; the number of spaces is width - width. *)
Definition print_string (f : format) (s : list N) (b : list N) (dest maxlen : nat) : option (result * list N) :=
  let width := Z.to_nat (f_width f) in
  if maxlen <? length s then Some (Result maxlen EOVERFLOW, b)
  else if (0 <? f_width f)%Z && (length s <? width) then
    let padding := width - length s in
    if negb (f_left f) then
      assert_ (padding <=? maxlen) (
        b <- store b dest (repeat 32%N padding) ;;
        assert_ (length s <=? maxlen - padding) (
          b <- store b (dest + padding) s ;; Some (Result (length s) OK, b)))
    else
      assert_ (padding + length s <=? maxlen) (
        b <- store b (dest + length s) (repeat 32%N padding) ;;
        b <- store b dest s ;; Some (Result (length s) OK, b))
  else b <- store b dest s ;; Some (Result (length s) OK, b).

(** tm_print.h:1123-1144, the text of a bool *)
Definition bool_text (f : format) (v : bool) : list N :=
  (if f_bool_number f then [if v then 49 else 48]
   else if v then if f_lower f then [116; 114; 117; 101] else [84; 82; 85; 69]
   else if f_lower f then [102; 97; 108; 115; 101] else [70; 65; 76; 83; 69])%N.

(** ** The printer: tm_print.h:1694-1969 *)
Record printer := Printer { data : list N; used : nat; necessary : nat; ec : errc }.
Definition remaining (t : printer) : nat := length (data t) - used t.
Definition with_data (b : list N) (t : printer) : printer := Printer b (used t) (necessary t) (ec t).
Definition with_ec (e : errc) (t : printer) : printer := Printer (data t) (used t) (necessary t) e.
Definition need (n : nat) (t : printer) : printer := Printer (data t) (used t) (necessary t + n) (ec t).
Definition advance (n : nat) (t : printer) : printer := Printer (data t) (used t + n) (necessary t) (ec t).

Section Print.
(** The memory: [None] for a fixed buffer (snprint); otherwise what the allocator gives for a size, [None] if it fails. It
    may give more than asked for (string_format). *)
Variable alloc : option (nat -> option nat).
(** the rounds of a loop that grows the buffer until the value fits *)
Variable rounds : nat.

(** tm_print.h:1714-1740, grow; [at_least] is capacity + by_at_least. Bytes that were not written are 205. *)
Definition grow (a : nat -> option nat) (at_least : nat) (t : printer) : option printer :=
  let capacity := length (data t) in
  match a (Nat.max (3 * ((capacity + 2) / 2)) at_least) with
  | None => None
  | Some c => Some (Printer (firstn (used t) (data t) ++ repeat 205%N (c - used t)) (used t) (necessary t) (ec t))
  end.

(** tm_print.h:1752-1774, the loop of print_value: whether it ended without a fatal error *)
Fixpoint attempt (rounds : nat) (F : list N -> nat -> nat -> option (result * list N)) (t : printer) : option (bool * result * printer) :=
  match rounds with
  | O => None
  | S rounds =>
    ' (r, b) <- F (data t) (used t) (remaining t) ;;
    let t := with_data b t in
    match r_ec r with
    | OK => Some (true, r, t)
    | EOVERFLOW | ERANGE =>
      match alloc with
      | None => Some (true, r, t)
      | Some a =>
        match grow a (match r_ec r with ERANGE => length (data t) + r_size r - remaining t | _ => length (data t) end) t with
        | Some t => attempt rounds F t
        | None => Some (false, r, with_ec ENOMEM t)
        end
      end
    | e => Some (false, r, with_ec e t)
    end
  end.
(** tm_print.h:1748-1796, print_value. [F]: tmp_print_formatted, [G]: tmp_get_print_size. The boolean is what it returns. *)
Definition print_value (F : list N -> nat -> nat -> option (result * list N)) (G : list N -> option (result * list N)) (t : printer) : option (bool * printer) :=
  let measure (t : printer) :=
    match ec t with
    | ERANGE =>
      ' (r, b) <- G (data t) ;;
      let t := with_data b t in
      match r_ec r with
      | OK => Some (true, need (r_size r) t)
      | e => Some (false, with_ec e t)
      end
    | _ => Some (true, t)
    end in
  match ec t with
  | OK =>
    ' (go_on, r, t) <- attempt rounds F t ;;
    if negb go_on then Some (false, t)
    else match r_ec r with
    | OK => Some (true, need (r_size r) (advance (r_size r) t))
    | ERANGE => Some (true, need (r_size r) (with_ec ERANGE t))
    | _ => measure (with_ec ERANGE t)
    end
  | _ => measure t
  end.
(** tm_print.h:1680-1692, tmp_get_print_size: in a buffer of 200 bytes unless that of the printer is as large *)
Definition get_print_size (F : list N -> nat -> nat -> option (result * list N)) (d : list N) : option (result * list N) :=
  if length d <? 200 then ' (r, _) <- F (repeat 205%N 200) 0 200 ;; Some (r, d) else F d 0 (length d).
(** tm_print.h:1673-1678 *)
Definition get_print_size_bool (f : format) (v : bool) (d : list N) : option (result * list N) := Some (Result (length (bool_text f v)) OK, d).

Definition print_num (f : format) (negative strip : bool) (text : format -> list N) (t : printer) : option (bool * printer) :=
  print_value (print_number f negative strip (text f)) (get_print_size (print_number f negative strip (text f))) t.
(** tm_print.h:1074-1086, tmp_make_unsigned: -v overflows for the least value *)
Definition print_signed (least : Z) (f : format) (z : Z) (t : printer) : option (bool * printer) :=
  if (z =? least)%Z then None else print_num f (z <? 0)%Z false (unsigned_text (Z.to_N (Z.abs z))) t.

(** tm_print.h:1797-1829, print_string_value *)
Definition print_string_value (s : list N) (f : format) (t : printer) : option (bool * printer) :=
  let bytes_needed := if (0 <? f_width f)%Z then length s + (Z.to_nat (f_width f) - length s) else length s in
  let t := need bytes_needed t in
  match ec t with
  | ERANGE => Some (true, t)
  | _ =>
    let go (t : printer) :=
      ' (r, b) <- print_string f s (data t) (used t) (remaining t) ;;
      let t := with_data b t in
      match r_ec r with
      | OK => Some (true, advance (r_size r) t)
      | e => Some (false, with_ec e t)
      end in
    if remaining t <? bytes_needed then
      match alloc with
      | None => Some (true, with_ec ERANGE t)
      | Some a =>
        match grow a (length (data t) + (bytes_needed - remaining t)) t with
        | Some t => go t
        | None => Some (false, with_ec ENOMEM t)
        end
      end
    else go t
  end.

(** tm_print.h:1861-1923, the operator for a value *)
Definition print_arg (v : value) (f : format) (t : printer) : option (bool * printer) :=
  match v with
  | V_char c =>
    if f_char f then
      let t := need 1 t in
      let put (t : printer) := b <- store (data t) (used t) [Z.to_N (c mod 256)] ;; Some (true, advance 1 (with_data b t)) in
      if remaining t =? 0 then
        match alloc with
        | None => Some (true, with_ec ERANGE t)
        | Some a => match grow a (length (data t)) t with Some t => put t | None => Some (false, with_ec ENOMEM t) end
        end
      else put t
    else print_signed (-2147483648) f c t
  | V_bool b => print_value (print_string f (bool_text f b)) (get_print_size_bool f b) t
  | V_i32 z => print_signed (-2147483648) f z t
  | V_u32 n | V_u64 n => print_num f false false (unsigned_text n) t
  | V_i64 z => print_signed (-9223372036854775808) f z t
  | V_float neg text | V_double neg text => print_num f neg (f_hex f) text t
  | V_string s | V_view s => print_string_value s f t
  end.
(** tm_print.h:1951-1968, the operator for a part of the format string *)
Definition print_literal (s : list N) (t : printer) : option (bool * printer) :=
  let t := need (length s) t in
  let go (t : printer) := b <- store (data t) (used t) (firstn (Nat.min (length s) (remaining t)) s) ;; Some (true, advance (Nat.min (length s) (remaining t)) (with_data b t)) in
  if remaining t <? length s then
    match alloc with
    | None => Some (true, with_ec ERANGE t)
    | Some a => match grow a (length (data t) + length s) t with Some t => go t | None => Some (false, with_ec ENOMEM t) end
    end
  else go t.

(** memchr: tm_print.h:1971-1973 *)
Fixpoint find (c : N) (s : list N) : option nat :=
  match s with
  | [] => None
  | x :: s => if (x =? c)%N then Some 0 else option_map S (find c s)
  end.
(** tm_print.h:1975-1995, tmp_print_string_escaped; [rounds] at least the length and one *)
Fixpoint print_escaped (rounds : nat) (s : list N) (t : printer) : option (bool * printer) :=
  match rounds with
  | O => None
  | S rounds =>
    match find 125 s with
    | Some i =>
      ' (go_on, t) <- print_literal (firstn (i + 1) s) t ;;
      if negb go_on then Some (false, t)
      else match skipn (i + 1) s with
      | 125%N :: s => print_escaped rounds s t
      | _ => Some (false, with_ec EINVAL t)
      end
    | None => match s with [] => Some (true, t) | _ => print_literal s t end
    end
  end.

(** strtoul in base 10 (LP64): white space, a sign, digits; what was consumed and the value. [s] goes on to the end of the
    string. tm_print.h:1005-1031: at most [maxlen] bytes, cut off to 32 bits. *)
Definition is_space (c : N) : bool := ((c =? 32) || (9 <=? c) && (c <=? 13))%N.
Definition is_digit (c : N) : bool := ((48 <=? c) && (c <=? 57))%N.
Fixpoint skip_spaces (s : list N) : nat * list N :=
  match s with
  | c :: s' => if is_space c then let (n, s) := skip_spaces s' in (S n, s) else (0, s)
  | [] => (0, [])
  end.
Fixpoint scan_digits (s : list N) (n : nat) (v : N) : nat * N :=
  match s with
  | c :: s => if is_digit c then scan_digits s (S n) (v * 10 + (c - 48))%N else (n, v)
  | [] => (n, v)
  end.
Definition scan_u32_n (s : list N) (maxlen : nat) : option (nat * N) :=
  if maxlen =? 0 then None
  else
    let (spaces, s) := skip_spaces s in
    let '(sign, minus, s) := match s with 43%N :: s => (1, false, s) | 45%N :: s => (1, true, s) | _ => (0, false, s) end in
    match scan_digits s 0 0 with
    | (O, _) => None
    | (n, v) =>
      let size := spaces + sign + n in
      let v := (if 18446744073709551615 <? v then 18446744073709551615 else if minus then (18446744073709551616 - v) mod 18446744073709551616 else v)%N in
      if size <=? maxlen then Some (size, (v mod 4294967296)%N) else None
    end.
(** (int) of an unsigned *)
Definition to_int (n : N) : Z := if (n <? 2147483648)%N then Z.of_N n else (Z.of_N n - 4294967296)%Z.

(** tm_print.h:2065-2107: the flags; [s] goes on to the end of the string, [len] bytes of it count *)
Record spec_flags := SpecFlags { s_left : bool; s_sign : bool; s_spaces : bool; s_pound : bool }.
Fixpoint parse_flags (s : list N) (len : nat) (fl : spec_flags) : spec_flags * list N * nat :=
  match len, s with
  | S len', c :: s' =>
    if (c =? 45)%N then parse_flags s' len' (SpecFlags true (s_sign fl) (s_spaces fl) (s_pound fl))
    else if (c =? 43)%N then parse_flags s' len' (SpecFlags (s_left fl) true (s_spaces fl) (s_pound fl))
    else if (c =? 32)%N then parse_flags s' len' (SpecFlags (s_left fl) (s_sign fl) true (s_pound fl))
    else if (c =? 35)%N then parse_flags s' len' (SpecFlags (s_left fl) (s_sign fl) (s_spaces fl) true)
    else if (c =? 48)%N then parse_flags s' len' (SpecFlags (s_left fl) (s_sign fl) false (s_pound fl))
    else (fl, s, len)
  | _, _ => (fl, s, len)
  end.
(** tm_print.h:2058-2219, tmp_parse_print_format: the format and how many bytes are left over *)
Definition parse_format (s : list N) (len : nat) : format * nat :=
  let '(fl, s, len) := parse_flags s len (SpecFlags false false true false) in
  let '(width, s, len) := match scan_u32_n s len with Some (n, v) => (to_int v, skipn n s, len - n) | None => (0%Z, s, len) end in
  let '(precision, s, len) :=
    match len, s with
    | S len', 46%N :: s' => match scan_u32_n s' len' with Some (n, v) => (to_int v, skipn n s', len' - n) | None => (6%Z, s', len') end
    | _, _ => (6%Z, s, len)
    end in
  let mk base fixed scientific hex shortest zeroes bool_number lower char pre_hex pre_binary pre_octal :=
    Format base precision width fixed scientific hex shortest zeroes bool_number lower (s_sign fl) char (s_left fl) pre_hex pre_binary pre_octal (s_spaces fl) in
  let plain := mk 10%N false false false false false false false false false false false in
  let pound := s_pound fl in
  match len, s with
  | S len', c :: _ =>
    if (c =? 120)%N then (mk 16%N false false false false false false true false pound false false, len')         (* x *)
    else if (c =? 88)%N then (mk 16%N false false false false false false false false pound false false, len')    (* X *)
    else if (c =? 111)%N then (mk 8%N false false false false false false false false false false pound, len')    (* o *)
    else if (c =? 98)%N then (mk 2%N false false false false false false true false false pound false, len')      (* b *)
    else if (c =? 66)%N then (mk 2%N false false false false false false false false false pound false, len')     (* B *)
    else if (c =? 99)%N then (mk 10%N false false false false false false false true false false false, len')     (* c *)
    else if (c =? 101)%N then (mk 10%N false true false false false false true false false false false, len')     (* e *)
    else if (c =? 69)%N then (mk 10%N false true false false false false false false false false false, len')     (* E *)
    else if (c =? 102)%N then (mk 10%N true false false false true false false false false false false, len')     (* f *)
    else if (c =? 103)%N then (mk 10%N true true false true false false true false false false false, len')       (* g *)
    else if (c =? 71)%N then (mk 10%N true true false true false false false false false false false, len')       (* G *)
    else if (c =? 97)%N then (mk 10%N false false true false false false true false pound false false, len')      (* a *)
    else if (c =? 65)%N then (mk 10%N false false true false false false false false pound false false, len')     (* A *)
    else if (c =? 110)%N then (mk 10%N false false false false false true false false false false false, len')    (* n *)
    else (plain, len)
  | _, _ => (plain, len)
  end.
(** tm_print.h:1038-1055, tmp_parse_format_specifiers: whether an index was given, the index, the format *)
Definition parse_specifiers (s : list N) (len : nat) (f : format) (index : N) : bool * N * format :=
  if len =? 0 then (false, index, f)
  else
    let '(given, index, s, len) := match scan_u32_n s len with Some (n, v) => (true, v, skipn n s, len - n) | None => (false, index, s, len) end in
    match len, s with
    | S len', 58%N :: s' => (given, index, fst (parse_format s' len'))
    | _, _ => (given, index, f)
    end.

(** tm_print.h:1997-2054, tmp_print_impl. [s]: the rest of the format string, from format_first on. The search for the closing
    brace also starts there; if it is found before the opening one, a pointer before the placeholder is computed as
    p + (size_t)(next - p): undefined. *)
Fixpoint print_impl (fuel : nat) (initial : format) (args : list value) (s : list N) (index : N) (types : N) (t : printer) : option printer :=
  match fuel with
  | O => None
  | S fuel =>
    match find 123 s with
    | None =>
      match s with
      | [] => Some t
      | _ => ' (_, t) <- print_escaped (S (length s)) s t ;; Some t
      end
    | Some p =>
      ' (go_on, t) <- print_escaped (S p) (firstn p s) t ;;
      if negb go_on then Some t
      else
        let after := skipn (p + 1) s in
        match after with
        | 123%N :: rest =>
          ' (go_on, t) <- print_literal [123%N] t ;;
          if negb go_on then Some t else print_impl fuel initial args rest index types t
        | _ =>
          match find 125 s with
          | None => Some (with_ec EINVAL t)
          | Some next =>
            assert_ (p <? next) (
              let '(given, current, f) := parse_specifiers after (next - (p + 1)) initial index in
              match nth_error args (N.to_nat current) with
              | None => Some (with_ec EINVAL t)
              | Some v =>
                let type := N.land (if given then N.shiftr (type_flags args) (current * 4) else types) 15 in
                let index' := if given then index else (index + 1)%N in
                let types' := if given then types else N.shiftr types 4 in
                if ((type =? 0) || (12 <=? type))%N then Some (with_ec EINVAL t)
                else if negb (type =? type_code v)%N then None
                else
                  ' (go_on, t) <- print_arg v f t ;;
                  if negb go_on then Some t else print_impl fuel initial args (skipn (next + 1) s) index' types' t
              end)
          end
        end
    end
  end.
End Print.

Definition start (b : list N) : printer := Printer b 0 0 OK.
(** tm_print.h:2233-2251, tmp_snprint into [b]: the return value and the buffer. *)
Definition snprint (b : list N) (s : list N) (initial : format) (args : list value) : option (Z * list N) :=
  t <- print_impl None 1 (S (length s)) initial args s 0 (type_flags args) (start b) ;;
  match ec t with
  | OK =>
    if 0 <? remaining t then d <- store (data t) (used t) [0%N] ;; Some (Z.of_nat (used t), d)
    else if 0 <? length b then d <- store (data t) (length b - 1) [0%N] ;; Some (Z.of_nat (used t), d)
    else Some (Z.of_nat (used t), data t)
  | ERANGE => Some (Z.of_nat (necessary t), data t)
  | _ => Some ((-1)%Z, data t)
  end.
(** tm_print.h:2221-2231, tmp_print: what is written to the file and the error code *)
Definition fprint (a : nat -> option nat) (rounds : nat) (s : list N) (initial : format) (args : list value) : option (list N * errc) :=
  t <- print_impl (Some a) rounds (S (length s)) initial args s 0 (type_flags args) (start (repeat 205%N 200)) ;;
  Some (firstn (used t) (data t), ec t).
(** tm_print.h:2254-2270, 1644-1660, tmp_string_format *)
Definition string_format (a : nat -> option nat) (rounds : nat) (s : list N) (initial : format) (args : list value) : option (list N) :=
  t <- print_impl (Some a) rounds (S (length s)) initial args s 0 (type_flags args) (start []) ;;
  Some (match ec t with OK => firstn (used t) (data t) | _ => [] end).
