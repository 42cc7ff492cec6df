(** Model of print_double and print_float, tm_conversion.h 1889-1927, 2544-2731. [buf] is the memory at
    the destination; dest is [buf] from the position [pos] on. tm_size_t is unsigned; sizes are [nat],
    and a subtraction that would wrap around gives [None] (it is proved not to happen). *)
From Coq Require Import ZArith NArith List Bool.
From Flocq Require Import Core IEEE754.BinarySingleNaN.
From Verif Require Import Base ConvModel Fp DblModel.
Import ListNotations.
Local Open Scope N_scope.

(** tmc_print_flags, tm_conversion.h 509-521: bit numbers. *)
Definition PF_SHORTEST := 3.
Definition PF_TRAILING_ZEROES := 4.
Definition PF_LOWERCASE := 6.
Definition PF_SIGNBIT := 7.

(** tm_conversion.h 800: TMC_MAX_PRECISION. *)
Definition TMC_MAX_PRECISION : Z := 14.

(** (uint64_t)x: truncation; undefined if the result is out of range. *)
Definition to_u64 (x : double) : option N :=
  assert_ (is_finite x && (0 <=? Btrunc x)%Z && (Btrunc x <? 2 ^ 64)%Z) (Some (Z.to_N (Btrunc x))).

(** tm_conversion.h 1889-1890: print_PowersOfTen. *)
Definition print_PowersOfTen : list double :=
  map (fun k => of_int (10 ^ k)) [0; 1; 2; 3; 4; 5; 6; 7; 8; 9; 10; 11; 12; 13; 14]%Z.

(** tm_conversion.h 1899-1922: one of the ifs of the loop body: value >= 10^k. *)
Definition magnitude_if (k : Z) (st : Z * double) : Z * double :=
  let '(n, value) := st in
  if dle (of_int (10 ^ k)) value then ((n + k)%Z, ddiv value (of_int (10 ^ k))) else (n, value).
Definition magnitude_body (st : Z * double) : Z * double :=
  magnitude_if 1 (magnitude_if 2 (magnitude_if 4 (magnitude_if 8 (magnitude_if 16 (magnitude_if 32 st))))).
(** tm_conversion.h 1898-1923: the while loop; [None] if the fuel is exhausted. *)
Fixpoint magnitude_loop (fuel : nat) (st : Z * double) : option Z :=
  if dle (of_int 10) (snd st) then
    match fuel with O => None | S f => magnitude_loop f (magnitude_body st) end
  else Some (fst st).
(** tm_conversion.h 1892-1927: print_magnitude. *)
Definition print_magnitude (value : double) : option Z :=
  let value := if dlt value (of_int 0) then dneg value else value in
  n <- magnitude_loop 8 (0%Z, value) ;; Some (n + 1)%Z.

(** tm_conversion.h 2678-2687: the loop that removes trailing zeros. *)
Fixpoint trim_zeroes (printWidth : nat) (fractionalDigits : N) : option (nat * N) :=
  if fractionalDigits mod 10 =? 0 then
    match printWidth with O => None | S w => trim_zeroes w (fractionalDigits / 10) end
  else Some (printWidth, fractionalDigits).

(** A return statement inside of the function body, or going on. *)
Inductive outcome (A : Type) := Return (r : conv * list N) | Go (a : A).
Arguments Return {A}. Arguments Go {A}.

Section PrintDouble.
  Variables dbg cw : bool.   (* as in ConvModel.v *)

  (** A call with dest = buf + pos. *)
  Definition at_dest (buf : list N) (pos : nat) (f : list N -> option (conv * list N)) : option (conv * list N) :=
    assert_ (pos <=? length buf)%nat
    (' (r, b) <- f (skipn pos buf) ;; Some (r, firstn pos buf ++ b)).

  (** tm_conversion.h 2544-2560: tmc_print_zero_padded_u64. *)
  Definition tmc_print_zero_padded_u64 (buf : list N) (maxlen width : nat) (value : N) : option (conv * list N) :=
    count <- get_digits_count_decimal_u64 value ;;
    if (maxlen <? width)%nat then Some (Conv maxlen EOVERFLOW, buf)
    else
      let padding := if (count <? width)%nat then (width - count)%nat else 0%nat in
      buf1 <- copy_into buf (repeat 48 padding) ;;
      ' (r, b) <- at_dest buf1 padding (fun dest =>
                    print_decimal_w dbg cw get_digits_count_decimal_u64 dest (maxlen - padding) count value) ;;
      Some (combine_conv (Conv padding OK) r, b).

  (** tm_conversion.h 2626-2647: the loop that prints the digits before the point, at most 14 a time;
      [start] is the value of maxlen at the start of print_double. *)
  Fixpoint integer_loop (fuel : nat) (start : nat) (buf : list N) (pos maxlen : nat) (value : double)
    (magnitude : Z) (printWidth : nat) : option (outcome (list N * nat * nat * double * Z)) :=
    if (0 <? magnitude)%Z && (0 <? maxlen)%nat then
      match fuel with
      | O => None
      | S fuel' =>
        ' (part, value', printWidth') <-
          (if (TMC_MAX_PRECISION <? magnitude)%Z then
             part <- str_Pow10 value (- (magnitude - TMC_MAX_PRECISION)) ;;
             p <- to_u64 part ;;
             t <- str_Pow10 (of_int (Z.of_N p)) (magnitude - TMC_MAX_PRECISION) ;;
             Some (part, dsub value t, printWidth)
           else
             v <- to_u64 value ;;
             Some (value, dsub value (of_int (Z.of_N v)), Z.to_nat magnitude)) ;;
        digits <- to_u64 part ;;
        ' (interm, buf') <- at_dest buf pos (fun dest => tmc_print_zero_padded_u64 dest maxlen printWidth' digits) ;;
        assert_ (cv_size interm <=? maxlen)%nat
        (let maxlen' := (maxlen - cv_size interm)%nat in
         let pos' := (pos + cv_size interm)%nat in
         if errc_eqb (cv_ec interm) OK
         then integer_loop fuel' start buf' pos' maxlen' value' (magnitude - TMC_MAX_PRECISION)
                (Z.to_nat TMC_MAX_PRECISION)
         else Some (Return (Conv (start - maxlen') (cv_ec interm), buf')))
      end
    else Some (Go (buf, pos, maxlen, value, magnitude)).

  (** tm_conversion.h 2653-2726: the digits behind the point and the final return. [trailing] is
      flags & PF_TRAILING_ZEROES. *)
  Definition print_fraction (start : nat) (buf : list N) (pos maxlen : nat) (fractionalPart : double)
    (trailing keep_short : bool) (precision : Z) : option (conv * list N) :=
    if (0 <? precision)%Z then
      power <- nth_error print_PowersOfTen (Z.to_nat precision) ;;
      fractionalDigits <- to_u64 (dadd (dmul fractionalPart power) (ddiv (of_int 1) (of_int 2))) ;;
      if negb (fractionalDigits =? 0) then
        if (maxlen =? 0)%nat then Some (Conv (start - maxlen) EOVERFLOW, buf)
        else
          buf1 <- write buf pos 46 ;;
          let pos := S pos in let maxlen := (maxlen - 1)%nat in
          if (maxlen =? 0)%nat then Some (Conv (start - maxlen) EOVERFLOW, buf1)
          else
            ' (printWidth, fractionalDigits) <-
              (if negb trailing || keep_short then trim_zeroes (Z.to_nat precision) fractionalDigits
               else Some (Z.to_nat precision, fractionalDigits)) ;;
            if (printWidth =? 0)%nat then
              tm_assert dbg (0 <? maxlen)%nat
              (buf2 <- write buf1 pos 48 ;; Some (Conv (start - (maxlen - 1)) OK, buf2))
            else
              ' (fr, buf2) <- at_dest buf1 pos (fun dest =>
                                tmc_print_zero_padded_u64 dest maxlen printWidth fractionalDigits) ;;
              assert_ (cv_size fr <=? maxlen)%nat
              (Some (Conv (start - (maxlen - cv_size fr)) (cv_ec fr), buf2))
      else if trailing then
        if (maxlen =? 0)%nat then Some (Conv (start - maxlen) EOVERFLOW, buf)
        else
          buf1 <- write buf pos 46 ;;
          let pos := S pos in let maxlen := (maxlen - 1)%nat in
          if (maxlen =? 0)%nat then Some (Conv (start - maxlen) EOVERFLOW, buf1)
          else if keep_short then
            buf2 <- write buf1 pos 48 ;; Some (Conv (start - (maxlen - 1)) OK, buf2)
          else
            let short := (maxlen <? Z.to_nat precision)%nat in
            let n := if short then maxlen else Z.to_nat precision in
            ' (_, buf2) <- at_dest buf1 pos (fun dest => b <- copy_into dest (repeat 48 n) ;; Some (Conv 0 OK, b)) ;;
            Some (Conv (start - (maxlen - n)) (if short then EOVERFLOW else OK), buf2)
      else Some (Conv (start - maxlen) OK, buf)
    else Some (Conv (start - maxlen) OK, buf).

  (** tm_conversion.h 2597-2726: a number that is neither nan nor infinite, after the sign. The branch
      magnitude >= scan_MaxExponent (2618-2624) clamps, because TMC_CLAMP_ON_RANGE_ERROR is always
      defined (774-776). *)
  Definition print_finite (start : nat) (buf : list N) (pos maxlen : nat) (value : double) (flags : N)
    (precision : Z) : option (conv * list N) :=
    let keep_short := (precision <? 0)%Z || N.testbit flags PF_SHORTEST in
    let trailing := N.testbit flags PF_TRAILING_ZEROES || negb keep_short in
    let precision := if keep_short then TMC_MAX_PRECISION
                     else if (TMC_MAX_PRECISION <? precision)%Z then TMC_MAX_PRECISION else precision in
    half <- str_Pow10 (ddiv (of_int 1) (of_int 2)) (- precision) ;;
    rollover <- to_u64 (dadd value half) ;;
    integer <- to_u64 value ;;
    let value := if integer <? rollover then dadd value (of_int 1) else value in
    magnitude <- print_magnitude value ;;
    let magnitude := if (511 <=? magnitude)%Z then 510%Z else magnitude in
    o <- integer_loop 40 start buf pos maxlen value magnitude 0 ;;
    match o with
    | Return r => Some r
    | Go (buf, pos, maxlen, value, magnitude) =>
      if (0 <? magnitude)%Z && (maxlen =? 0)%nat then Some (Conv (start - maxlen) EOVERFLOW, buf)
      else print_fraction start buf pos maxlen value trailing keep_short precision
    end.

  (** tm_conversion.h 2561-2727: print_double. [nan_sign] is the sign bit of [value] if it is a nan
      (the type [double] has one nan only). *)
  Definition print_double (buf : list N) (maxlen : nat) (value : double) (nan_sign : bool) (flags : N)
    (precision : Z) : option (conv * list N) :=
    if (maxlen =? 0)%nat then Some (Conv 0 EOVERFLOW, buf)
    else
      let start := maxlen in
      let signbit := if is_nan value then nan_sign else Bsign value in
      let minus := (N.testbit flags PF_SIGNBIT && signbit) || dlt value (of_int 0) in
      ' (buf, pos, maxlen, value) <-
        (if minus then b <- write buf 0 45 ;; Some (b, 1%nat, (maxlen - 1)%nat, dneg value)
         else Some (buf, 0%nat, maxlen, value)) ;;
      if minus && (maxlen =? 0)%nat then Some (Conv (start - maxlen) EOVERFLOW, buf)
      else
        let special text :=
          ' (r, b) <- at_dest buf pos (fun dest => tmc_print_string dest maxlen text) ;;
          Some (combine_conv (Conv (start - maxlen) OK) r, b) in
        if is_nan value then
          special (if N.testbit flags PF_LOWERCASE then [110; 97; 110] else [78; 65; 78])
        else if negb (is_finite value) then
          special (if N.testbit flags PF_LOWERCASE then [105; 110; 102] else [73; 78; 70])
        else print_finite start buf pos maxlen value flags precision.
End PrintDouble.

(** (double)value: exact. *)
Definition of_float (x : float) : double :=
  match x with
  | B754_zero s => B754_zero s
  | B754_infinity s => B754_infinity s
  | B754_nan => B754_nan
  | B754_finite s m e _ => binary_normalize 53 1024 prec53 emax1024 mode_NE (SpecFloat.cond_Zopp s (Zpos m)) e s
  end.

(** tm_conversion.h 2728-2730: print_float. *)
Definition print_float (dbg cw : bool) (buf : list N) (maxlen : nat) (value : float) (nan_sign : bool) (flags : N)
  (precision : Z) : option (conv * list N) :=
  print_double dbg cw buf maxlen (of_float value) nan_sign flags precision.
