(** Model of the floating point scanner of tm_conversion.h, 1372-1747. Strings are lists of byte
    values; a pointer is the list of the characters from there on. *)
From Coq Require Import ZArith NArith List Bool.
From Verif Require Import Base CTypeModel ConvModel Fp.
Import ListNotations.
Local Open Scope N_scope.

(** *p; reading past the end of the memory is undefined. *)
Definition deref (p : list N) : option N := match p with [] => None | c :: _ => Some c end.
(** p += n; the pointer must stay inside of the object (or one past it). *)
Definition advance (p : list N) (n : nat) : option (list N) :=
  assert_ (n <=? length p)%nat (Some (skipn n p)).

(** tm_conversion.h 1416-1423: scan_LeadingZeroes. *)
Fixpoint scan_LeadingZeroes (str : list N) (len : nat) : option nat :=
  match len with
  | O => Some O
  | S len' =>
    match str with
    | [] => None
    | c :: rest =>
      if (c =? 48) || (c =? 46) then n <- scan_LeadingZeroes rest len' ;; Some (S n) else Some O
    end
  end.

(** int32_t arithmetic: overflow is undefined. *)
Definition int32 (z : Z) : option Z :=
  assert_ ((-2147483648 <=? z)%Z && (z <=? 2147483647)%Z) (Some z).

(** tm_conversion.h 1442-1452 and 1454-1464: the two loops; [len] digits into [part]. Returns the part
    and str. *)
Fixpoint scan_MantissaPart (len : nat) (str : list N) (part : Z) : option (Z * list N) :=
  match len with
  | O => Some (part, str)
  | S len' =>
    c <- deref str ;;
    ' (cp, str1) <- (if c =? 46 then str' <- advance str 1 ;; c' <- deref str' ;; Some (c', str')
                     else Some (c, str)) ;;
    t <- int32 (part * 10) ;;
    part' <- int32 (t + (Z.of_N cp - 48))%Z ;;
    str2 <- advance str1 1 ;;
    scan_MantissaPart len' str2 part'
  end.

(** tm_conversion.h 1424-1467: scan_ScanMantissa. The result is *out and str (the code returns the
    distance from start, which its callers add to start or ignore). *)
Definition scan_ScanMantissa (str : list N) (len : nat) : option (double * list N) :=
  let len := if (18 <? len)%nat then 18%nat else len in
  ' (highPart, str1) <- scan_MantissaPart (len - 9) str 0 ;;
  ' (lowPart, str2) <- scan_MantissaPart (if (9 <? len)%nat then 9%nat else len) str1 0 ;;
  Some (dadd (dmul (of_int 1000000000) (of_int highPart)) (of_int lowPart), str2).

(** tm_conversion.h 1472-1474: PowersOfTen. *)
Definition PowersOfTen : list double :=
  map (fun k => of_int (10 ^ k)) [1; 2; 4; 8; 16; 32; 64; 128; 256]%Z.

(** tm_conversion.h 1481-1487: the loop over the bits of uexp, the least significant first. *)
Fixpoint pow10_loop (bits : list bool) (entry : list double) (tenToThePower : double) : option double :=
  match bits with
  | [] => Some tenToThePower
  | b :: bits' =>
    t <- (if b : bool then match entry with [] => None | e :: _ => Some (dmul tenToThePower e) end
          else Some tenToThePower) ;;
    pow10_loop bits' (tl entry) t
  end.
Fixpoint pos_bits (p : positive) : list bool :=
  match p with
  | xH => [true]
  | xO p => false :: pos_bits p
  | xI p => true :: pos_bits p
  end.
Definition uint_bits (n : N) : list bool := match n with 0 => [] | N.pos p => pos_bits p end.

(** tm_conversion.h 1468-1494: str_Pow10. *)
Definition str_Pow10 (value : double) (exponent : Z) : option double :=
  assert_ (exponent <? 511)%Z
  (t <- pow10_loop (uint_bits (Z.to_N (Z.abs exponent))) PowersOfTen (of_int 1) ;;
   Some (if (exponent <? 0)%Z then ddiv value t else dmul value t)).

(** tm_conversion.h 1516-1524: the loop over the mantissa; [s] is p + mantissaLength. Returns
    mantissaLength and, if there is a '.', the number of characters before it (integerLength and
    decimalPos - 1 in the code). *)
Fixpoint scan_mantissa_loop (s : list N) (mantissaLength : nat) (dot : option nat) : option (nat * option nat) :=
  match s with
  | [] => None
  | cp :: rest =>
    match (if cp =? 46 then dot else Some O) with
    | None => scan_mantissa_loop rest (S mantissaLength) (Some mantissaLength)
    | Some _ =>
      if is_digit cp then scan_mantissa_loop rest (S mantissaLength) dot else Some (mantissaLength, dot)
    end
  end.
(** tm_conversion.h 1645-1653: the same in scan_double_n; [len] characters are left. Returns len too. *)
Fixpoint scan_mantissa_n_loop (s : list N) (len : nat) (mantissaLength : nat) (dot : option nat)
  {struct len} : option (nat * option nat * nat) :=
  match len with
  | O => Some (mantissaLength, dot, O)
  | S len' =>
    match s with
    | [] => None
    | cp :: rest =>
      match (if cp =? 46 then dot else Some O) with
      | None => scan_mantissa_n_loop rest len' (S mantissaLength) (Some mantissaLength)
      | Some _ =>
        if is_digit cp then scan_mantissa_n_loop rest len' (S mantissaLength) dot
        else Some (mantissaLength, dot, len)
      end
    end
  end.

(** The exponent as the code has it after 1537-1568: nothing (or not a number): [NoExponent];
    [Exponent negative value chars] with the distance from p + mantissaLength to pExp; or the error
    that is returned and the distance. *)
Inductive exponent_scan :=
  | NoExponent
  | Exponent (negative : bool) (value : Z) (chars : nat)
  | ExponentError (ec : errc) (chars : nat).

(** tm_conversion.h 1548-1561 (also 1677-1690): after the call of scan_i32. [skipped] is the number of
    characters before the digits. *)
Definition scan_exponent_finish (exponentNegative : bool) (skipped : nat) (r : conv * option Z)
  : option exponent_scan :=
  let (cv, o) := r in
  let chars := (skipped + cv_size cv)%nat in
  if negb (errc_eqb (cv_ec cv) OK) then Some (ExponentError (cv_ec cv) chars)
  else exponent <- o ;;
    if (511 <? exponent)%Z then Some (ExponentError EOVERFLOW chars)
    else Some (Exponent exponentNegative exponent chars).

(** tm_conversion.h 1537-1567; [pExp] is p + mantissaLength. *)
Definition scan_exponent (pExp : list N) : option exponent_scan :=
  c <- deref pExp ;;
  if (c =? 101) || (c =? 69) then
    pExp1 <- advance pExp 1 ;;
    c1 <- deref pExp1 ;;
    ' (exponentNegative, pExp2, skipped) <-
      (if c1 =? 45 then q <- advance pExp1 1 ;; Some (true, q, 2%nat)
       else if c1 =? 43 then q <- advance pExp1 1 ;; Some (false, q, 2%nat)
       else Some (false, pExp1, 1%nat)) ;;
    c2 <- deref pExp2 ;;
    if is_digit c2 then
      r <- scan_i32 (Some pExp2) (Some 0%Z) 10 ;;
      scan_exponent_finish exponentNegative skipped r
    else Some NoExponent
  else Some NoExponent.

(** tm_conversion.h 1664-1696: the same in scan_double_n. *)
Definition scan_exponent_n (pExp : list N) (len : nat) : option exponent_scan :=
  match len with
  | O => Some NoExponent
  | S len1 =>
    c <- deref pExp ;;
    if (c =? 101) || (c =? 69) then
      pExp1 <- advance pExp 1 ;;
      ' (exponentNegative, pExp2, skipped, len2) <-
        (match len1 with
         | O => Some (false, pExp1, 1%nat, O)
         | S len1' =>
           c1 <- deref pExp1 ;;
           if c1 =? 45 then q <- advance pExp1 1 ;; Some (true, q, 2%nat, len1')
           else if c1 =? 43 then q <- advance pExp1 1 ;; Some (false, q, 2%nat, len1')
           else Some (false, pExp1, 1%nat, len1)
         end) ;;
      match len2 with
      | O => Some NoExponent
      | S _ =>
        c2 <- deref pExp2 ;;
        if is_digit c2 then
          r <- scan_i32_n pExp2 len2 (Some 0%Z) 10 ;;
          scan_exponent_finish exponentNegative skipped r
        else Some NoExponent
      end
    else Some NoExponent
  end.

(** tm_conversion.h 1570-1593 (also 1699-1722): integerLength, fractionalLength and exponent after
    moving the point. *)
Definition move_point (integerLength fractionalLength : nat) (exponentNegative : bool) (exponent : Z)
  : nat * nat * Z :=
  let e := Z.to_nat exponent in
  if exponentNegative then
    if (exponent <? Z.of_nat integerLength)%Z
    then ((integerLength - e)%nat, (fractionalLength + e)%nat, 0%Z)
    else (O, (fractionalLength + integerLength)%nat, (- (exponent - Z.of_nat integerLength))%Z)
  else
    if (exponent <? Z.of_nat fractionalLength)%Z
    then ((integerLength + e)%nat, (fractionalLength - e)%nat, 0%Z)
    else ((integerLength + fractionalLength)%nat, O, (exponent - Z.of_nat fractionalLength)%Z).

(** tm_conversion.h 1595-1613 (also 1724-1742): the value stored to *out. *)
Definition scan_value (p : list N) (negative : bool) (integerLength fractionalLength : nat) (exponent : Z)
  : option double :=
  leadingZeroes <- scan_LeadingZeroes p integerLength ;;
  ' (integerPart, p2) <-
    (if (leadingZeroes <? integerLength)%nat then
       p1 <- advance p leadingZeroes ;; scan_ScanMantissa p1 (integerLength - leadingZeroes)
     else p1 <- advance p integerLength ;; Some (of_int 0, p1)) ;;
  ' (fractionalPart, _) <- scan_ScanMantissa p2 fractionalLength ;;
  fractionalPart' <- str_Pow10 fractionalPart (- Z.of_nat fractionalLength) ;;
  value <- str_Pow10 (dadd integerPart fractionalPart') exponent ;;
  Some (if negative then dneg value else value).

(** tm_conversion.h 1525-1535 and 1570-1617 (also 1654-1662, 1699-1746): what follows the loop over the
    mantissa. [sign] is the number of characters before p. The lengths are ints in the code;
    overflowing them is undefined, which is checked here once, on the largest of them (decimalPos is
    at most mantissaLength). *)
Definition scan_double_finish (p : list N) (negative : bool) (mantissaLength : nat) (dot : option nat)
  (exp : exponent_scan) (out : option double) : option (conv * option double) :=
  assert_ (Z.of_nat mantissaLength <=? 2147483647)%Z
  (let sign := if negative then 1%nat else O in
   let (integerLength, fractionalLength) := match dot with
     | None => (mantissaLength, O)
     | Some i => (i, (mantissaLength - (i + 1))%nat)
     end in
   match exp with
   | ExponentError ec chars => Some (Conv (sign + mantissaLength + chars) ec, out)
   | _ =>
     let '(exponentNegative, exponent, chars) := match exp with
       | Exponent n e c => (n, e, c)
       | _ => (false, 0%Z, O)
       end in
     let '(il, fl, e) := move_point integerLength fractionalLength exponentNegative exponent in
     out' <- match out with
             | None => Some None
             | Some _ => v <- scan_value p negative il fl e ;; Some (Some v)
             end ;;
     Some (Conv (sign + mantissaLength + chars) OK, out')
   end).

(** tm_conversion.h 1496-1618: scan_double. [out] is [None] for a null pointer and [Some v] if *out is v
    before the call; the second component of the result is *out after the call. *)
Definition scan_double (str : option (list N)) (out : option double) : option (conv * option double) :=
  match str with
  | None => Some (Conv 0 EINVAL, out)
  | Some mem =>
    c <- deref mem ;;
    let negative := c =? 45 in
    p <- (if negative then advance mem 1 else Some mem) ;;
    ' (mantissaLength, dot) <- scan_mantissa_loop p 0 None ;;
    match dot, mantissaLength with
    | None, O => Some (Conv 0 EINVAL, out)
    | _, _ =>
      pExp <- advance p mantissaLength ;;
      e <- scan_exponent pExp ;;
      scan_double_finish p negative mantissaLength dot e out
    end
  end.

(** tm_conversion.h 1619-1747: scan_double_n. *)
Definition scan_double_n (mem : list N) (len : nat) (out : option double) : option (conv * option double) :=
  if (len =? 0)%nat then Some (Conv 0 EINVAL, out)
  else
    c <- deref mem ;;
    let negative := c =? 45 in
    p <- (if negative then advance mem 1 else Some mem) ;;
    ' (mantissaLength, dot, len') <- scan_mantissa_n_loop p (if negative then len - 1 else len) 0 None ;;
    match dot, mantissaLength with
    | None, O => Some (Conv 0 EINVAL, out)
    | _, _ =>
      pExp <- advance p mantissaLength ;;
      e <- scan_exponent_n pExp len' ;;
      scan_double_finish p negative mantissaLength dot e out
    end.

(** tm_conversion.h 1372-1385, 1386-1399: scan_float and scan_float_n. val is uninitialised before the
    call ([0] here); it is only used after a success, which stored to it. *)
Definition scan_float_finish (r : option (conv * option double)) (out : option float) : option (conv * option float) :=
  ' (ret, val) <- r ;;
  match out with
  | None => Some (ret, None)
  | Some o =>
    if negb (cv_size ret =? 0)%nat && errc_eqb (cv_ec ret) OK
    then v <- val ;; Some (ret, Some (to_float v))
    else Some (ret, Some o)
  end.
Definition scan_float (str : option (list N)) (out : option float) : option (conv * option float) :=
  scan_float_finish (scan_double str (Some (of_int 0))) out.
Definition scan_float_n (mem : list N) (len : nat) (out : option float) : option (conv * option float) :=
  scan_float_finish (scan_double_n mem len (Some (of_int 0))) out.
