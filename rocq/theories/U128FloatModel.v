(** Model of the floating point conversions of tm_uint128.h 1478-1646. A float/double is its
    IEEE-754 bit pattern (the code copies it with memcpy). *)
From Coq Require Import NArith ZArith List Bool.
From Verif Require Import Base U128Model.
Local Open Scope N_scope.

(** TM_FE_TONEAREST, TM_FE_UPWARD, TM_FE_DOWNWARD, TM_FE_TOWARDZERO. *)
Inductive rounding := ToNearest | Upward | Downward | TowardZero.

(** float.h: the bit patterns of FLT_MAX and DBL_MAX. *)
Definition FLT_MAX_BITS : N := 0x7F7FFFFF.
Definition DBL_MAX_BITS : N := 0x7FEFFFFFFFFFFFFF.

(** tm_uint128.h 1495-1523: the round_up decision of tmi_to_float_rm. *)
Definition float_round_up (normalized : u128) (mantissa : N) (rm : rounding) : N :=
  match rm with
  | ToNearest =>
    if negb (N.land mantissa (N.shiftl 1 7) =? 0)
    then b2n (negb (low normalized =? 0) || negb (N.land (high normalized) 0x17FFFFFFFFF =? 0))
    else 0
  | Upward => b2n (negb (low normalized =? 0) || negb (N.land (high normalized) 0x1FFFFFFFFFF =? 0))
  | _ => 0
  end.

(** tm_uint128.h 1487-1534: tmi_to_float_rm (and tmi_to_float 1482, which passes the current
    rounding mode). *)
Definition tmi_to_float_rm (v : u128) (rm : rounding) : option N :=
  if tmi_is_zero v then Some 0
  else
    shift_amount <- tmi_fls v ;;
    normalized <- tmi_shl_u64 v (127 - shift_amount) ;;
    let exponent := w32 (127 + w32 shift_amount) in
    if 256 <=? exponent then Some FLT_MAX_BITS
    else
      let mantissa := w32 (N.shiftr (high normalized) 32) in
      let round_up := float_round_up normalized mantissa rm in
      let mantissa := N.shiftr mantissa 8 in
      let mantissa := w32 (mantissa + round_up) in
      let mantissa := N.land mantissa 0x7FFFFF in
      Some (N.lor (w32 (N.shiftl exponent 23)) mantissa).

(** tm_uint128.h 1551-1577: the round_up decision of tmi_to_double_rm. *)
Definition double_round_up (normalized : u128) (mantissa : N) (rm : rounding) : N :=
  match rm with
  | ToNearest =>
    if negb (N.land mantissa (N.shiftl 1 10) =? 0)
    then b2n (negb (low normalized =? 0) || negb (N.land mantissa 0xBFF =? 0))
    else 0
  | Upward => b2n (negb (low normalized =? 0) || negb (N.land mantissa 0x7FF =? 0))
  | _ => 0
  end.

(** tm_uint128.h 1542-1588: tmi_to_double_rm. *)
Definition tmi_to_double_rm (v : u128) (rm : rounding) : option N :=
  if tmi_is_zero v then Some 0
  else
    shift_amount <- tmi_fls v ;;
    normalized <- tmi_shl_u64 v (127 - shift_amount) ;;
    let exponent := w64 (1023 + shift_amount) in
    if 2048 <=? exponent then Some DBL_MAX_BITS
    else
      let mantissa := high normalized in
      let round_up := double_round_up normalized mantissa rm in
      let mantissa := N.shiftr mantissa 11 in
      let mantissa := w64 (mantissa + round_up) in
      let mantissa := N.land mantissa 0xFFFFFFFFFFFFF in
      Some (N.lor (w64 (N.shiftl exponent 52)) mantissa).

(** tm_uint128.h 1590-1608: tmi_from_float. The mask 0x7FF on a 9 bit quantity keeps the sign
    bit in [exponent]; that is how the code is written. *)
Definition tmi_from_float (bits : N) : option u128 :=
  let sign := N.shiftr bits 31 in
  let exponent := (Z.of_N (N.land (N.shiftr bits 23) 0x7FF) - 127 - 23)%Z in
  if (exponent <? -23)%Z then Some tmi_zero
  else
    let result := tmi_make_low (N.land bits 0x7FFFFF) in
    result <- tmi_set_bit result 23 ;;
    result <- (if (exponent <? 0)%Z then tmi_shr_u64 result (Z.to_N (- exponent))
               else tmi_shl_u64 result (Z.to_N exponent)) ;;
    if negb (sign =? 0) then Some (tmi_sub tmi_max result) else Some result.

(** tm_uint128.h 1609-1628: tmi_from_double. *)
Definition tmi_from_double (bits : N) : option u128 :=
  let sign := N.shiftr bits 63 in
  let exponent := (Z.of_N (N.land (N.shiftr bits 52) 0x7FF) - 1023 - 52)%Z in
  if (exponent <? -52)%Z then Some tmi_zero
  else
    let result := tmi_make_low (N.land bits 0xFFFFFFFFFFFFF) in
    result <- tmi_set_bit result 52 ;;
    result <- (if (exponent <? 0)%Z then tmi_shr_u64 result (Z.to_N (- exponent))
               else tmi_shl_u64 result (Z.to_N exponent)) ;;
    if negb (sign =? 0) then Some (tmi_sub tmi_max result) else Some result.

(** isfinite on bit patterns (TM_ISFINITE). *)
Definition isfinite32 (bits : N) : bool := N.land (N.shiftr bits 23) 0xFF <? 255.
Definition isfinite64 (bits : N) : bool := N.land (N.shiftr bits 52) 0x7FF <? 2047.

(** tm_uint128.h 1629-1644: the _s variants: returned flag and new value of *out. *)
Definition tmi_from_float_s (bits : N) (out : u128) : option (bool * u128) :=
  if isfinite32 bits then r <- tmi_from_float bits ;; Some (true, r) else Some (false, out).
Definition tmi_from_double_s (bits : N) (out : u128) : option (bool * u128) :=
  if isfinite64 bits then r <- tmi_from_double bits ;; Some (true, r) else Some (false, out).
