(** Model of tm_uint128.h, TMI_BACKEND_UINT64 without intrinsics (the portable code path).
    The GCC __int128 backend (lines 1248-1387) and the intrinsics (lines 600-857) are not modelled:
    they delegate to the compiler. *)
From Coq Require Import NArith ZArith List Bool.
From Verif Require Import Base.
Import ListNotations.
Local Open Scope N_scope.

(** tm_uint128.h: struct tmi_uint128_t { uint64_t low; uint64_t high; } of the UINT64 backend. *)
Record u128 := U128 { low : N; high : N }.

(** tm_uint128.h 870-888: tmi_make, tmi_make_low, tmi_make_high. *)
Definition tmi_make (lo hi : N) : u128 := U128 lo hi.
Definition tmi_make_low (lo : N) : u128 := U128 lo 0.
Definition tmi_make_high (hi : N) : u128 := U128 0 hi.

(** tm_uint128.h 889-900: tmi_make_bitmask. *)
Definition tmi_make_bitmask (p : N) : option u128 :=
  assert_ (p <? 128)
  (Some (if 64 <=? p then U128 0 (w64 (N.shiftl 1 (p - 64))) else U128 (w64 (N.shiftl 1 p)) 0)).

(** tm_uint128.h 1215-1217: constants. *)
Definition tmi_one : u128 := U128 1 0.
Definition tmi_zero : u128 := U128 0 0.
Definition tmi_max : u128 := U128 0xFFFFFFFFFFFFFFFF 0xFFFFFFFFFFFFFFFF.

(** tm_uint128.h 903-908: tmi_internal_add64. *)
Definition tmi_internal_add64 (lhs rhs : N) : u128 :=
  let l := w64 (lhs + rhs) in U128 l (b2n (l <? lhs)).

(** tm_uint128.h 909-914: tmi_internal_sub64. *)
Definition tmi_internal_sub64 (lhs rhs : N) : u128 :=
  let l := sub64 lhs rhs in U128 l (b2n (lhs <? l)).

(** tm_uint128.h 916-921: tmi_add. *)
Definition tmi_add (lhs rhs : u128) : u128 :=
  let r := tmi_internal_add64 (low lhs) (low rhs) in
  U128 (low r) (w64 (w64 (high lhs + high rhs) + high r)).

(** tm_uint128.h 922-927: tmi_sub. *)
Definition tmi_sub (lhs rhs : u128) : u128 :=
  let r := tmi_internal_sub64 (low lhs) (low rhs) in
  U128 (low r) (sub64 (sub64 (high lhs) (high rhs)) (high r)).

(** tm_uint128.h 929-934: tmi_add_u64. *)
Definition tmi_add_u64 (lhs : u128) (rhs : N) : u128 :=
  let r := tmi_internal_add64 (low lhs) rhs in
  U128 (low r) (w64 (high lhs + high r)).

(** tm_uint128.h 935-940: tmi_sub_u64. *)
Definition tmi_sub_u64 (lhs : u128) (rhs : N) : u128 :=
  let r := tmi_internal_sub64 (low lhs) rhs in
  U128 (low r) (sub64 (high lhs) (high r)).

(** tm_uint128.h 1221-1241: tmi_internal_mul64. *)
Definition tmi_internal_mul64 (lhs rhs : N) : u128 :=
  let lhs_low := N.land lhs 0xFFFFFFFF in
  let lhs_high := N.shiftr lhs 32 in
  let rhs_low := N.land rhs 0xFFFFFFFF in
  let rhs_high := N.shiftr rhs 32 in
  let low_low := w64 (lhs_low * rhs_low) in
  let low_high := w64 (w64 (lhs_low * rhs_high) + N.shiftr low_low 32) in
  let high_low := w64 (lhs_high * rhs_low) in
  let high_high := w64 (w64 (lhs_high * rhs_high) + N.shiftr high_low 32) in
  let a := N.land low_low 0xFFFFFFFF in
  let b := w64 (low_high + N.land high_low 0xFFFFFFFF) in
  let c := w64 (high_high + N.shiftr b 32) in
  let b' := w64 (N.shiftl b 32) in
  U128 (N.lor a b') c.

(** tm_uint128.h 944-949: tmi_mul. *)
Definition tmi_mul (lhs rhs : u128) : u128 :=
  let r := tmi_internal_mul64 (low lhs) (low rhs) in
  let h1 := w64 (high r + w64 (low lhs * high rhs)) in
  let h2 := w64 (h1 + w64 (high lhs * low rhs)) in
  U128 (low r) h2.

(** tm_uint128.h 950-954: tmi_mul_u64. *)
Definition tmi_mul_u64 (lhs : u128) (rhs : N) : u128 :=
  let r := tmi_internal_mul64 (low lhs) rhs in
  U128 (low r) (w64 (high r + w64 (high lhs * rhs))).

(** tm_uint128.h 958-981: tmi_and, tmi_or, tmi_xor, tmi_not. *)
Definition tmi_and (lhs rhs : u128) : u128 :=
  U128 (N.land (low lhs) (low rhs)) (N.land (high lhs) (high rhs)).
Definition tmi_or (lhs rhs : u128) : u128 :=
  U128 (N.lor (low lhs) (low rhs)) (N.lor (high lhs) (high rhs)).
Definition tmi_xor (lhs rhs : u128) : u128 :=
  U128 (N.lxor (low lhs) (low rhs)) (N.lxor (high lhs) (high rhs)).
Definition tmi_not (v : u128) : u128 :=
  U128 (N.lnot (low v) 64) (N.lnot (high v) 64).

(** tm_uint128.h 993-1008: tmi_shl_u64. *)
Definition tmi_shl_u64 (lhs : u128) (s : N) : option u128 :=
  assert_ (s <? 128)
  (Some
   (if s =? 0 then lhs
    else if 64 <=? s then U128 0 (w64 (N.shiftl (low lhs) (s - 64)))
    else
      let overflow_mask := N.shiftr (low lhs) (64 - s) in
      U128 (w64 (N.shiftl (low lhs) s)) (N.lor (w64 (N.shiftl (high lhs) s)) overflow_mask))).

(** tm_uint128.h 1009-1024: tmi_shr_u64. *)
Definition tmi_shr_u64 (lhs : u128) (s : N) : option u128 :=
  assert_ (s <? 128)
  (Some
   (if s =? 0 then lhs
    else if 64 <=? s then U128 (N.shiftr (high lhs) (s - 64)) 0
    else
      let overflow_mask := w64 (N.shiftl (high lhs) (64 - s)) in
      U128 (N.lor (N.shiftr (low lhs) s) overflow_mask) (N.shiftr (high lhs) s))).

(** tm_uint128.h 983-990: tmi_shl, tmi_shr. *)
Definition tmi_shl (lhs rhs : u128) : option u128 :=
  assert_ ((high rhs =? 0) && (low rhs <? 128)) (tmi_shl_u64 lhs (low rhs)).
Definition tmi_shr (lhs rhs : u128) : option u128 :=
  assert_ ((high rhs =? 0) && (low rhs <? 128)) (tmi_shr_u64 lhs (low rhs)).

(** tm_uint128.h 1027-1036: tmi_set_bit. There is no TM_ASSERT, but [1ull << n] with n >= 64 is
    undefined behaviour. *)
Definition tmi_set_bit (v : u128) (p : N) : option u128 :=
  if 64 <=? p then
    assert_ (p - 64 <? 64) (Some (U128 (low v) (N.lor (high v) (N.shiftl 1 (p - 64)))))
  else Some (U128 (N.lor (low v) (N.shiftl 1 p)) (high v)).

(** tm_uint128.h 1135-1145: tmi_inc, tmi_dec. *)
Definition tmi_inc (v : u128) : u128 :=
  let r := tmi_internal_add64 (low v) 1 in U128 (low r) (w64 (high v + high r)).
Definition tmi_dec (v : u128) : u128 :=
  let r := tmi_internal_sub64 (low v) 1 in U128 (low r) (sub64 (high v) (high r)).

(** tm_uint128.h 1147-1161: tmi_lt, tmi_lte, tmi_gt, tmi_gte, tmi_eq. *)
Definition tmi_lt (l r : u128) : bool :=
  if high l =? high r then low l <? low r else high l <? high r.
Definition tmi_lte (l r : u128) : bool :=
  if high l =? high r then low l <=? low r else high l <? high r.
Definition tmi_gt (l r : u128) : bool :=
  if high l =? high r then low r <? low l else high r <? high l.
Definition tmi_gte (l r : u128) : bool :=
  if high l =? high r then low r <=? low l else high r <? high l.
Definition tmi_eq (l r : u128) : bool := (low l =? low r) && (high l =? high r).

(** tm_uint128.h 1162-1168: tmi_cmp. *)
Definition tmi_cmp (l r : u128) : Z :=
  if high l <? high r then (-1)%Z
  else if high r <? high l then 1%Z
  else if low l <? low r then (-1)%Z
  else if low r <? low l then 1%Z
  else 0%Z.

(** tm_uint128.h 1170-1176: tmi_is_zero, tmi_is_not_zero, tmi_is_bit_set. *)
Definition tmi_is_zero (v : u128) : bool := (low v =? 0) && (high v =? 0).
Definition tmi_is_not_zero (v : u128) : bool := negb (low v =? 0) || negb (high v =? 0).
Definition tmi_is_bit_set (v : u128) (p : N) : option bool :=
  assert_ (p <? 128)
  (Some (if 64 <=? p then negb (N.land (high v) (N.shiftl 1 (p - 64)) =? 0)
         else negb (N.land (low v) (N.shiftl 1 p) =? 0))).

(** tm_uint128.h 1393-1395 and 1411-1413: the De Bruijn tables. *)
Definition fls_table : list N :=
  [0; 9; 1; 10; 13; 21; 2; 29; 11; 14; 16; 18; 22; 25; 3; 30; 8; 12; 20; 28; 15; 17;
   24; 7; 19; 27; 23; 6; 26; 5; 4; 31].
Definition ffs_table : list N :=
  [0; 1; 28; 2; 29; 14; 24; 3; 30; 22; 20; 15; 25; 17; 4; 8; 31; 27; 13; 23; 21; 19;
   16; 7; 26; 12; 18; 6; 11; 5; 10; 9].

(** tm_uint128.h 1390-1404: tmi_fls_u32. *)
Definition tmi_fls_u32 (v : N) : option N :=
  assert_ (negb (v =? 0))
  (let v := N.lor v (N.shiftr v 1) in
   let v := N.lor v (N.shiftr v 2) in
   let v := N.lor v (N.shiftr v 4) in
   let v := N.lor v (N.shiftr v 8) in
   let v := N.lor v (N.shiftr v 16) in
   nth_error fls_table (N.to_nat (N.shiftr (w32 (v * 0x07C4ACDD)) 27))).

(** tm_uint128.h 1408-1415: tmi_ffs_u32. *)
Definition tmi_ffs_u32 (v : N) : option N :=
  assert_ (negb (v =? 0))
  (let m := N.land v (N.lnot (sub32 v 1) 32) in
   nth_error ffs_table (N.to_nat (N.shiftr (w32 (m * 0x077CB531)) 27))).

(** tm_uint128.h 1419-1425: tmi_popcount_u32. *)
Definition tmi_popcount_u32 (v : N) : N :=
  let v := sub32 v (N.land (N.shiftr v 1) 0x55555555) in
  let v := w32 (N.land v 0x33333333 + N.land (N.shiftr v 2) 0x33333333) in
  let v := N.land (w32 (v + N.shiftr v 4)) 0x0F0F0F0F in
  N.shiftr (w32 (v * 0x01010101)) 24.

(** tm_uint128.h 1429-1435: tmi_popcount_u64. *)
Definition tmi_popcount_u64 (v : N) : N :=
  let v := sub64 v (N.land (N.shiftr v 1) 0x5555555555555555) in
  let v := w64 (N.land v 0x3333333333333333 + N.land (N.shiftr v 2) 0x3333333333333333) in
  let v := N.land (w64 (v + N.shiftr v 4)) 0x0F0F0F0F0F0F0F0F in
  N.shiftr (w64 (v * 0x0101010101010101)) 56.

(** tm_uint128.h 1439-1443: tmi_fls_u64. *)
Definition tmi_fls_u64 (v : N) : option N :=
  let hi := w32 (N.shiftr v 32) in
  if negb (hi =? 0) then r <- tmi_fls_u32 hi ;; Some (r + 32)
  else tmi_fls_u32 (w32 v).

(** tm_uint128.h 1447-1451: tmi_ffs_u64. *)
Definition tmi_ffs_u64 (v : N) : option N :=
  let lo := w32 (N.land v 0xFFFFFFFF) in
  if negb (lo =? 0) then tmi_ffs_u32 lo
  else r <- tmi_ffs_u32 (w32 (N.shiftr v 32)) ;; Some (r + 32).

(** tm_uint128.h 1181-1191: tmi_fls, tmi_ffs, tmi_popcount. *)
Definition tmi_fls (v : u128) : option N :=
  if negb (high v =? 0) then r <- tmi_fls_u64 (high v) ;; Some (r + 64)
  else tmi_fls_u64 (low v).
Definition tmi_ffs (v : u128) : option N :=
  if negb (low v =? 0) then tmi_ffs_u64 (low v)
  else r <- tmi_ffs_u64 (high v) ;; Some (r + 64).
Definition tmi_popcount (v : u128) : N :=
  tmi_popcount_u64 (low v) + tmi_popcount_u64 (high v).

(** tm_uint128.h 1454-1477: the _s variants, -1 for zero. *)
Definition scan_s (is_zero : bool) (r : option N) : option Z :=
  if is_zero then Some (-1)%Z else x <- r ;; Some (Z.of_N x).
Definition tmi_fls_s (v : u128) : option Z := scan_s (tmi_is_zero v) (tmi_fls v).
Definition tmi_ffs_s (v : u128) : option Z := scan_s (tmi_is_zero v) (tmi_ffs v).

(** tm_uint128.h 1193-1213: tmi_to_bytes. *)
Definition tmi_to_bytes (v : u128) : list N :=
  map (fun i => N.land (N.shiftr (low v) (8 * i)) 0xFF) [0;1;2;3;4;5;6;7] ++
  map (fun i => N.land (N.shiftr (high v) (8 * i)) 0xFF) [0;1;2;3;4;5;6;7].

(** tm_uint128.h 1078-1080 / 1126-1128: "Inline shift one bit left". *)
Definition shl_one (m : u128) : u128 :=
  U128 (w64 (N.shiftl (low m) 1)) (N.lor (w64 (N.shiftl (high m) 1)) (N.shiftr (low m) 63)).

(** tm_uint128.h 1068-1081: the long division loop of tmi_divmod; [i] counts down to 0. *)
Fixpoint divmod_loop (lhs rhs : u128) (i : nat) (q m : u128) : option (u128 * u128) :=
  b <- tmi_is_bit_set lhs (N.of_nat i) ;;
  let m := U128 (N.lor (low m) (b2n b)) (high m) in
  ' (q, m) <- (if tmi_gte m rhs
               then q' <- tmi_set_bit q (N.of_nat i) ;; Some (q', tmi_sub m rhs)
               else Some (q, m)) ;;
  match i with
  | O => Some (q, m)
  | S i' => divmod_loop lhs rhs i' q (shl_one m)
  end.

(** tm_uint128.h 1038-1085: tmi_divmod, returns (div, mod). The first [if] (rhs == 1) only
    assigns and falls through to the following chain, which assigns again: it is not visible. *)
Definition tmi_divmod (lhs rhs : u128) : option (u128 * u128) :=
  assert_ (tmi_is_not_zero rhs)
  (if (high rhs =? 0) && (low rhs =? 2) then
     d <- tmi_shr lhs tmi_one ;;
     b <- tmi_is_bit_set lhs 0 ;;
     Some (d, U128 (b2n b) 0)
   else if tmi_eq lhs rhs then Some (tmi_one, tmi_zero)
   else if tmi_lt lhs rhs then Some (tmi_zero, lhs)
   else
     i <- tmi_fls lhs ;;
     divmod_loop lhs rhs (N.to_nat i) tmi_zero tmi_zero).

(** tm_uint128.h 1116-1129: the loop of tmi_divmod_u64. *)
Fixpoint divmod_u64_loop (lhs : u128) (rhs : N) (i : nat) (q m : u128) : option (u128 * u128) :=
  b <- tmi_is_bit_set lhs (N.of_nat i) ;;
  let m := U128 (N.lor (low m) (b2n b)) (high m) in
  ' (q, m) <- (if negb (high m =? 0) || (rhs <=? low m)
               then q' <- tmi_set_bit q (N.of_nat i) ;; Some (q', tmi_sub_u64 m rhs)
               else Some (q, m)) ;;
  match i with
  | O => Some (q, m)
  | S i' => divmod_u64_loop lhs rhs i' q (shl_one m)
  end.

(** tm_uint128.h 1086-1133: tmi_divmod_u64. *)
Definition tmi_divmod_u64 (lhs : u128) (rhs : N) : option (u128 * u128) :=
  assert_ (negb (rhs =? 0))
  (if rhs =? 2 then
     d <- tmi_shr lhs tmi_one ;;
     b <- tmi_is_bit_set lhs 0 ;;
     Some (d, U128 (b2n b) 0)
   else if (high lhs =? 0) && (low lhs =? rhs) then Some (tmi_one, tmi_zero)
   else if (high lhs =? 0) && (low lhs <? rhs) then Some (tmi_zero, lhs)
   else
     i <- tmi_fls lhs ;;
     divmod_u64_loop lhs rhs (N.to_nat i) tmi_zero tmi_zero).

(** tm_uint128.h 956-957: tmi_div, tmi_mod. *)
Definition tmi_div (l r : u128) : option u128 := ' (q, _) <- tmi_divmod l r ;; Some q.
Definition tmi_mod (l r : u128) : option u128 := ' (_, m) <- tmi_divmod l r ;; Some m.
