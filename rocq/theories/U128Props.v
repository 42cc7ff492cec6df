(** Properties C01-C09: 128-bit unsigned integers (tm_uint128.h). *)
From Coq Require Import NArith ZArith String List Bool Lia.
From Verif Require Import Base CTypeModel U128Model U128Spec Tactics U128Proofs U128Bits U128Scan U128Popcount
  U128Div DigitsSpec DigitsProofs U128TextModel U128Text U128RoundTrip U128FloatModel FloatSpec
  FloatProofs U128Float U128FromFloat U128More.
Import ListNotations.
Local Open Scope N_scope.

(** * C01: sums and differences are exact modulo 2^128 *)
Theorem C01_add : forall a b, wf a -> wf b ->
  wf (tmi_add a b) /\ val (tmi_add a b) = (val a + val b) mod 2 ^ 128.
Proof. intros a b Ha Hb. exact (conj (add_wf a b Ha Hb) (add_val a b Ha Hb)). Qed.
Theorem C01_sub : forall a b, wf a -> wf b ->
  wf (tmi_sub a b) /\ val (tmi_sub a b) = (val a + 2 ^ 128 - val b) mod 2 ^ 128.
Proof. intros a b Ha Hb. exact (conj (sub_wf a b Ha Hb) (sub_val a b Ha Hb)). Qed.
Theorem C01_add_u64 : forall a b, wf a -> b < 2 ^ 64 ->
  wf (tmi_add_u64 a b) /\ val (tmi_add_u64 a b) = (val a + b) mod 2 ^ 128.
Proof. intros a b Ha Hb. exact (conj (add_u64_wf a b Ha Hb) (add_u64_val a b Ha Hb)). Qed.
Theorem C01_sub_u64 : forall a b, wf a -> b < 2 ^ 64 ->
  wf (tmi_sub_u64 a b) /\ val (tmi_sub_u64 a b) = (val a + 2 ^ 128 - b) mod 2 ^ 128.
Proof. intros a b Ha Hb. exact (conj (sub_u64_wf a b Ha Hb) (sub_u64_val a b Ha Hb)). Qed.
Theorem C01_inc : forall a, wf a -> wf (tmi_inc a) /\ val (tmi_inc a) = (val a + 1) mod 2 ^ 128.
Proof. exact inc_val. Qed.
Theorem C01_dec : forall a, wf a -> wf (tmi_dec a) /\ val (tmi_dec a) = (val a + 2 ^ 128 - 1) mod 2 ^ 128.
Proof. exact dec_val. Qed.
Theorem C01_sub_undoes_add : forall a b, wf a -> wf b -> tmi_sub (tmi_add a b) b = a.
Proof. exact sub_add_id. Qed.
Example C01_case : wf tmi_max /\ val (tmi_add tmi_max (U128 5 7)) = 7 * 2 ^ 64 + 4 /\
  tmi_sub (U128 0 1) (U128 1 0) = U128 (2 ^ 64 - 1) 0.
Proof. repeat split. Qed.

(** * C02: products are exact modulo 2^128 *)
Theorem C02_mul : forall a b, wf a -> wf b ->
  wf (tmi_mul a b) /\ val (tmi_mul a b) = (val a * val b) mod 2 ^ 128.
Proof. intros a b Ha Hb. exact (conj (mul_wf a b Ha Hb) (mul_val a b Ha Hb)). Qed.
Theorem C02_mul_u64 : forall a b, wf a -> b < 2 ^ 64 ->
  wf (tmi_mul_u64 a b) /\ val (tmi_mul_u64 a b) = (val a * b) mod 2 ^ 128.
Proof. intros a b Ha Hb. exact (conj (mul_u64_wf a b Ha Hb) (mul_u64_val a b Ha Hb)). Qed.
(** The full 64x64 product is kept, no modulus involved. *)
Theorem C02_mul_low_exact : forall a b, a < 2 ^ 64 -> b < 2 ^ 64 ->
  val (tmi_mul (tmi_make_low a) (tmi_make_low b)) = a * b.
Proof. exact mul_low_exact. Qed.
Example C02_case : val (tmi_mul (U128 (2 ^ 64 - 1) 0) (U128 (2 ^ 64 - 1) 0)) = (2 ^ 64 - 1) * (2 ^ 64 - 1).
Proof. reflexivity. Qed.

(** * C03: division *)
Theorem C03_divmod : forall n d, wf n -> wf d -> val d <> 0 ->
  exists q r, tmi_divmod n d = Some (q, r) /\ wf q /\ wf r /\ val n = val q * val d + val r /\ val r < val d.
Proof. exact divmod_correct. Qed.
Theorem C03_divmod_u64 : forall n d, wf n -> d < 2 ^ 64 -> d <> 0 ->
  exists q r, tmi_divmod_u64 n d = Some (q, r) /\ wf q /\ wf r /\ val n = val q * d + val r /\ val r < d.
Proof. exact divmod_u64_correct. Qed.
Theorem C03_div_mod : forall n d, wf n -> wf d -> val d <> 0 ->
  exists q r, tmi_div n d = Some q /\ tmi_mod n d = Some r /\ val q = val n / val d /\ val r = val n mod val d.
Proof. exact div_mod_ops. Qed.
Example C03_case : val (U128 0 5) <> 0 /\
  tmi_divmod tmi_max (U128 0 5) = Some (U128 3689348814741910323 0, U128 18446744073709551615 0).
Proof. split; [discriminate|]. vm_compute. reflexivity. Qed.

(** * C04: shifts, bits, comparisons *)
Theorem C04_shl : forall v s, wf v -> s < 128 ->
  exists r, tmi_shl_u64 v s = Some r /\ wf r /\ val r = (val v * 2 ^ s) mod 2 ^ 128.
Proof. exact shl_u64_correct. Qed.
Theorem C04_shr : forall v s, wf v -> s < 128 ->
  exists r, tmi_shr_u64 v s = Some r /\ wf r /\ val r = val v / 2 ^ s.
Proof. exact shr_u64_correct. Qed.
Theorem C04_shl_wide : forall v s, wf v -> wf s -> val s < 128 ->
  exists r, tmi_shl v s = Some r /\ wf r /\ val r = (val v * 2 ^ val s) mod 2 ^ 128.
Proof. exact shl_correct. Qed.
Theorem C04_shr_wide : forall v s, wf v -> wf s -> val s < 128 ->
  exists r, tmi_shr v s = Some r /\ wf r /\ val r = val v / 2 ^ val s.
Proof. exact shr_correct. Qed.
Theorem C04_and : forall a b, wf a -> wf b -> wf (tmi_and a b) /\
  forall j, N.testbit (val (tmi_and a b)) j = N.testbit (val a) j && N.testbit (val b) j.
Proof. exact and_correct. Qed.
Theorem C04_or : forall a b, wf a -> wf b -> wf (tmi_or a b) /\
  forall j, N.testbit (val (tmi_or a b)) j = N.testbit (val a) j || N.testbit (val b) j.
Proof. exact or_correct. Qed.
Theorem C04_xor : forall a b, wf a -> wf b -> wf (tmi_xor a b) /\
  forall j, N.testbit (val (tmi_xor a b)) j = xorb (N.testbit (val a) j) (N.testbit (val b) j).
Proof. exact xor_correct. Qed.
Theorem C04_not : forall a, wf a -> wf (tmi_not a) /\
  forall j, N.testbit (val (tmi_not a)) j = (j <? 128) && negb (N.testbit (val a) j).
Proof. exact not_correct. Qed.
Theorem C04_is_bit_set : forall v p, wf v -> p < 128 -> tmi_is_bit_set v p = Some (N.testbit (val v) p).
Proof. exact is_bit_set_correct. Qed.
Theorem C04_set_bit : forall v p, wf v -> p < 128 ->
  exists r, tmi_set_bit v p = Some r /\ wf r /\
    forall j, N.testbit (val r) j = (N.eqb j p) || N.testbit (val v) j.
Proof. exact set_bit_correct. Qed.
Theorem C04_compare : forall a b, wf a -> wf b ->
  tmi_eq a b = (val a =? val b) /\ tmi_lt a b = (val a <? val b) /\ tmi_lte a b = (val a <=? val b) /\
  tmi_gt a b = (val b <? val a) /\ tmi_gte a b = (val b <=? val a) /\
  tmi_cmp a b = match val a ?= val b with Lt => (-1)%Z | Eq => 0%Z | Gt => 1%Z end.
Proof.
  intros a b Ha Hb.
  exact (conj (eq_val a b Ha Hb) (conj (lt_val a b Ha Hb) (conj (lte_val a b Ha Hb)
    (conj (gt_val a b Ha Hb) (conj (gte_val a b Ha Hb) (cmp_val a b Ha Hb)))))).
Qed.
Theorem C04_to_bytes : forall v, wf v ->
  length (tmi_to_bytes v) = 16%nat /\ Forall is_byte (tmi_to_bytes v) /\
  fold_right (fun b acc => b + 256 * acc) 0 (tmi_to_bytes v) = val v.
Proof. exact to_bytes_correct. Qed.
Example C04_case : tmi_shl_u64 (U128 0x8000000000000001 1) 65 = Some (U128 0 2) /\
  tmi_shr_u64 (U128 0x8000000000000001 3) 1 = Some (U128 0xC000000000000000 1) /\
  tmi_set_bit (U128 1 0) 100 = Some (U128 1 (2 ^ 36)) /\ tmi_lt (U128 7 1) (U128 0 2) = true.
Proof. repeat split. Qed.

(** * C05: bit scans and population count *)
Theorem C05_fls : forall v, wf v -> val v <> 0 ->
  exists k, tmi_fls v = Some k /\ highest_bit (val v) k.
Proof. exact fls_highest. Qed.
Theorem C05_ffs : forall v, wf v -> val v <> 0 ->
  exists k, tmi_ffs v = Some k /\ lowest_bit (val v) k.
Proof. exact ffs_lowest. Qed.
Theorem C05_popcount : forall v, wf v -> tmi_popcount v = count_bits 128 (val v).
Proof. exact popcount_correct. Qed.
Theorem C05_scan_of_zero_is_minus_one : forall v, wf v ->
  (val v = 0 -> tmi_fls_s v = Some (-1)%Z /\ tmi_ffs_s v = Some (-1)%Z) /\
  (val v <> 0 -> exists h l, tmi_fls_s v = Some (Z.of_N h) /\ tmi_ffs_s v = Some (Z.of_N l) /\
     highest_bit (val v) h /\ lowest_bit (val v) l).
Proof. exact scan_s_correct. Qed.
Example C05_case : tmi_fls (U128 9 (2 ^ 40 + 3)) = Some 104 /\ tmi_ffs (U128 0 (2 ^ 40 + 8)) = Some 67 /\
  tmi_popcount tmi_max = 128.
Proof. vm_compute. repeat split. Qed.

(** * C06: printing and scanning round trip *)
Theorem C06_print_is_canonical : forall buf maxlen v b lc ds, 2 <= b -> b <= 36 -> wf v ->
  (maxlen <= length buf)%nat -> canonical b (val v) ds ->
  tmi_print_u128 buf maxlen v b lc = Some
    (if (length ds <=? maxlen)%nat
     then (Conv (length ds) OK, map (digit_char lc) ds ++ skipn (length ds) buf)
     else (Conv maxlen EOVERFLOW, buf)).
Proof. exact print_u128_correct. Qed.
Theorem C06_canonical_exists_unique : forall b v, 2 <= b ->
  exists ds, canonical b v ds /\ forall ds', canonical b v ds' -> ds' = ds.
Proof. exact canonical_exists_unique. Qed.
Theorem C06_digits_count : forall v b ds, 2 <= b -> b <= 36 -> wf v -> canonical b (val v) ds ->
  tmi_get_digits_count_u128 v b = Some (length ds).
Proof. exact digits_count_length. Qed.
Theorem C06_round_trip : forall buf maxlen v b lc out rest, 2 <= b -> b <= 36 -> wf v ->
  (maxlen <= length buf)%nat -> Forall is_byte buf ->
  forall n buf', tmi_print_u128 buf maxlen v b lc = Some (Conv n OK, buf') ->
  tmi_scan_u128_n buf' n out b = Some (Conv n OK, v) /\
  tmi_scan_u128 (Some (firstn n buf' ++ 0 :: rest)) out b = Some (Conv n OK, v).
Proof. exact print_scan. Qed.
Example C06_case : tmi_print_u128 (repeat 0 8) 8 (U128 123456789 0) 36 true
   = Some (Conv 6 OK, bytes_of "21i3v9" ++ [0; 0]) /\
   tmi_print_u128 (repeat 0 8) 5 (U128 123456789 0) 36 true = Some (Conv 5 EOVERFLOW, repeat 0 8).
Proof. vm_compute. repeat split. Qed.

(** * C07: the scanner accepts exactly the representable numerals *)
Theorem C07_scan : forall s rest out b, 2 <= b -> b <= 36 -> Forall is_byte s -> ~ In 0 s ->
  exists r, tmi_scan_u128 (Some (s ++ 0 :: rest)) out b = Some r /\
    reports (scan_spec (2 ^ 128 - 1) b s) out r.
Proof. exact scan_u128_correct. Qed.
Theorem C07_scan_n : forall s len out b, 2 <= b -> b <= 36 -> Forall is_byte s -> (len <= length s)%nat ->
  exists r, tmi_scan_u128_n s len out b = Some r /\
    reports (scan_spec (2 ^ 128 - 1) b (firstn len s)) out r.
Proof. exact scan_u128_n_correct. Qed.
Theorem C07_from_string : forall s rest b, 2 <= b -> b <= 36 -> Forall is_byte s -> ~ In 0 s ->
  exists r, tmi_from_string (Some (s ++ 0 :: rest)) b = Some r /\ wf r /\
    val r = match scan_spec (2 ^ 128 - 1) b s with Number _ v => v | _ => 0 end.
Proof. exact from_string_correct. Qed.
Theorem C07_from_string_n : forall s len b, 2 <= b -> b <= 36 -> Forall is_byte s -> (len <= length s)%nat ->
  exists r, tmi_from_string_n s len b = Some r /\ wf r /\
    val r = match scan_spec (2 ^ 128 - 1) b (firstn len s) with Number _ v => v | _ => 0 end.
Proof. exact from_string_n_correct. Qed.
(** 2^128 - 1 is accepted, 2^128 is ERANGE, trailing text stops the scan. *)
Example C07_case :
  tmi_scan_u128 (Some (bytes_of "340282366920938463463374607431768211455;" ++ [0])) tmi_zero 10
    = Some (Conv 39 OK, tmi_max) /\
  tmi_scan_u128 (Some (bytes_of "340282366920938463463374607431768211456" ++ [0])) tmi_one 10
    = Some (Conv 39 ERANGE, tmi_one) /\
  tmi_scan_u128_n (bytes_of "g0") 2 tmi_one 16 = Some (Conv 0 EINVAL, tmi_one).
Proof. vm_compute. repeat split. Qed.

(** * C08: conversion to floating point. Full claim (refuted below): every rounding mode is
    correct for every value. *)
Theorem C08_to_double_nearest_refuted : exists v r, wf v /\ tmi_to_double_rm v ToNearest = Some r /\
  ~ rounded_nearest_even finite64 value64 (val v * unit64) r.
Proof. exact to_double_nearest_counterexample. Qed.
Theorem C08_to_float_nearest_refuted : exists v r, wf v /\ tmi_to_float_rm v ToNearest = Some r /\
  ~ rounded_nearest_even finite32 value32 (val v * unit32) r.
Proof. exact to_float_nearest_counterexample. Qed.
Theorem C08_to_float_up_refuted : exists v r, wf v /\ tmi_to_float_rm v Upward = Some r /\
  ~ rounded_up finite32 value32 (val v * unit32) r.
Proof. exact to_float_up_counterexample. Qed.

(** Toward zero and downward: correct for every value. *)
Theorem C08_to_double_down : forall v rm, wf v -> rm = Downward \/ rm = TowardZero ->
  exists r, tmi_to_double_rm v rm = Some r /\ rounded_down finite64 value64 (val v * unit64) r.
Proof. exact to_double_down. Qed.
Theorem C08_to_float_down : forall v rm, wf v -> rm = Downward \/ rm = TowardZero ->
  exists r, tmi_to_float_rm v rm = Some r /\ rounded_down finite32 value32 (val v * unit32) r.
Proof. exact to_float_down. Qed.
(** Nearest: correct whenever rounding does not carry out of the mantissa. *)
Theorem C08_to_double_nearest_partial : forall v, wf v ->
  (val v <> 0 -> val v * 2 ^ 53 < (2 ^ 54 - 1) * 2 ^ N.log2 (val v)) ->
  exists r, tmi_to_double_rm v ToNearest = Some r /\
    rounded_nearest_even finite64 value64 (val v * unit64) r.
Proof. exact to_double_nearest. Qed.
Theorem C08_to_float_nearest_partial : forall v, wf v ->
  (val v <> 0 -> val v * 2 ^ 24 < (2 ^ 25 - 1) * 2 ^ N.log2 (val v)) ->
  exists r, tmi_to_float_rm v ToNearest = Some r /\
    rounded_nearest_even finite32 value32 (val v * unit32) r.
Proof. exact to_float_nearest. Qed.
(** ... and in the remaining cases the result is half of the right one. *)
Theorem C08_to_double_nearest_carry : forall v, wf v -> val v <> 0 ->
  (2 ^ 54 - 1) * 2 ^ N.log2 (val v) <= val v * 2 ^ 53 ->
  exists r, tmi_to_double_rm v ToNearest = Some r /\ value64 r = 2 ^ N.log2 (val v) * unit64.
Proof. exact to_double_nearest_carry. Qed.
Theorem C08_to_float_nearest_carry : forall v, wf v -> val v <> 0 ->
  (2 ^ 25 - 1) * 2 ^ N.log2 (val v) <= val v * 2 ^ 24 ->
  exists r, tmi_to_float_rm v ToNearest = Some r /\ value32 r = 2 ^ N.log2 (val v) * unit32.
Proof. exact to_float_nearest_carry. Qed.
(** Upward. *)
Theorem C08_to_double_up_partial : forall v, wf v -> val v * 2 ^ 52 <= (2 ^ 53 - 1) * 2 ^ N.log2 (val v) ->
  exists r, tmi_to_double_rm v Upward = Some r /\ rounded_up finite64 value64 (val v * unit64) r.
Proof. exact to_double_up. Qed.
Theorem C08_to_float_up_partial : forall v, wf v -> val v * 2 ^ 23 <= (2 ^ 24 - 1) * 2 ^ N.log2 (val v) ->
  (forall T, 2 ^ 23 <= T -> N.odd T = true -> val v * 2 ^ 23 <> T * 2 ^ N.log2 (val v)) ->
  exists r, tmi_to_float_rm v Upward = Some r /\ rounded_up finite32 value32 (val v * unit32) r.
Proof. exact to_float_up. Qed.
(** 2^80 + 1 satisfies the hypotheses of the nearest and upward theorems; 2^54 - 1 the carry one. *)
Example C08_case : let v := U128 1 (2 ^ 16) in wf v /\
  val v * 2 ^ 53 < (2 ^ 54 - 1) * 2 ^ N.log2 (val v) /\
  tmi_to_double_rm v ToNearest = Some ((1023 + 80) * 2 ^ 52) /\
  tmi_to_double_rm v Upward = Some ((1023 + 80) * 2 ^ 52 + 1) /\
  (2 ^ 54 - 1) * 2 ^ N.log2 (val (U128 (2 ^ 54 - 1) 0)) <= val (U128 (2 ^ 54 - 1) 0) * 2 ^ 53.
Proof. vm_compute. repeat split; discriminate. Qed.

(** * C09: conversion from floating point. Full claim (refuted below): integer part of finite
    non-negative numbers below 2^128, two's complement of the integer part for negative ones, the
    _s variants accept exactly these. *)
Theorem C09_from_double : forall b, finite64 b -> value64 b < 2 ^ 128 * unit64 ->
  exists r, tmi_from_double b = Some r /\ wf r /\ val r = value64 b / unit64.
Proof. exact from_double_nonneg. Qed.
Theorem C09_from_float : forall b, finite32 b -> value32 b < 2 ^ 128 * unit32 ->
  exists r, tmi_from_float b = Some r /\ wf r /\ val r = value32 b / unit32.
Proof. exact from_float_nonneg. Qed.
(** Every finite non-negative float is below 2^128, so C09_from_float covers all of them. *)
Theorem C09_float_always_fits : forall b, finite32 b -> value32 b < 2 ^ 128 * unit32.
Proof. exact finite32_fits. Qed.
Theorem C09_from_double_negative_partial : forall b, finite64 b -> unit64 <= value64 b -> value64 b < 2 ^ 128 * unit64 ->
  exists r, tmi_from_double (2 ^ 63 + b) = Some r /\ wf r /\ val r = 2 ^ 128 - 1 - value64 b / unit64.
Proof. exact from_double_neg. Qed.
Theorem C09_from_double_negative_small : forall b, finite64 b -> value64 b < unit64 ->
  tmi_from_double (2 ^ 63 + b) = Some tmi_zero.
Proof. exact from_double_neg_small. Qed.
(** The double -1.0 gives 2^128-2 instead of 2^128-1. *)
Theorem C09_from_double_negative_refuted : exists b r, finite64 b /\ value64 b = unit64 /\
  tmi_from_double (2 ^ 63 + b) = Some r /\ val r <> 2 ^ 128 - value64 b / unit64.
Proof. exact from_double_neg_counterexample. Qed.
(** The float -1.0f shifts by more than 127 bits, which the code asserts against. *)
Theorem C09_from_float_negative_refuted : exists b, finite32 b /\ value32 b = unit32 /\
  tmi_from_float (2 ^ 31 + b) = None.
Proof. exact from_float_neg_counterexample. Qed.
(** The checked variant accepts 2^128, which is not representable. *)
Theorem C09_from_double_s_refuted : exists b out r, finite64 b /\ 2 ^ 128 * unit64 <= value64 b /\
  tmi_from_double_s b out = Some (true, r).
Proof. exact from_double_s_counterexample. Qed.
Example C09_case : finite64 0x4059000000000000 /\ value64 0x4059000000000000 = 100 * unit64 /\
  tmi_from_double 0x4059000000000000 = Some (U128 100 0) /\
  tmi_from_float 0x7F7FFFFF = Some (U128 0 0xFFFFFF0000000000).
Proof. split; [reflexivity|]. vm_compute. repeat split. Qed.

Print Assumptions C01_add.
Print Assumptions C01_sub.
Print Assumptions C01_add_u64.
Print Assumptions C01_sub_u64.
Print Assumptions C01_inc.
Print Assumptions C01_dec.
Print Assumptions C01_sub_undoes_add.
Print Assumptions C02_mul.
Print Assumptions C02_mul_u64.
Print Assumptions C02_mul_low_exact.
Print Assumptions C03_divmod.
Print Assumptions C03_divmod_u64.
Print Assumptions C03_div_mod.
Print Assumptions C04_shl.
Print Assumptions C04_shr.
Print Assumptions C04_shl_wide.
Print Assumptions C04_shr_wide.
Print Assumptions C04_and.
Print Assumptions C04_or.
Print Assumptions C04_xor.
Print Assumptions C04_not.
Print Assumptions C04_is_bit_set.
Print Assumptions C04_set_bit.
Print Assumptions C04_compare.
Print Assumptions C04_to_bytes.
Print Assumptions C05_fls.
Print Assumptions C05_ffs.
Print Assumptions C05_popcount.
Print Assumptions C05_scan_of_zero_is_minus_one.
Print Assumptions C06_print_is_canonical.
Print Assumptions C06_canonical_exists_unique.
Print Assumptions C06_digits_count.
Print Assumptions C06_round_trip.
Print Assumptions C07_scan.
Print Assumptions C07_scan_n.
Print Assumptions C07_from_string.
Print Assumptions C07_from_string_n.
Print Assumptions C08_to_double_nearest_refuted.
Print Assumptions C08_to_float_nearest_refuted.
Print Assumptions C08_to_float_up_refuted.
Print Assumptions C08_to_double_down.
Print Assumptions C08_to_float_down.
Print Assumptions C08_to_double_nearest_partial.
Print Assumptions C08_to_float_nearest_partial.
Print Assumptions C08_to_double_nearest_carry.
Print Assumptions C08_to_float_nearest_carry.
Print Assumptions C08_to_double_up_partial.
Print Assumptions C08_to_float_up_partial.
Print Assumptions C09_from_double.
Print Assumptions C09_from_float.
Print Assumptions C09_float_always_fits.
Print Assumptions C09_from_double_negative_partial.
Print Assumptions C09_from_double_negative_small.
Print Assumptions C09_from_double_negative_refuted.
Print Assumptions C09_from_float_negative_refuted.
Print Assumptions C09_from_double_s_refuted.
