(** C40-C44, C85-C87: integers and booleans of tm_conversion.h. *)
From Coq Require Import Arith NArith ZArith String List Bool Lia.
From Coq Require Import ZifyBool ZifyNat ZifyN.
From Verif Require Import Base CTypeModel U128Text DigitsSpec DigitsProofs U128RoundTrip ConvModel ConvSpec ConvScan ConvPrint ConvBool ConvRound ConvWidth.
Import ListNotations.
Local Open Scope N_scope.

(** ** C40 *)
Theorem C40_unsigned_scan : forall s rest out b, 2 <= b -> b <= 36 -> Forall is_byte s -> ~ In 0 s ->
  scan_u32 (Some (s ++ 0 :: rest)) out b = Some (report_unsigned (scan_spec (2 ^ 32 - 1) b s) out) /\
  scan_u64 (Some (s ++ 0 :: rest)) out b = Some (report_unsigned (scan_spec (2 ^ 64 - 1) b s) out).
Proof. intros s rest out b H1 H2 F Z0. split; now apply scan_unsigned_correct. Qed.
Example C40_unsigned_scan_ex :
  scan_u32 (Some (bytes_of "4294967295;" ++ [0])) (Some 7) 10 = Some (Conv 10 OK, Some 4294967295) /\
  scan_u32 (Some (bytes_of "4294967296;" ++ [0])) (Some 7) 10 = Some (Conv 10 ERANGE, Some 7) /\
  scan_u64 (Some (bytes_of "+1" ++ [0])) (Some 7) 10 = Some (Conv 0 EINVAL, Some 7).
Proof. vm_compute. auto. Qed.

Theorem C40_unsigned_scan_n : forall mem len out b, 2 <= b -> b <= 36 -> Forall is_byte mem -> (len <= length mem)%nat ->
  scan_u32_n mem len out b = Some (report_unsigned (scan_spec (2 ^ 32 - 1) b (firstn len mem)) out) /\
  scan_u64_n mem len out b = Some (report_unsigned (scan_spec (2 ^ 64 - 1) b (firstn len mem)) out).
Proof. intros mem len out b H1 H2 F L. split; now apply scan_unsigned_n_correct. Qed.
Example C40_unsigned_scan_n_ex :
  scan_u64_n (bytes_of "zZ9") 2 (Some 7) 36 = Some (Conv 2 OK, Some (35 * 36 + 35)) /\
  scan_u64_n (bytes_of "zZ9") 0 (Some 7) 36 = Some (Conv 0 EINVAL, Some 7).
Proof. vm_compute. auto. Qed.

(** The smallest number of a type is a numeral that fits, and scanning it is undefined. *)
Theorem C40_refuted :
  scan_signed_spec (-2 ^ 31) (2 ^ 31 - 1) 10 (bytes_of "-2147483648") = Integer 11 (-2 ^ 31) /\
  scan_i32 (Some (bytes_of "-2147483648" ++ [0])) (Some 0%Z) 10 = None /\
  scan_i32_n (bytes_of "-2147483648") 11 (Some 0%Z) 10 = None /\
  scan_signed_spec (-2 ^ 63) (2 ^ 63 - 1) 10 (bytes_of "-9223372036854775808") = Integer 20 (-2 ^ 63) /\
  scan_i64 (Some (bytes_of "-9223372036854775808" ++ [0])) (Some 0%Z) 10 = None /\
  scan_i64_n (bytes_of "-9223372036854775808") 20 (Some 0%Z) 10 = None.
Proof. vm_compute. repeat split. Qed.

(** Everything else is as documented. Missing: storing the smallest number. *)
Definition not_minimum (o : signed_outcome) (minimum : Z) (out : option Z) : Prop :=
  out <> None -> forall n, o <> Integer n minimum.
Lemma not_minimum_stores : forall W o out, not_minimum o (- Z.of_N (W / 2)) out -> stores_minimum W o out = false.
Proof.
  intros W o out H. unfold stores_minimum. destruct o as [| |n v]; try reflexivity.
  destruct out as [x|]; [|reflexivity]. apply Z.eqb_neq. intros ->. now apply (H ltac:(discriminate) n).
Qed.

Theorem C40_signed_scan_partial : forall s rest out b, 2 <= b -> b <= 36 -> Forall is_byte s -> ~ In 0 s ->
  (let o := scan_signed_spec (-2 ^ 31) (2 ^ 31 - 1) b s in not_minimum o (-2 ^ 31) out ->
    scan_i32 (Some (s ++ 0 :: rest)) out b = Some (report_signed o out)) /\
  (let o := scan_signed_spec (-2 ^ 63) (2 ^ 63 - 1) b s in not_minimum o (-2 ^ 63) out ->
    scan_i64 (Some (s ++ 0 :: rest)) out b = Some (report_signed o out)).
Proof.
  intros s rest out b H1 H2 F Z0. split; intros o M; unfold o in *.
  - pose proof (not_minimum_stores W32 _ out M) as E. unfold scan_i32.
    rewrite (scan_signed_correct W32 eq_refl ltac:(lia)) by assumption.
    change (- Z.of_N (W32 / 2))%Z with (-2 ^ 31)%Z. change (Z.of_N (W32 / 2) - 1)%Z with (2 ^ 31 - 1)%Z.
    rewrite E. reflexivity.
  - pose proof (not_minimum_stores W64 _ out M) as E. unfold scan_i64.
    rewrite (scan_signed_correct W64 eq_refl ltac:(lia)) by assumption.
    change (- Z.of_N (W64 / 2))%Z with (-2 ^ 63)%Z. change (Z.of_N (W64 / 2) - 1)%Z with (2 ^ 63 - 1)%Z.
    rewrite E. reflexivity.
Qed.
Example C40_signed_scan_partial_ex :
  scan_i32 (Some (bytes_of "-2147483647 " ++ [0])) (Some 7%Z) 10 = Some (Conv 11 OK, Some (-2147483647)%Z) /\
  scan_i32 (Some (bytes_of "2147483648" ++ [0])) (Some 7%Z) 10 = Some (Conv 10 ERANGE, Some 7%Z) /\
  scan_i32 (Some (bytes_of "-" ++ [0])) (Some 7%Z) 10 = Some (Conv 0 EINVAL, Some 7%Z) /\
  not_minimum (scan_signed_spec (-2 ^ 31) (2 ^ 31 - 1) 10 (bytes_of "-2147483647 ")) (-2 ^ 31) (Some 7%Z).
Proof. repeat split; try (vm_compute; reflexivity). intros _ n H. vm_compute in H. discriminate. Qed.

Theorem C40_signed_scan_n_partial : forall mem len out b, 2 <= b -> b <= 36 -> Forall is_byte mem -> (len <= length mem)%nat ->
  (let o := scan_signed_spec (-2 ^ 31) (2 ^ 31 - 1) b (firstn len mem) in not_minimum o (-2 ^ 31) out ->
    scan_i32_n mem len out b = Some (report_signed o out)) /\
  (let o := scan_signed_spec (-2 ^ 63) (2 ^ 63 - 1) b (firstn len mem) in not_minimum o (-2 ^ 63) out ->
    scan_i64_n mem len out b = Some (report_signed o out)).
Proof.
  intros mem len out b H1 H2 F L. split; intros o M; unfold o in *.
  - pose proof (not_minimum_stores W32 _ out M) as E. unfold scan_i32_n.
    rewrite (scan_signed_n_correct W32 eq_refl ltac:(lia)) by assumption.
    change (- Z.of_N (W32 / 2))%Z with (-2 ^ 31)%Z. change (Z.of_N (W32 / 2) - 1)%Z with (2 ^ 31 - 1)%Z.
    rewrite E. reflexivity.
  - pose proof (not_minimum_stores W64 _ out M) as E. unfold scan_i64_n.
    rewrite (scan_signed_n_correct W64 eq_refl ltac:(lia)) by assumption.
    change (- Z.of_N (W64 / 2))%Z with (-2 ^ 63)%Z. change (Z.of_N (W64 / 2) - 1)%Z with (2 ^ 63 - 1)%Z.
    rewrite E. reflexivity.
Qed.
Example C40_signed_scan_n_partial_ex :
  scan_i64_n (bytes_of "-7f") 3 (Some 7%Z) 16 = Some (Conv 3 OK, Some (-127)%Z) /\
  scan_i64_n (bytes_of "-7f") 1 (Some 7%Z) 16 = Some (Conv 0 EINVAL, Some 7%Z) /\
  scan_i64_n (bytes_of "-9223372036854775809") 20 None 10 = Some (Conv 20 ERANGE, None).
Proof. vm_compute. auto. Qed.

(** ** C42: what the printing functions report, whether or not assertions or the width checks are
    compiled in. *)
Definition unsigned_print_ok (W : N) (print : list N -> nat -> N -> option (conv * list N)) (lc : bool) (b : N) : Prop :=
  forall buf maxlen v ds, v < W -> (maxlen <= length buf)%nat -> canonical b v ds ->
    exists r, print buf maxlen v = Some r /\ report_print (map (digit_char lc) ds) buf maxlen r.
Definition signed_print_ok (W : N) (print : list N -> nat -> Z -> option (conv * list N)) (lc : bool) (b : N) : Prop :=
  forall buf maxlen z text, (- Z.of_N (W / 2) <= z < Z.of_N (W / 2))%Z -> (maxlen <= length buf)%nat ->
    integer_text lc b z text ->
    exists r, print buf maxlen z = Some r /\ report_print text buf maxlen r.

Lemma counts32 : counts_decimal W32 get_digits_count_decimal_u32.
Proof. apply counts_decimal_intro, decimal_count_u32. Qed.
Lemma counts64 : counts_decimal W64 get_digits_count_decimal_u64.
Proof. apply counts_decimal_intro, decimal_count_u64. Qed.

Theorem C42_unsigned_print : forall dbg cw lc b, 2 <= b -> b <= 36 ->
  unsigned_print_ok (2 ^ 32) (fun buf m v => print_u32 dbg cw buf m v b lc) lc b /\
  unsigned_print_ok (2 ^ 64) (fun buf m v => print_u64 dbg cw buf m v b lc) lc b /\
  unsigned_print_ok (2 ^ 32) (print_decimal_u32 dbg cw) lc 10 /\
  unsigned_print_ok (2 ^ 64) (print_decimal_u64 dbg cw) lc 10 /\
  unsigned_print_ok (2 ^ 64) (fun buf m v => print_hex_u dbg cw buf m v lc) lc 16.
Proof.
  intros dbg cw lc b H1 H2. repeat apply conj; intros buf maxlen v ds Hv L C;
    (eexists; split; [|apply printed_report]).
  - apply (print_unsigned_correct dbg cw W32 _ lc b); try assumption; [exact counts32|lia].
  - apply (print_unsigned_correct dbg cw W64 _ lc b); try assumption; [exact counts64|lia].
  - apply (print_decimal_u_correct dbg cw W32 _ lc); try assumption. exact counts32.
  - apply (print_decimal_u_correct dbg cw W64 _ lc); try assumption. exact counts64.
  - apply print_hex_u_correct; assumption.
Qed.
Example C42_unsigned_print_ex :
  print_u32 true false (repeat 7 6) 5 35 36 true = Some (Conv 1 OK, bytes_of "z" ++ repeat 7 5) /\
  print_u32 true true (repeat 7 6) 5 123456 10 true = Some (Conv 5 EOVERFLOW, repeat 7 6) /\
  print_decimal_u64 true false (repeat 7 20) 20 18446744073709551615 = Some (Conv 20 OK, bytes_of "18446744073709551615").
Proof. vm_compute. auto. Qed.

Theorem C42_signed_print : forall dbg cw lc b, 2 <= b -> b <= 36 ->
  signed_print_ok (2 ^ 32) (fun buf m v => print_i32 dbg cw buf m v b lc) lc b /\
  signed_print_ok (2 ^ 64) (fun buf m v => print_i64 dbg cw buf m v b lc) lc b /\
  signed_print_ok (2 ^ 32) (print_decimal_i32 dbg cw) lc 10 /\
  signed_print_ok (2 ^ 64) (print_decimal_i64 dbg cw) lc 10 /\
  signed_print_ok (2 ^ 32) (fun buf m v => print_hex_i32 dbg cw buf m v lc) lc 16 /\
  signed_print_ok (2 ^ 64) (fun buf m v => print_hex_i64 dbg cw buf m v lc) lc 16.
Proof.
  intros dbg cw lc b H1 H2.
  assert (B : ((2 <=? b) && (b <=? 36)) = true) by (apply andb_true_iff; split; apply N.leb_le; lia).
  repeat apply conj; intros buf maxlen z text Hz L T.
  - unfold print_i32. rewrite tm_assert_true by assumption.
    apply (print_sign_correct dbg cw W32 lc b); try assumption; [reflexivity|lia|]. intros b0 m v ds Hv C Lb.
    apply (print_unsigned_correct dbg cw W32 _ lc b); try assumption; [exact counts32|lia].
  - unfold print_i64. rewrite tm_assert_true by assumption.
    apply (print_sign_correct dbg cw W64 lc b); try assumption; [reflexivity|lia|]. intros b0 m v ds Hv C Lb.
    apply (print_unsigned_correct dbg cw W64 _ lc b); try assumption; [exact counts64|lia].
  - apply (print_sign_correct dbg cw W32 lc 10); try assumption; [reflexivity|lia|]. intros b0 m v ds Hv C Lb.
    apply (print_decimal_u_correct dbg cw W32 _ lc); try assumption. exact counts32.
  - apply (print_sign_correct dbg cw W64 lc 10); try assumption; [reflexivity|lia|]. intros b0 m v ds Hv C Lb.
    apply (print_decimal_u_correct dbg cw W64 _ lc); try assumption. exact counts64.
  - apply (print_sign_correct dbg cw W32 lc 16); try assumption; [reflexivity|lia|]. intros b0 m v ds Hv C Lb.
    apply print_hex_u_correct; try assumption. lia.
  - apply (print_sign_correct dbg cw W64 lc 16); try assumption; [reflexivity|lia|]. intros b0 m v ds Hv C Lb.
    apply print_hex_u_correct; assumption.
Qed.
Example C42_signed_print_ex :
  print_decimal_i32 true false (repeat 7 12) 11 (-2147483648) = Some (Conv 11 OK, bytes_of "-2147483648" ++ [7]) /\
  print_decimal_i32 true false (repeat 7 12) 10 (-2147483648) = Some (Conv 10 EOVERFLOW, bytes_of "-" ++ repeat 7 11) /\
  print_hex_i64 true true (repeat 7 3) 3 (-255) false = Some (Conv 3 OK, bytes_of "-FF").
Proof. vm_compute. auto. Qed.

(** ** C41 *)
Theorem C41_unsigned_round_trip : forall dbg cw lc b buf maxlen v out rest n buf', 2 <= b -> b <= 36 ->
  (maxlen <= length buf)%nat -> Forall is_byte buf ->
  (v < 2 ^ 32 -> print_u32 dbg cw buf maxlen v b lc = Some (Conv n OK, buf') ->
    (exists ds, canonical b v ds /\ firstn n buf' = map (digit_char lc) ds) /\
    scan_u32_n buf' n (Some out) b = Some (Conv n OK, Some v) /\
    scan_u32 (Some (firstn n buf' ++ 0 :: rest)) (Some out) b = Some (Conv n OK, Some v)) /\
  (v < 2 ^ 64 -> print_u64 dbg cw buf maxlen v b lc = Some (Conv n OK, buf') ->
    (exists ds, canonical b v ds /\ firstn n buf' = map (digit_char lc) ds) /\
    scan_u64_n buf' n (Some out) b = Some (Conv n OK, Some v) /\
    scan_u64 (Some (firstn n buf' ++ 0 :: rest)) (Some out) b = Some (Conv n OK, Some v)).
Proof.
  intros dbg cw lc b buf maxlen v out rest n buf' H1 H2 L F.
  destruct (canonical_exists b v H1) as (ds & C).
  destruct (C42_unsigned_print dbg cw lc b H1 H2) as (P32 & P64 & _).
  assert (T : report_print (map (digit_char lc) ds) buf maxlen (Conv n OK, buf') ->
    firstn n buf' = map (digit_char lc) ds).
  { intros R. apply report_ok in R as (-> & -> & _). apply firstn_app_exact. }
  split; intros Hv E; [destruct (P32 buf maxlen v ds Hv L C) as (r & Er & R)|destruct (P64 buf maxlen v ds Hv L C) as (r & Er & R)];
    cbv beta in Er; rewrite E in Er; assert (r = (Conv n OK, buf')) as -> by congruence;
    (split; [exists ds; auto|]).
  - now apply (unsigned_round_trip W32 lc b v ds buf maxlen).
  - now apply (unsigned_round_trip W64 lc b v ds buf maxlen).
Qed.
Example C41_unsigned_round_trip_ex :
  print_u32 true false (repeat 7 32) 32 4294967295 2 false = Some (Conv 32 OK, repeat 49 32) /\
  scan_u32_n (repeat 49 32) 32 (Some 0) 2 = Some (Conv 32 OK, Some 4294967295).
Proof. vm_compute. auto. Qed.

(** Printing the smallest number works, reading it back is undefined. *)
Theorem C41_refuted :
  (print_i32 true false (repeat 7 12) 12 (-2 ^ 31) 10 false = Some (Conv 11 OK, bytes_of "-2147483648" ++ [7]) /\
   scan_i32_n (bytes_of "-2147483648" ++ [7]) 11 (Some 0%Z) 10 = None) /\
  (print_i64 true false (repeat 7 17) 17 (-2 ^ 63) 16 false = Some (Conv 17 OK, bytes_of "-8000000000000000") /\
   scan_i64_n (bytes_of "-8000000000000000") 17 (Some 0%Z) 16 = None).
Proof. vm_compute. repeat split. Qed.

(** Missing: reading back the smallest number. *)
Theorem C41_signed_round_trip_partial : forall dbg cw lc b buf maxlen z out rest n buf', 2 <= b -> b <= 36 ->
  (maxlen <= length buf)%nat -> Forall is_byte buf ->
  ((-2 ^ 31 < z < 2 ^ 31)%Z -> print_i32 dbg cw buf maxlen z b lc = Some (Conv n OK, buf') ->
    integer_text lc b z (firstn n buf') /\
    scan_i32_n buf' n (Some out) b = Some (Conv n OK, Some z) /\
    scan_i32 (Some (firstn n buf' ++ 0 :: rest)) (Some out) b = Some (Conv n OK, Some z)) /\
  ((-2 ^ 63 < z < 2 ^ 63)%Z -> print_i64 dbg cw buf maxlen z b lc = Some (Conv n OK, buf') ->
    integer_text lc b z (firstn n buf') /\
    scan_i64_n buf' n (Some out) b = Some (Conv n OK, Some z) /\
    scan_i64 (Some (firstn n buf' ++ 0 :: rest)) (Some out) b = Some (Conv n OK, Some z)).
Proof.
  intros dbg cw lc b buf maxlen z out rest n buf' H1 H2 L F.
  destruct (canonical_exists b (Z.to_N (Z.abs z)) H1) as (ds & C).
  set (text := (if (z <? 0)%Z then bytes_of "-" else []) ++ map (digit_char lc) ds).
  assert (T : integer_text lc b z text) by (exists ds; auto).
  destruct (C42_signed_print dbg cw lc b H1 H2) as (P32 & P64 & _).
  assert (Tn : report_print text buf maxlen (Conv n OK, buf') -> integer_text lc b z (firstn n buf')).
  { intros R. apply report_ok in R as (-> & -> & _). rewrite firstn_app_exact. exact T. }
  split; intros Hz E; [destruct (P32 buf maxlen z text ltac:(change (2 ^ 32 / 2) with (2 ^ 31); lia) L T) as (r & Er & R)
    |destruct (P64 buf maxlen z text ltac:(change (2 ^ 64 / 2) with (2 ^ 63); lia) L T) as (r & Er & R)];
    cbv beta in Er; rewrite E in Er; assert (r = (Conv n OK, buf')) as -> by congruence;
    (split; [auto|]).
  - apply (signed_round_trip W32 eq_refl ltac:(lia) lc b z text buf maxlen); try assumption.
  - apply (signed_round_trip W64 eq_refl ltac:(lia) lc b z text buf maxlen); try assumption.
Qed.
Example C41_signed_round_trip_partial_ex :
  print_i32 true false (repeat 7 12) 12 (-2147483647) 10 false = Some (Conv 11 OK, bytes_of "-2147483647" ++ [7]) /\
  scan_i32_n (bytes_of "-2147483647" ++ [7]) 11 (Some 0%Z) 10 = Some (Conv 11 OK, Some (-2147483647)%Z).
Proof. vm_compute. auto. Qed.

(** The decimal and hexadecimal functions print what the general ones print, and so are read back
    the same way. *)
Theorem C41_decimal_hex_agree : forall dbg cw lc buf maxlen z v text, (maxlen <= length buf)%nat ->
  (length text <= maxlen)%nat ->
  ((-2 ^ 31 <= z < 2 ^ 31)%Z -> integer_text lc 10 z text ->
     print_decimal_i32 dbg cw buf maxlen z = print_i32 dbg cw buf maxlen z 10 lc) /\
  ((-2 ^ 63 <= z < 2 ^ 63)%Z -> integer_text lc 10 z text ->
     print_decimal_i64 dbg cw buf maxlen z = print_i64 dbg cw buf maxlen z 10 lc) /\
  ((-2 ^ 31 <= z < 2 ^ 31)%Z -> integer_text lc 16 z text ->
     print_hex_i32 dbg cw buf maxlen z lc = print_i32 dbg cw buf maxlen z 16 lc) /\
  ((-2 ^ 63 <= z < 2 ^ 63)%Z -> integer_text lc 16 z text ->
     print_hex_i64 dbg cw buf maxlen z lc = print_i64 dbg cw buf maxlen z 16 lc) /\
  (v < 2 ^ 32 -> print_decimal_u32 dbg cw buf maxlen v = print_u32 dbg cw buf maxlen v 10 lc) /\
  (v < 2 ^ 64 -> print_decimal_u64 dbg cw buf maxlen v = print_u64 dbg cw buf maxlen v 10 lc) /\
  (v < 2 ^ 64 -> print_hex_u dbg cw buf maxlen v lc = print_u64 dbg cw buf maxlen v 16 lc).
Proof.
  intros dbg cw lc buf maxlen z v text L Lt.
  destruct (C42_signed_print dbg cw lc 10 ltac:(lia) ltac:(lia)) as (A1 & A2 & A3 & A4 & _).
  destruct (C42_signed_print dbg cw lc 16 ltac:(lia) ltac:(lia)) as (B1 & B2 & _ & _ & B3 & B4).
  assert (U : forall r r', report_print text buf maxlen r -> report_print text buf maxlen r' -> r = r').
  { intros r r'. unfold report_print. destruct (Nat.leb_spec (length text) maxlen); [congruence|lia]. }
  assert (P : forall W p p' b, signed_print_ok W p lc b -> signed_print_ok W p' lc b ->
    (- Z.of_N (W / 2) <= z < Z.of_N (W / 2))%Z -> integer_text lc b z text -> p buf maxlen z = p' buf maxlen z).
  { intros W p p' b Hp Hp' Hz T. destruct (Hp buf maxlen z text Hz L T) as (r & E & R).
    destruct (Hp' buf maxlen z text Hz L T) as (r' & E' & R'). rewrite E, E'. f_equal. auto. }
  repeat apply conj.
  - intros Hz T. apply (P (2 ^ 32) _ _ 10 A3 A1); assumption.
  - intros Hz T. apply (P (2 ^ 64) _ _ 10 A4 A2); assumption.
  - intros Hz T. apply (P (2 ^ 32) _ _ 16 B3 B1); assumption.
  - intros Hz T. apply (P (2 ^ 64) _ _ 16 B4 B2); assumption.
  - intros Hv. unfold print_decimal_u32, print_u32, print_unsigned, tm_assert, assert_. destruct dbg; reflexivity.
  - intros Hv. unfold print_decimal_u64, print_u64, print_unsigned, tm_assert, assert_. destruct dbg; reflexivity.
  - intros Hv. unfold print_decimal_u64, print_u64, print_unsigned, tm_assert, assert_. destruct dbg; reflexivity.
Qed.
Example C41_decimal_hex_agree_ex :
  print_hex_i32 true false (repeat 7 4) 4 (-171) true = Some (Conv 3 OK, bytes_of "-ab" ++ [7]) /\
  print_i32 true false (repeat 7 4) 4 (-171) 16 true = Some (Conv 3 OK, bytes_of "-ab" ++ [7]).
Proof. vm_compute. auto. Qed.

(** ** C43 *)
Theorem C43_digit_counts : forall v b ds, 2 <= b -> b <= 36 -> canonical b v ds ->
  (b = 10 -> v < 2 ^ 32 -> get_digits_count_decimal_u32 v = Some (length ds)) /\
  (b = 10 -> v < 2 ^ 64 -> get_digits_count_decimal_u64 v = Some (length ds)) /\
  (b = 16 -> v < 2 ^ 64 -> get_digits_count_hex v = Some (length ds)) /\
  (v < 2 ^ 64 -> get_digits_count v b = Some (length ds)).
Proof.
  intros v b ds H1 H2 C.
  assert (G : forall o, (exists k, o = Some k /\ is_digit_count b v k) -> o = Some (length ds)).
  { intros o (k & -> & K). f_equal. eapply digit_count_unique; [|exact K|]; [lia|]. now apply canonical_count. }
  repeat apply conj.
  - intros -> Hv. apply G, decimal_count_u32, Hv.
  - intros -> Hv. apply G, decimal_count_u64, Hv.
  - intros -> Hv. apply G, hex_count_correct, Hv.
  - intros Hv. apply G, get_digits_count_correct; assumption.
Qed.
Example C43_digit_counts_ex :
  canonical 10 1000000000000 [1;0;0;0;0;0;0;0;0;0;0;0;0] /\
  get_digits_count_decimal_u64 1000000000000 = Some 13%nat /\ get_digits_count_decimal_u64 18446744073709551615 = Some 20%nat /\
  get_digits_count_hex 0 = Some 1%nat /\ get_digits_count 18446744073709551615 2 = Some 64%nat.
Proof. split; [repeat split; [repeat constructor; lia|discriminate|discriminate]|vm_compute; auto]. Qed.

(** ** C44 *)
(** A misspelt last letter is accepted; a single letter is accepted and four characters reported
    for it; the text behind the end is read. *)
Theorem C44_refuted :
  (scan_bool (Some (bytes_of "trux" ++ [0])) (Some false) = Some (Conv 4 OK, Some true) /\
   forall rest, ~ exists t, bytes_of "trux" ++ rest = t /\ exists a c v, t = a ++ c /\ bool_spelling a v) /\
  scan_bool_n (bytes_of "x" ++ [0]) 1 (Some false) = Some (Conv 4 OK, Some true) /\
  scan_bool_n_with posix_strnicmp (bytes_of "t") 1 (Some false) = Some (Conv 4 OK, Some true) /\
  scan_bool_n (bytes_of "true") 4 (Some false) = None.
Proof.
  split; [split|split; [|split]]; try (vm_compute; reflexivity).
  intros rest (t & <- & a & c & v & E & B).
  assert (Len : forall w, same_ignoring_case a w -> length a = length w).
  { intros w Hw. unfold same_ignoring_case in Hw. apply (f_equal (@length N)) in Hw. now rewrite !map_length in Hw. }
  change (bytes_of "trux") with [116; 114; 117; 120] in E.
  destruct v; cbn [bool_spelling] in B; destruct B as [->|B]; try discriminate E.
  - pose proof (Len _ B) as La. cbn in La. destruct a as [|a1 [|a2 [|a3 [|a4 [|]]]]]; try discriminate La.
    cbn [app] in E. assert (a4 = 120) by congruence. subst a4.
    unfold same_ignoring_case in B. apply (f_equal (fun l => nth 3 l 0)) in B. vm_compute in B. discriminate B.
  - destruct a as [|a1 a]; [discriminate B|]. cbn [app] in E. assert (a1 = 116) by congruence. subst a1.
    apply (f_equal (hd 0)) in B. vm_compute in B. discriminate B.
Qed.

(** Every documented spelling is accepted, whatever follows. Missing: nothing else is. *)
Theorem C44_accepts_partial : forall text v more rest out, bool_spelling text v -> ~ In 0 text -> ~ In 0 more ->
  scan_bool (Some (text ++ more ++ 0 :: rest)) out = Some (Conv (length text) OK, option_map (fun _ => v) out).
Proof.
  intros text v more rest out B Z1 Z2. rewrite app_assoc, scan_bool_default.
  - now rewrite (bool_outcome_default_accepts text more v out B).
  - intros X. apply in_app_iff in X as [X|X]; auto.
Qed.
Example C44_accepts_partial_ex :
  bool_spelling (bytes_of "FaLsE") false /\
  scan_bool (Some (bytes_of "FaLsE" ++ bytes_of "hood" ++ [0])) (Some true) = Some (Conv 5 OK, Some false).
Proof. split; [right|]; vm_compute; reflexivity. Qed.

(** What is accepted: the last letter of "true" and "false" may be any character. *)
Definition almost (s w : list N) : Prop :=
  exists a x rest, s = a ++ x :: rest /\ same_ignoring_case a (removelast w).
Lemma loosely_iff : forall w s, w <> [] -> (loosely s w = true <-> almost s w).
Proof.
  induction w as [|c w IH]; intros s Hw; [contradiction|]. destruct w as [|c2 w].
  - destruct s as [|x s]; cbn [loosely].
    + split; [discriminate|]. intros (a & x & rest & E & _). destruct a; discriminate.
    + split; [|reflexivity]. intros _. exists [], x, s. split; reflexivity.
  - destruct s as [|x s].
    + split; [discriminate|]. intros (a & y & rest & E & _). destruct a; discriminate.
    + change (loosely (x :: s) (c :: c2 :: w)) with ((lower x =? lower c) && loosely s (c2 :: w)).
      change (removelast (c :: c2 :: w)) with (c :: removelast (c2 :: w)).
      rewrite andb_true_iff, N.eqb_eq, (IH s) by discriminate. unfold almost, same_ignoring_case. split.
      * intros [E (a & y & rest & -> & Ea)]. exists (x :: a), y, rest. split; [reflexivity|].
        change (removelast (c :: c2 :: w)) with (c :: removelast (c2 :: w)). cbn [map]. now rewrite E, Ea.
      * intros (a & y & rest & E & Ea). change (removelast (c :: c2 :: w)) with (c :: removelast (c2 :: w)) in Ea.
        destruct a as [|a0 a]; [discriminate Ea|]. cbn [app map] in *.
        assert (a0 = x) by congruence. assert (s = a ++ y :: rest) by congruence. subst. split; [congruence|].
        exists a, y, rest. split; [reflexivity|congruence].
Qed.

Theorem C44_exactly_accepted : forall s rest old, ~ In 0 s ->
  exists r, scan_bool (Some (s ++ 0 :: rest)) (Some old) = Some r /\
    ((r = (Conv 0 EINVAL, Some old) /\ hd_error s <> Some 49 /\ hd_error s <> Some 48 /\
        ~ almost s (bytes_of "true") /\ ~ almost s (bytes_of "false")) \/
     (r = (Conv 1 OK, Some true) /\ hd_error s = Some 49) \/
     (r = (Conv 1 OK, Some false) /\ hd_error s = Some 48) \/
     (r = (Conv 4 OK, Some true) /\ almost s (bytes_of "true")) \/
     (r = (Conv 5 OK, Some false) /\ almost s (bytes_of "false"))).
Proof.
  intros s rest old Z0. rewrite scan_bool_default by assumption. eexists. split; [reflexivity|].
  assert (It : forall s, loosely s (bytes_of "true") = true <-> almost s (bytes_of "true"))
    by (intros; now apply loosely_iff).
  assert (If : forall s, loosely s (bytes_of "false") = true <-> almost s (bytes_of "false"))
    by (intros; now apply loosely_iff).
  destruct s as [|c s].
  { left. cbn [bool_outcome hd_error]. split; [reflexivity|]. split; [discriminate|]. split; [discriminate|].
    split; intros H; [apply It in H|apply If in H]; vm_compute in H; discriminate H. }
  cbn [bool_outcome option_map hd_error].
  destruct (N.eqb_spec c 49) as [->|H1]; [right; left; auto|].
  destruct (N.eqb_spec c 48) as [->|H0]; [right; right; left; auto|].
  destruct (loosely (c :: s) (bytes_of "true")) eqn:Et.
  { right. right. right. left. split; [reflexivity|]. now apply It. }
  destruct (loosely (c :: s) (bytes_of "false")) eqn:Ef.
  { right. right. right. right. split; [reflexivity|]. now apply If. }
  left. split; [reflexivity|]. split; [congruence|]. split; [congruence|].
  split; intros H; [apply It in H|apply If in H]; congruence.
Qed.
Example C44_exactly_accepted_ex :
  almost (bytes_of "TRU!") (bytes_of "true") /\ ~ almost (bytes_of "tru") (bytes_of "true") /\
  scan_bool (Some (bytes_of "TRU!" ++ [0])) (Some false) = Some (Conv 4 OK, Some true) /\
  scan_bool (Some (bytes_of "tru" ++ [0])) (Some false) = Some (Conv 0 EINVAL, Some false).
Proof.
  split; [|split]; [exists (bytes_of "TRU"), 33, []; split; reflexivity| |vm_compute; auto].
  intros H. apply loosely_iff in H; [vm_compute in H; discriminate H|discriminate].
Qed.

(** With a comparison as in POSIX scan_bool is exact. Missing: scan_bool_n. *)
Theorem C44_exact_with_posix_partial : forall s rest old, ~ In 0 s ->
  exists r, scan_bool_with posix_strnicmp (Some (s ++ 0 :: rest)) (Some old) = Some r /\
    (forall n v, r = (Conv n OK, Some v) <->
       exists text more, s = text ++ more /\ bool_spelling text v /\ n = length text) /\
    ((forall text more v, s = text ++ more -> ~ bool_spelling text v) -> r = (Conv 0 EINVAL, Some old)).
Proof.
  intros s rest old Z0. rewrite scan_bool_posix by assumption. eexists. split; [reflexivity|].
  destruct (bool_outcome_exact s (Some old)) as (A & B & C). split.
  - intros n v. split.
    + intros E. destruct (A n v (Some v) E eq_refl ltac:(discriminate)) as (t & more & Es & L & Sp).
      exists t, more. auto.
    + intros (t & more & Es & Sp & ->). rewrite (B t more v Es Sp). reflexivity.
  - exact C.
Qed.
Example C44_exact_with_posix_partial_ex :
  scan_bool_with posix_strnicmp (Some (bytes_of "trux" ++ [0])) (Some false) = Some (Conv 0 EINVAL, Some false) /\
  scan_bool_with posix_strnicmp (Some (bytes_of "trUE" ++ [0])) (Some false) = Some (Conv 4 OK, Some true).
Proof. vm_compute. auto. Qed.

(** ** C85: TMC_CHECKED_WIDTH, assertions off. *)
Theorem C85_decimal_width : forall lc buf maxlen width v ds, canonical 10 v ds -> (maxlen <= length buf)%nat ->
  (v < 2 ^ 32 -> exists r, print_decimal_w false true get_digits_count_decimal_u32 buf maxlen width v = Some r /\
    if (width =? length ds)%nat then report_print (map (digit_char lc) ds) buf maxlen r
    else fst r = Conv maxlen EOVERFLOW /\ length (snd r) = length buf /\ skipn maxlen (snd r) = skipn maxlen buf) /\
  (v < 2 ^ 64 -> exists r, print_decimal_w false true get_digits_count_decimal_u64 buf maxlen width v = Some r /\
    if (width =? length ds)%nat then report_print (map (digit_char lc) ds) buf maxlen r
    else fst r = Conv maxlen EOVERFLOW /\ length (snd r) = length buf /\ skipn maxlen (snd r) = skipn maxlen buf).
Proof.
  intros lc buf maxlen width v ds C L. split; intros Hv; destruct (Nat.eqb_spec width (length ds)) as [->|Hw].
  - eexists. split; [|apply printed_report]. apply print_decimal_w_correct; try assumption.
    now apply counts32.
  - destruct (print_decimal_w_wrong get_digits_count_decimal_u32 buf maxlen width v ds C L Hw) as (b & E & Cb).
    eexists. split; [exact E|]. split; [reflexivity|exact Cb].
  - eexists. split; [|apply printed_report]. apply print_decimal_w_correct; try assumption.
    now apply counts64.
  - destruct (print_decimal_w_wrong get_digits_count_decimal_u64 buf maxlen width v ds C L Hw) as (b & E & Cb).
    eexists. split; [exact E|]. split; [reflexivity|exact Cb].
Qed.
Example C85_decimal_width_ex :
  print_decimal_w false true get_digits_count_decimal_u32 (repeat 7 8) 6 5 1234 = Some (Conv 6 EOVERFLOW, [7;7;7;51;52;7;7;7]) /\
  print_decimal_w false true get_digits_count_decimal_u32 (repeat 7 8) 6 4 1234 = Some (Conv 4 OK, bytes_of "1234" ++ repeat 7 4).
Proof. vm_compute. auto. Qed.

(** Too large a width is not reported by the others: the text is right aligned behind characters
    that were never written, and a hexadecimal zero is written into an empty buffer. *)
Theorem C85_refuted :
  print_hex_w false true (repeat 7 4) 4 4 0x12 false = Some (Conv 4 OK, [7; 7] ++ bytes_of "12") /\
  print_hex_w false true (repeat 7 4) 4 3 0 false = Some (Conv 1 OK, bytes_of "0" ++ [7; 7; 7]) /\
  print_base_w false true (repeat 7 4) 4 3 5 8 false = Some (Conv 3 OK, [7; 7] ++ bytes_of "5" ++ [7]) /\
  print_hex_w false true [] 0 0 0 false = None.
Proof. vm_compute. auto. Qed.

(** Missing: too large a width is not reported, width 0 of the hexadecimal functions. *)
Theorem C85_width_partial : forall lc b buf maxlen width v ds, 2 <= b -> b <= 36 -> canonical b v ds ->
  v < 2 ^ 64 -> (maxlen <= length buf)%nat ->
  (exists r, print_base_w false true buf maxlen width v b lc = Some r /\
     length (snd r) = length buf /\ skipn maxlen (snd r) = skipn maxlen buf /\
     (width = length ds -> report_print (map (digit_char lc) ds) buf maxlen r) /\
     ((width < length ds)%nat -> fst r = Conv maxlen EOVERFLOW)) /\
  (b = 16 -> (0 < width)%nat -> exists r, print_hex_w false true buf maxlen width v lc = Some r /\
     length (snd r) = length buf /\ skipn maxlen (snd r) = skipn maxlen buf /\
     (width = length ds -> report_print (map (digit_char lc) ds) buf maxlen r) /\
     ((width < length ds)%nat -> fst r = Conv maxlen EOVERFLOW)).
Proof.
  intros lc b buf maxlen width v ds H1 H2 C Hv L. destruct (C43_digit_counts v b ds H1 H2 C) as (_ & _ & Kx & Kb). split.
  - destruct (print_base_w_width b lc buf maxlen width v ds H1 H2 C L) as (r & E & [C1 C2] & O).
    exists r. split; [exact E|]. split; [exact C1|]. split; [exact C2|]. split; [|exact O].
    intros ->. rewrite print_base_w_correct with (ds := ds) in E by (auto || (apply Kb; exact Hv)).
    assert (r = printed (map (digit_char lc) ds) buf maxlen) as -> by congruence. apply printed_report.
  - intros -> W0. destruct (print_hex_w_width lc buf maxlen width v ds C L W0) as (r & E & [C1 C2] & O).
    exists r. split; [exact E|]. split; [exact C1|]. split; [exact C2|]. split; [|exact O].
    intros ->. rewrite print_hex_w_correct with (ds := ds) in E by (auto || (apply Kx; auto)).
    assert (r = printed (map (digit_char lc) ds) buf maxlen) as -> by congruence. apply printed_report.
Qed.
Example C85_width_partial_ex :
  print_hex_w false true (repeat 7 4) 4 2 0x123 false = Some (Conv 4 EOVERFLOW, bytes_of "23" ++ [7; 7]) /\
  print_base_w false true (repeat 7 4) 4 2 83 8 false = Some (Conv 4 EOVERFLOW, bytes_of "23" ++ [7; 7]).
Proof. vm_compute. auto. Qed.

(** ** C86 *)
Theorem C86_hex_bytes : forall lc octets buf maxlen, Forall is_byte octets -> N.of_nat (length octets) < 2 ^ 63 ->
  (maxlen <= length buf)%nat ->
  exists r, print_hex_bytes buf maxlen octets lc = Some r /\ report_print (octets_text lc octets) buf maxlen r.
Proof.
  intros lc octets buf maxlen F Hl L. eexists. split; [now apply print_hex_bytes_correct|apply printed_report].
Qed.
Example C86_hex_bytes_ex :
  print_hex_bytes (repeat 7 5) 5 [0xDE; 0x0A] true = Some (Conv 4 OK, bytes_of "de0a" ++ [7]) /\
  print_hex_bytes (repeat 7 5) 3 [0xDE; 0x0A] true = Some (Conv 3 EOVERFLOW, repeat 7 5).
Proof. vm_compute. auto. Qed.

(** Different octets have different texts. *)
Theorem C86_hex_bytes_injective : forall lc a b, Forall is_byte a -> Forall is_byte b ->
  octets_text lc a = octets_text lc b -> a = b.
Proof.
  assert (D : forall lc d e, d < 36 -> e < 36 -> digit_char lc d = digit_char lc e -> d = e).
  { intros lc d e Hd He E. pose proof (digit_value_char lc d Hd) as X. rewrite E, (digit_value_char lc e He) in X. congruence. }
  intros lc a. induction a as [|x a IH]; intros [|y b] Fa Fb E; try reflexivity; try discriminate E.
  apply Forall_cons_iff in Fa as [Hx Fa]. apply Forall_cons_iff in Fb as [Hy Fb]. unfold is_byte in Hx, Hy.
  unfold octets_text in E. cbn [flat_map app] in E.
  assert (E1 : digit_char lc (x / 16) = digit_char lc (y / 16)) by congruence.
  assert (E2 : digit_char lc (x mod 16) = digit_char lc (y mod 16)) by congruence.
  assert (E3 : octets_text lc a = octets_text lc b) by (unfold octets_text; congruence).
  assert (Q : forall z, z < 256 -> z / 16 < 36 /\ z mod 16 < 36).
  { intros z Hz. split; [apply N.div_lt_upper_bound; lia|]. pose proof (N.mod_lt z 16 ltac:(lia)). lia. }
  destruct (Q x Hx), (Q y Hy). apply D in E1; try assumption. apply D in E2; try assumption.
  f_equal; [|now apply IH]. rewrite (N.div_mod x 16), (N.div_mod y 16) by lia. now rewrite E1, E2.
Qed.
Example C86_hex_bytes_injective_ex : octets_text false [0xDE; 0x0A] = bytes_of "DE0A". Proof. reflexivity. Qed.

(** ** C87 *)
Definition bool_text (value as_number : bool) : list N :=
  bytes_of (if as_number then (if value then "1" else "0") else (if value then "true" else "false")).
(** An empty buffer fails an assertion instead of being reported. *)
Theorem C87_refuted : forall value as_number, print_bool [7; 7] 0 value as_number = None.
Proof. intros [] []; reflexivity. Qed.

(** Missing: a buffer of size 0. *)
Theorem C87_print_bool_partial : forall buf maxlen value as_number, (maxlen <= length buf)%nat -> (0 < maxlen)%nat ->
  exists r, print_bool buf maxlen value as_number = Some r /\ report_print (bool_text value as_number) buf maxlen r.
Proof.
  intros buf maxlen value as_number L M. unfold print_bool, bool_text.
  destruct as_number, value; apply print_string_correct; try assumption; discriminate.
Qed.
Example C87_print_bool_partial_ex :
  print_bool (repeat 7 6) 6 false false = Some (Conv 5 OK, bytes_of "false" ++ [7]) /\
  print_bool (repeat 7 6) 3 true false = Some (Conv 3 EOVERFLOW, bytes_of "tru" ++ [7; 7; 7]).
Proof. vm_compute. auto. Qed.

(** What is printed is read back. *)
Theorem C87_bool_round_trip : forall buf maxlen value as_number n buf' old rest, (maxlen <= length buf)%nat ->
  print_bool buf maxlen value as_number = Some (Conv n OK, buf') ->
  scan_bool (Some (firstn n buf' ++ 0 :: rest)) (Some old) = Some (Conv n OK, Some value).
Proof.
  intros buf maxlen value as_number n buf' old rest L E.
  destruct (Nat.eq_dec maxlen 0) as [->|M].
  { destruct as_number, value; discriminate E. }
  destruct (C87_print_bool_partial buf maxlen value as_number L ltac:(lia)) as (r & E' & R).
  assert (r = (Conv n OK, buf')) as -> by congruence. apply report_ok in R as (-> & -> & _). rewrite firstn_app_exact.
  apply (C44_accepts_partial (bool_text value as_number) value [] rest (Some old)).
  - destruct as_number, value; [left|left|right|right]; reflexivity.
  - destruct as_number, value; vm_compute; intuition discriminate.
  - intros [].
Qed.
Example C87_bool_round_trip_ex :
  print_bool (repeat 7 6) 6 false false = Some (Conv 5 OK, bytes_of "false" ++ [7]) /\
  scan_bool (Some (bytes_of "false" ++ [0; 9])) (Some true) = Some (Conv 5 OK, Some false).
Proof. vm_compute. auto. Qed.

Print Assumptions C40_unsigned_scan.
Print Assumptions C40_unsigned_scan_n.
Print Assumptions C40_refuted.
Print Assumptions C40_signed_scan_partial.
Print Assumptions C40_signed_scan_n_partial.
Print Assumptions C42_unsigned_print.
Print Assumptions C42_signed_print.
Print Assumptions C41_unsigned_round_trip.
Print Assumptions C41_refuted.
Print Assumptions C41_signed_round_trip_partial.
Print Assumptions C41_decimal_hex_agree.
Print Assumptions C43_digit_counts.
Print Assumptions C44_refuted.
Print Assumptions C44_accepts_partial.
Print Assumptions C44_exactly_accepted.
Print Assumptions C44_exact_with_posix_partial.
Print Assumptions C85_decimal_width.
Print Assumptions C85_refuted.
Print Assumptions C85_width_partial.
Print Assumptions C86_hex_bytes.
Print Assumptions C86_hex_bytes_injective.
Print Assumptions C87_refuted.
Print Assumptions C87_print_bool_partial.
Print Assumptions C87_bool_round_trip.
