(** The lookup of codepoint properties, tm_unicode.h:3292-3417, over the tables of UcdData.
    The build configuration modelled is the one the header sets (tm_unicode.h:295-306): category, case
    info, grapheme break and the two case foldings are present; the other case mappings are compiled out. *)
From Coq Require Import NArith ZArith List Bool.
From Verif Require Import Base UcdData.
Import ListNotations.
Local Open Scope N_scope.

(** tm_unicode.h:3292-3317 *)
Definition tmu_get_stage_one_value_internal (index : N) : option N :=
  if 8704 <=? index then Some 210
  else if index <? 1025 then nth_error tmu_ucd_stage_one (N.to_nat index)
  else Some (match index with
  | 1357 => 247
  | 1358 => 220
  | 1390 => 248
  | 1392 => 249
  | 1437 => 250
  | 1495 => 251
  | 1520 => 214
  | 1521 => 214
  | 1522 => 214
  | 1523 => 214
  | 1524 => 252
  | 1536 => 220
  | 1574 => 253
  | 7168 => 254
  | 7169 => 255
  | 7170 => 256
  | 7171 => 257
  | _ => if (7172 <=? index) && (index <? 7200) then 255 else 210
  end).

(** The second-stage blocks that the source gives as expressions, tm_unicode.h:3326-3376. *)
Definition stage_two_alternative (k offset : N) : N :=
  match k with
  | 0 => 0
  | 1 => if (offset <? 96) then 78 else 79
  | 2 => if (offset <? 40) then 79 else 80
  | 3 => if (offset =? 0) then 6 else 13
  | 4 => 13
  | 5 => 7
  | 6 => if (offset =? 6) || (offset =? 19) then 7 else 12
  | 7 => if (6 <=? offset) && (offset <? 16) then 7 else 12
  | 8 => if (52 <=? offset) && (offset <? 54) then 12 else 7
  | 9 => if (offset =? 22) then 0 else 7
  | 10 => if (offset =? 0) then 13 else 0
  | 11 => if (offset =? 124) then 13 else 0
  | 12 => if (110 <=? offset) && (offset <? 112) then 0 else 13
  | 13 => if (offset <? 90) then 13 else 0
  | 14 => if (offset <? 123) then 13 else 0
  | 15 => if (offset <? 73) then 13 else 0
  | 16 => if (96 <=? offset) && (offset <? 127) then 8 else 0
  | 17 => if (offset <? 26) then 13 else 0
  | 18 => if (offset <? 68) then 13 else 0
  | 19 => if (offset <? 71) then 13 else 0
  | 20 => if (offset <? 16) then 13 else 0
  | 21 => if (offset =? 119) then 13 else 0
  | 22 => if (offset <? 86) then 13 else 0
  | 23 => if (offset =? 0) || (offset =? 8) then 13 else 0
  | 24 => if (offset <? 124) then 13 else 0
  | 25 => if (offset <? 118) then 7 else 0
  | 26 => if (96 <=? offset) && (offset <? 116) then 8 else 0
  | 27 => if (offset <? 113) then 0 else 8
  | 28 => if (44 <=? offset) && (offset <? 48) then 236 else 12
  | 29 => 236
  | 30 => 12
  | 31 => if (offset <? 123) then 12 else 238
  | 32 => if (62 <=? offset) && (offset <? 70) then 7 else 12
  | 33 => if (offset <? 80) then 12 else 7
  | 34 => if (offset <? 116) then 7 else 236
  | 35 => if (offset =? 76) then 236 else 12
  | 36 => if (offset <? 126) then 236 else 0
  | 37 => if (offset =? 93) then 13 else 0
  | 38 => if (offset =? 52) || (offset =? 64) then 13 else 0
  | 39 => if (offset =? 29) || (offset =? 32) then 13 else 0
  | 40 => if (offset =? 33) || (offset =? 48) then 13 else 0
  | 41 => if (offset =? 96) then 13 else 0
  | 42 => if (offset <? 30) then 13 else 0
  | 43 => if (offset =? 74) then 13 else 0
  | 44 => if (offset <? 32) then 1 else 183
  | 45 => 1
  | 46 => 47
  | 47 => if (offset <? 112) then 47 else 1
  | _ => 0
  end.
(** tm_unicode.h:3319-3377; None is a failed assertion or a read outside the table. *)
Definition tmu_get_stage_two_value_internal (block_index offset : N) : option N :=
  assert_ (block_index <? 258) (
  assert_ (offset <? 128) (
  if block_index <? 210 then nth_error tmu_ucd_stage_two (N.to_nat (block_index * 128 + offset))
  else Some (stage_two_alternative (block_index - 210) offset))).

(** tm_unicode.h:3379-3390 *)
Definition tmu_get_ucd_internal (cp : N) : option (N * N * N * Z) :=
  assert_ (cp <=? 1114111) (
  block_index <- tmu_get_stage_one_value_internal (cp / 128) ;;
  entry_index <- tmu_get_stage_two_value_internal block_index (cp mod 128) ;;
  nth_error tmu_ucd_entries (N.to_nat entry_index)).

(** tm_unicode.h:3404-3407 *)
Definition tmu_ucd_get_category (cp : N) : option N :=
  ' (bits0, bits1, full, offset) <- tmu_get_ucd_internal cp ;; Some (N.land bits0 7).
(** tm_unicode.h:3409-3412 *)
Definition tmu_ucd_is_whitespace (cp : N) : option bool :=
  ' (bits0, bits1, full, offset) <- tmu_get_ucd_internal cp ;; Some (negb (N.land bits0 64 =? 0)).
(** tm_unicode.h:3414-3417 *)
Definition tmu_ucd_get_case_info (cp : N) : option N :=
  ' (bits0, bits1, full, offset) <- tmu_get_ucd_internal cp ;; Some (N.land (N.shiftr bits0 3) 3).
(** The addition of a uint32_t and an int32_t: the second is converted to uint32_t and the sum wraps. *)
Definition add_i32 (cp : N) (offset : Z) : N := Z.to_N ((Z.of_N cp + offset) mod 4294967296).
(** tm_unicode.h:4979-4980, 5006-5009, 5034-5037, 5058-5060 *)
Definition simple_fold (cp : N) : option N :=
  ' (bits0, bits1, full, offset) <- tmu_get_ucd_internal cp ;; Some (add_i32 cp offset).
(** A zero-terminated run of tmu_codepoint_runs; None is a read outside the array. *)
Fixpoint read_run (run : list N) : option (list N) :=
  match run with
  | [] => None
  | c :: run' => if c =? 0 then Some [] else r <- read_run run' ;; Some (c :: r)
  end.
(** tm_unicode.h:5235-5245 and 5272-5281 (tmu_full_case_fold_offset is 0, tm_unicode.h:962) *)
Definition full_fold (cp : N) : option (list N) :=
  ' (bits0, bits1, full, offset) <- tmu_get_ucd_internal cp ;;
  if full =? 0 then Some [add_i32 cp offset] else read_run (skipn (N.to_nat full) tmu_codepoint_runs).

(** tm_unicode.h:280-287; the pointer full_case_fold is given as the run it starts. *)
Record tmu_ucd_entry := UcdEntry { category : N; case_info : N; grapheme_break : N; simple_case_fold : N; full_case_fold : list N }.
(** tm_unicode.h:3391-3402 *)
Definition tmu_ucd_get_entry (cp : N) : option tmu_ucd_entry :=
  ' (bits0, bits1, full, offset) <- tmu_get_ucd_internal cp ;;
  run <- read_run (skipn (N.to_nat full) tmu_codepoint_runs) ;;
  Some (UcdEntry (N.land bits0 7) (N.land (N.shiftr bits0 3) 3) (N.land bits1 15) (add_i32 cp offset) run).
