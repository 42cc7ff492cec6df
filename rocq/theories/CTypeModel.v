(** Character classification of <ctype.h> in the "C" locale on (uint8_t) values, which is what
    TM_ISDIGIT, TM_ISUPPER and TM_ISLOWER are defined as by default
    (tm_uint128.h 1-400, tm_conversion.h 325-331, tm_stringutil.h). Other locales are not
    modelled. *)
From Coq Require Import NArith Bool List.
Import ListNotations.
Local Open Scope N_scope.

Definition is_digit (c : N) : bool := (48 <=? c) && (c <=? 57).
Definition is_upper (c : N) : bool := (65 <=? c) && (c <=? 90).
Definition is_lower (c : N) : bool := (97 <=? c) && (c <=? 122).
(** toupper / tolower *)
Definition to_upper (c : N) : N := if is_lower c then c - 32 else c.
Definition to_lower (c : N) : N := if is_upper c then c + 32 else c.
(** isspace: space, \t \n \v \f \r *)
Definition is_space (c : N) : bool := (c =? 32) || ((9 <=? c) && (c <=? 13)).

(** The digit classification chain common to all integer scanners:
    tm_uint128.h 1670-1680, 1732-1742; tm_conversion.h 866-874, 943-951, 1004-1012, 1066-1074,
    1136-1144, 1213-1221, 1273-1281, 1336-1344. [None] is the [break] of the else branch. *)
Definition scan_digit (cp : N) : option N :=
  if is_digit cp then Some (cp - 48)
  else if is_upper cp then Some (cp - 65 + 10)
  else if is_lower cp then Some (cp - 97 + 10)
  else None.
