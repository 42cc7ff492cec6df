(** Model of the base64, base64url and url codecs of tm_stringutil.h. Bytes and characters are numbers below 256.
    The output buffer is a list of cells with [out_size] passed separately; a write outside of the list is undefined
    behaviour. Sizes are [nat]: wrap-around of size_t, which needs inputs of more than 2^62 bytes, is not modelled. *)
From Coq Require Import Arith NArith List Bool.
From Verif Require Import Base.
Import ListNotations.
Local Open Scope N_scope.

(** tm_stringutil.h:524-530: tmsu_find_char as the distance from [str]; reading past the given memory is undefined. *)
Fixpoint tmsu_find_char (mem : list N) (c : N) : option nat :=
  match mem with
  | [] => None
  | x :: r => if x =? 0 then Some O else if x =? c then Some O else i <- tmsu_find_char r c ;; Some (S i)
  end.

(** tm_stringutil.h:1356-1364: the two alphabets, without the terminating zero. *)
Definition alphabet (c62 c63 : N) : list N :=
  map N.of_nat (seq 65 26 ++ seq 97 26 ++ seq 48 10) ++ [c62; c63].
Definition tmsu_base64_chars : list N := alphabet 43 47.
Definition tmsu_base64url_chars : list N := alphabet 45 95.

(** Stores of consecutive characters out[i], out[i+1], ... *)
Fixpoint write_list (out : list N) (i : nat) (cs : list N) : option (list N) :=
  match cs with
  | [] => Some out
  | c :: cs' => out' <- write out i c ;; write_list out' (S i) cs'
  end.
(** [if (guard < out_size) out[..] = ...]. *)
Definition put (out : list N) (out_size i : nat) (cs : list N) : option (list N) :=
  if (i + length cs <? out_size)%nat then write_list out i cs else Some out.

(** tm_stringutil.h:1405-1435: the one or two remaining bytes. The last index is advanced by two only inside of the
    [if]. *)
Definition encode_tail (chars : list N) (pad : bool) (a : N) (ob : option N) (oi : nat) (out : list N) (out_size : nat)
    : option (nat * list N) :=
  let b := match ob with Some b => b | None => 0 end in
  x0 <- nth_error chars (N.to_nat (N.shiftr a 2)) ;;
  x1 <- nth_error chars (N.to_nat (N.lor (N.shiftl (N.land a 3) 4) (N.shiftr b 4))) ;;
  x2 <- nth_error chars (N.to_nat (N.shiftl (N.land b 15) 2)) ;;
  ' (oi, out) <- (if (oi + 2 <? out_size)%nat
                  then out <- write_list out oi [x0; x1] ;; Some (oi + 2, out)%nat
                  else Some (oi, out)) ;;
  ' (oi, out) <- (match ob with
                  | Some _ => out <- put out out_size oi [x2] ;; Some (S oi, out)
                  | None => if pad then out <- put out out_size oi [61] ;; Some (S oi, out) else Some (oi, out)
                  end) ;;
  if pad then out <- put out out_size oi [61] ;; Some (S oi, out) else Some (oi, out).

(** tm_stringutil.h:1366-1437: tmsu_base64_encode_chars from the loop head with [oi = out_index]. The assertions
    char_index < 64 are the range checks of the table accesses. *)
Fixpoint encode_chars (chars : list N) (pad : bool) (inp : list N) (oi : nat) (out : list N) (out_size : nat)
    : option (nat * list N) :=
  match inp with
  | a :: b :: c :: rest =>
    x0 <- nth_error chars (N.to_nat (N.shiftr a 2)) ;;
    x1 <- nth_error chars (N.to_nat (N.lor (N.shiftl (N.land a 3) 4) (N.shiftr b 4))) ;;
    x2 <- nth_error chars (N.to_nat (N.lor (N.shiftl (N.land b 15) 2) (N.shiftr c 6))) ;;
    x3 <- nth_error chars (N.to_nat (N.land c 63)) ;;
    out <- put out out_size oi [x0; x1; x2; x3] ;;
    encode_chars chars pad rest (oi + 4) out out_size
  | [a; b] => encode_tail chars pad a (Some b) oi out out_size
  | [a] => encode_tail chars pad a None oi out out_size
  | [] => Some (oi, out)
  end.

(** tm_stringutil.h:1521-1530. *)
Definition tmsu_base64_encode (inp out : list N) (out_size : nat) := encode_chars tmsu_base64_chars true inp 0 out out_size.
Definition tmsu_base64url_encode (inp out : list N) (out_size : nat) := encode_chars tmsu_base64url_chars false inp 0 out out_size.

(** The value of one character: tmsu_find_char(chars, c) - chars; 64 when not found. *)
Definition char_value (chars : list N) (c : N) : option N := i <- tmsu_find_char (chars ++ [0]) c ;; Some (N.of_nat i).

(** The conversions to char of the three decoded bytes (lines 1466-1468, 1505-1516). *)
Definition byte0 (v0 v1 : N) : N := N.land (N.lor (N.shiftl v0 2) (N.shiftr v1 4)) 255.
Definition byte1 (v1 v2 : N) : N := N.land (N.lor (N.land (N.shiftl v1 4) 0xF0) (N.shiftr v2 2)) 255.
Definition byte2 (v2 v3 : N) : N := N.land (N.lor (N.land (N.shiftl v2 6) 0xC0) v3) 255.

(** tm_stringutil.h:1503-1517: the bytes of the last group. *)
Definition decode_last (v0 v1 v2 v3 : N) (padding_count : nat) (oi : nat) (out : list N) (out_size : nat)
    : option (nat * list N) :=
  out <- put out out_size oi [byte0 v0 v1] ;;
  let oi := S oi in
  ' (oi, out) <- (if (padding_count <? 2)%nat then out <- put out out_size oi [byte1 v1 v2] ;; Some (S oi, out)
                  else Some (oi, out)) ;;
  if (padding_count <? 1)%nat then out <- put out out_size oi [byte2 v2 v3] ;; Some (S oi, out)
  else Some (oi, out).

(** tm_stringutil.h:1475-1501: the last up to four characters. *)
Definition decode_tail (chars : list N) (expect_padding : bool) (last : list N) (oi : nat) (out : list N) (out_size : nat)
    : option (nat * list N) :=
  if expect_padding then
    c0 <- nth_error last 0 ;; c1 <- nth_error last 1 ;; c2 <- nth_error last 2 ;; c3 <- nth_error last 3 ;;
    v0 <- char_value chars c0 ;; v1 <- char_value chars c1 ;; v2 <- char_value chars c2 ;; v3 <- char_value chars c3 ;;
    if 64 <=? v0 then Some (O, out)
    else if 64 <=? v1 then Some (O, out)
    else if (64 <=? v3) && negb (c3 =? 61) then Some (O, out)
    else
      let '(v3, pc) := if 64 <=? v3 then (0, 1%nat) else (v3, 0%nat) in
      if (64 <=? v2) && negb (c2 =? 61) then Some (O, out)
      else
        let '(v2, pc) := if 64 <=? v2 then (0, 2%nat) else (v2, pc) in
        decode_last v0 v1 v2 v3 pc oi out out_size
  else
    let value i := match nth_error last i with Some c => char_value chars c | None => Some 0 end in
    v0 <- value 0%nat ;; v1 <- value 1%nat ;; v2 <- value 2%nat ;; v3 <- value 3%nat ;;
    if (64 <=? v0) || (64 <=? v1) || (64 <=? v2) || (64 <=? v3) then Some (O, out)
    else decode_last v0 v1 v2 v3 (2 - (if (2 <? length last)%nat then 1 else 0) - (if (3 <? length last)%nat then 1 else 0))%nat
           oi out out_size.

(** tm_stringutil.h:1439-1519: tmsu_base64_decode_chars from the loop head. *)
Fixpoint decode_chars (chars : list N) (expect_padding : bool) (inp : list N) (oi : nat) (out : list N) (out_size : nat)
    : option (nat * list N) :=
  match inp with
  | c0 :: c1 :: c2 :: c3 :: ((_ :: _) as rest) =>
    v0 <- char_value chars c0 ;; v1 <- char_value chars c1 ;; v2 <- char_value chars c2 ;; v3 <- char_value chars c3 ;;
    if (64 <=? v0) || (64 <=? v1) || (64 <=? v2) || (64 <=? v3) then Some (O, out)
    else out <- put out out_size oi [byte0 v0 v1; byte1 v1 v2; byte2 v2 v3] ;;
         decode_chars chars expect_padding rest (oi + 3) out out_size
  | [] => Some (oi, out)
  | last => decode_tail chars expect_padding last oi out out_size
  end.

(** tm_stringutil.h:1531-1547. *)
Definition tmsu_base64_decode (inp out : list N) (out_size : nat) : option (nat * list N) :=
  if (length inp =? 0)%nat then Some (O, out)
  else if negb (length inp mod 4 =? 0)%nat then Some (O, out)
  else decode_chars tmsu_base64_chars true inp 0 out out_size.
Definition tmsu_base64url_decode (inp out : list N) (out_size : nat) : option (nat * list N) :=
  if (length inp <? 2)%nat then Some (O, out) else decode_chars tmsu_base64url_chars false inp 0 out out_size.

(** tm_stringutil.h:1556-1559 / 1590-1593: characters copied unchanged. *)
Definition url_plain (c : N) : bool :=
  ((65 <=? c) && (c <=? 90)) || ((97 <=? c) && (c <=? 122)) || ((48 <=? c) && (c <=? 57)) ||
  (c =? 45) || (c =? 95) || (c =? 46).

(** [if (out_index < out_size) out[out_index] = c]. *)
Definition put1 (out : list N) (out_size i : nat) (c : N) : option (list N) :=
  if (i <? out_size)%nat then write out i c else Some out.

(** tm_stringutil.h:1565-1569. *)
Definition hex_digit (l : N) : N := if l <=? 9 then l + 48 else l + (65 - 10).

(** tm_stringutil.h:1549-1580. *)
Fixpoint url_encode (inp : list N) (oi : nat) (out : list N) (out_size : nat) : option (nat * list N) :=
  match inp with
  | [] => Some (oi, out)
  | c :: rest =>
    if url_plain c then out <- put1 out out_size oi c ;; url_encode rest (S oi) out out_size
    else
      let l := hex_digit (N.land (N.shiftr c 4) 15) in
      let r := hex_digit (N.land c 15) in
      out <- put1 out out_size oi 37 ;;
      out <- put1 out out_size (S oi) l ;;
      out <- put1 out out_size (S (S oi)) r ;;
      url_encode rest (S (S (S oi))) out out_size
  end.
Definition tmsu_url_encode (inp out : list N) (out_size : nat) := url_encode inp 0 out out_size.

(** tm_stringutil.h:1606-1624. *)
Definition hex_value (l : N) : option N :=
  if (48 <=? l) && (l <=? 57) then Some (l - 48)
  else if (65 <=? l) && (l <=? 70) then Some (l - 65 + 10)
  else if (97 <=? l) && (l <=? 102) then Some (l - 97 + 10)
  else None.

(** tm_stringutil.h:1582-1634. *)
Fixpoint url_decode (inp : list N) (oi : nat) (out : list N) (out_size : nat) : option (nat * list N) :=
  match inp with
  | [] => Some (oi, out)
  | c :: rest =>
    if url_plain c then out <- put1 out out_size oi c ;; url_decode rest (S oi) out out_size
    else if c =? 37 then
      match rest with
      | l :: r :: rest' =>
        match hex_value l, hex_value r with
        | Some l, Some r =>
          out <- put1 out out_size oi (N.land (N.lor (N.shiftl l 4) r) 255) ;;
          url_decode rest' (S oi) out out_size
        | _, _ => Some (O, out)
        end
      | _ => Some (O, out)
      end
    else Some (O, out)
  end.
Definition tmsu_url_decode (inp out : list N) (out_size : nat) := url_decode inp 0 out out_size.
