(** What the conversions of tm_conversion.h promise, independent of the model. *)
From Coq Require Import NArith ZArith Bool String List.
From Verif Require Import Base DigitsSpec.
Import ListNotations.
Local Open Scope N_scope.

(** A signed numeral is an optional minus sign and a numeral. *)
Inductive signed_outcome :=
  | NoInteger                             (* nothing there *)
  | OutOfRange (chars : nat)              (* an integer, outside of lo .. hi *)
  | Integer (chars : nat) (value : Z).

Definition scan_signed_spec (lo hi : Z) (b : N) (s : list N) : signed_outcome :=
  let (sign, t) := match s with
    | 45 :: t => ((-1)%Z, t)
    | _ => (1%Z, s)
    end in
  match digit_run b t with
  | [] => NoInteger
  | ds =>
    let value := (sign * Z.of_N (number b ds))%Z in
    let chars := (length s - length t + length ds)%nat in
    if ((lo <=? value) && (value <=? hi))%Z then Integer chars value else OutOfRange chars
  end.

(** The documented report of a scan function: the number of characters and the error code, and what
    *out (if there is one) is afterwards; [out] is what it was before. *)
Definition report_signed (o : signed_outcome) (out : option Z) : conv * option Z :=
  match o with
  | NoInteger => (Conv 0 EINVAL, out)
  | OutOfRange n => (Conv n ERANGE, out)
  | Integer n v => (Conv n OK, option_map (fun _ => v) out)
  end.
Definition report_unsigned (o : scan_outcome) (out : option N) : conv * option N :=
  match o with
  | NoNumber => (Conv 0 EINVAL, out)
  | TooBig n => (Conv n ERANGE, out)
  | Number n v => (Conv n OK, option_map (fun _ => v) out)
  end.

(** The text of an integer. *)
Definition integer_text (lc : bool) (b : N) (z : Z) (text : list N) : Prop :=
  exists ds, canonical b (Z.to_N (Z.abs z)) ds /\
    text = (if (z <? 0)%Z then bytes_of "-" else []) ++ map (digit_char lc) ds.

(** The documented report of a print function: [text] at the start of the buffer if it fits into
    [maxlen] characters; otherwise EOVERFLOW and size maxlen, with the buffer past maxlen
    unchanged. *)
Definition report_print (text buf : list N) (maxlen : nat) (r : conv * list N) : Prop :=
  if (length text <=? maxlen)%nat
  then r = (Conv (length text) OK, text ++ skipn (length text) buf)
  else fst r = Conv maxlen EOVERFLOW /\ length (snd r) = length buf /\ skipn maxlen (snd r) = skipn maxlen buf.

(** Letters that differ in case only. *)
Definition lower (c : N) : N := if (65 <=? c) && (c <=? 90) then c + 32 else c.
Definition same_ignoring_case (a b : list N) : Prop := map lower a = map lower b.

(** The documented spellings of booleans, and what they mean. *)
Definition bool_spelling (text : list N) (v : bool) : Prop :=
  if v then text = bytes_of "1" \/ same_ignoring_case text (bytes_of "true")
  else text = bytes_of "0" \/ same_ignoring_case text (bytes_of "false").

(** Two digits for each octet, the high one first. *)
Definition octets_text (lc : bool) (octets : list N) : list N :=
  flat_map (fun v => [digit_char lc (v / 16); digit_char lc (v mod 16)]) octets.
