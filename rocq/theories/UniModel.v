(** Model of the UTF-8 and UTF-16 functions of tm_unicode.h.
    A stream (cur, end) is the list of code units still to be read; a read past its end is [None]. An output buffer is the
    list of the cells the caller owns, with a position for the moving pointer; a write outside of it is [None]. Sizes are
    lengths of objects and modelled as [nat]. Code units are numbers below 2^8 (char) or 2^16 (tmu_char16). *)
From Coq Require Import Arith NArith ZArith List Bool.
From Verif Require Import Base CodecModel.
Import ListNotations.
Local Open Scope N_scope.

(** tm_unicode.h:3543-3549 *)
Definition TMU_MAX_UTF32 : N := 0x10FFFF.
Definition TMU_LEAD_SURROGATE_MIN : N := 0xD800.
Definition TMU_LEAD_SURROGATE_MAX : N := 0xDBFF.
Definition TMU_TRAILING_SURROGATE_MIN : N := 0xDC00.
Definition TMU_TRAILING_SURROGATE_MAX : N := 0xDFFF.
Definition TMU_SURROGATE_OFFSET : N := sub32 (sub32 0x10000 (w32 (N.shiftl 0xD800 10))) 0xDC00.
Definition TMU_INVALID_CODEPOINT : N := 0xFFFFFFFF.

(** tm_unicode.h:3612-3614 *)
Definition tmu_is_valid_codepoint (cp : N) : bool :=
  (cp <=? TMU_MAX_UTF32) && ((cp <? TMU_LEAD_SURROGATE_MIN) || (TMU_TRAILING_SURROGATE_MAX <? cp)).

(** tm_unicode.h:3615-3658: the answer, the codepoint written to the caller's variable and the stream afterwards. *)
Definition tmu_utf8_extract (s : list N) : option (bool * N * list N) :=
  ' (cp, n) <-
    (if (0 <? length s)%nat then
       first <- nth_error s 0 ;;
       if first <? 0x80 then Some (first, 1%nat)
       else if N.shiftr first 5 =? 0x6 then
         if (2 <=? length s)%nat then
           second <- nth_error s 1 ;;
           Some (N.lor (N.shiftl (N.land first 0x1F) 6) (N.land second 0x3F), 2%nat)
         else Some (TMU_INVALID_CODEPOINT, 0%nat)
       else if N.shiftr first 4 =? 0xE then
         if (3 <=? length s)%nat then
           second <- nth_error s 1 ;; third <- nth_error s 2 ;;
           Some (N.lor (N.lor (N.shiftl (N.land first 0xF) 12) (N.shiftl (N.land second 0x3F) 6)) (N.land third 0x3F), 3%nat)
         else Some (TMU_INVALID_CODEPOINT, 0%nat)
       else if N.shiftr first 3 =? 0x1E then
         if (4 <=? length s)%nat then
           second <- nth_error s 1 ;; third <- nth_error s 2 ;; fourth <- nth_error s 3 ;;
           Some (N.lor (N.lor (N.lor (N.shiftl (N.land first 0x7) 18) (N.shiftl (N.land second 0x3F) 12))
                   (N.shiftl (N.land third 0x3F) 6)) (N.land fourth 0x3F), 4%nat)
         else Some (TMU_INVALID_CODEPOINT, 0%nat)
       else Some (TMU_INVALID_CODEPOINT, 0%nat)
     else Some (TMU_INVALID_CODEPOINT, 0%nat)) ;;
  Some (if tmu_is_valid_codepoint cp then (true, cp, skipn n s) else (false, cp, s)).

(** The combination of a surrogate pair, tm_unicode.h:3675, 3999, 4560; uint32_t arithmetic. *)
Definition pair_codepoint (lead trail : N) : N := w32 (w32 (w32 (N.shiftl lead 10) + trail) + TMU_SURROGATE_OFFSET).
Definition is_lead (c : N) : bool := (TMU_LEAD_SURROGATE_MIN <=? c) && (c <=? TMU_LEAD_SURROGATE_MAX).
Definition is_trail (c : N) : bool := (TMU_TRAILING_SURROGATE_MIN <=? c) && (c <=? TMU_TRAILING_SURROGATE_MAX).

(** tm_unicode.h:3659-3687 *)
Definition tmu_utf16_extract (s : list N) : option (bool * N * list N) :=
  let '(cp, rest) :=
    match s with
    | [] => (TMU_INVALID_CODEPOINT, s)
    | lead :: s1 =>
        if is_lead lead then
          match s1 with
          | [] => (TMU_INVALID_CODEPOINT, s1)
          | trail :: s2 => (if is_trail trail then pair_codepoint lead trail else TMU_INVALID_CODEPOINT, s2)
          end
        else (lead, s1)
    end in
  Some (if tmu_is_valid_codepoint cp then (true, cp, rest) else (false, cp, s)).

(** tm_unicode.h:3688-3719; [out] is the cell at [pos], [room] is out_len. (char) and (uint8_t) keep the low eight bits. *)
Definition w8 (x : N) : N := x mod 256.
Definition tmu_utf8_encode (cp : N) (buf : list N) (pos room : nat) : option (nat * list N) :=
  assert_ (tmu_is_valid_codepoint cp)
  (let go bs := if (room <? length bs)%nat then Some (length bs, buf) else buf' <- write_list buf pos bs ;; Some (length bs, buf') in
   if cp <? 0x80 then go [w8 cp]
   else if cp <? 0x800 then
     go [w8 (N.lor 0xC0 (w8 (N.shiftr cp 6))); w8 (N.lor 0x80 (w8 (N.land cp 0x3F)))]
   else if cp <? 0x10000 then
     go [w8 (N.lor 0xE0 (w8 (N.shiftr cp 12))); w8 (N.lor 0x80 (N.land (w8 (N.shiftr cp 6)) 0x3F));
         w8 (N.lor 0x80 (w8 (N.land cp 0x3F)))]
   else
     go [w8 (N.lor 0xF0 (N.land (w8 (N.shiftr cp 18)) 0x7)); w8 (N.lor 0x80 (N.land (w8 (N.shiftr cp 12)) 0x3F));
         w8 (N.lor 0x80 (N.land (w8 (N.shiftr cp 6)) 0x3F)); w8 (N.lor 0x80 (w8 (N.land cp 0x3F)))]).

(** tm_unicode.h:3737-3752 *)
Definition w16 (x : N) : N := x mod 65536.
Definition tmu_utf16_encode (cp : N) (buf : list N) (pos room : nat) : option (nat * list N) :=
  assert_ (tmu_is_valid_codepoint cp)
  (let go us := if (room <? length us)%nat then Some (length us, buf) else buf' <- write_list buf pos us ;; Some (length us, buf') in
   if cp <=? 0xFFFF then go [w16 cp]
   else let c := cp - 0x10000 in
     go [w16 (TMU_LEAD_SURROGATE_MIN + w16 (N.shiftr c 10)); w16 (TMU_TRAILING_SURROGATE_MIN + w16 (N.land c 0x3FF))]).

(** tmu_utf8_output_stream / tmu_utf16_output_stream; the capacity is the length of the data. *)
Record ostream := OStream { o_data : list N; o_size : nat; o_necessary : nat; o_ec : errc }.
(** tm_unicode.h:3720-3736 and 3753-3769, the same text for both encodings. *)
Definition append (encode : N -> list N -> nat -> nat -> option (nat * list N)) (cp : N) (o : ostream) : option (bool * ostream) :=
  assert_ (o_size o <=? length (o_data o))%nat
  (let remaining := (length (o_data o) - o_size o)%nat in
   ' (size, data) <- encode cp (o_data o) (o_size o) remaining ;;
   let nec := (o_necessary o + size)%nat in
   let o' := if (remaining <? size)%nat then OStream data (length data) nec ERANGE else OStream data (o_size o + size) nec (o_ec o) in
   Some (errc_eqb (o_ec o') OK, o')).
Definition tmu_utf8_append := append tmu_utf8_encode.
Definition tmu_utf16_append := append tmu_utf16_encode.

(** One iteration of tmu_utf8_valid_range, tm_unicode.h:4476-4528: the number of octets to step over, 0 for "return i". *)
Definition utf8_step (s : list N) : option nat :=
  c0 <- nth_error s 0 ;;
  let remaining := length s in
  if c0 <? 0x80 then Some 1%nat
  else if N.land c0 0xE0 =? 0xC0 then
    if (remaining <? 2)%nat then Some 0%nat else
    c1 <- nth_error s 1 ;;
    if negb (N.land c1 0xC0 =? 0x80) then Some 0%nat
    else if N.land c0 0xFE =? 0xC0 then Some 0%nat
    else Some 2%nat
  else if N.land c0 0xF0 =? 0xE0 then
    if (remaining <? 3)%nat then Some 0%nat else
    c1 <- nth_error s 1 ;; c2 <- nth_error s 2 ;;
    if negb (N.land c1 0xC0 =? 0x80) then Some 0%nat
    else if negb (N.land c2 0xC0 =? 0x80) then Some 0%nat
    else if (c0 =? 0xE0) && (N.land c1 0xE0 =? 0x80) then Some 0%nat
    else if (c0 =? 0xED) && (0x9F <? c1) then Some 0%nat
    else Some 3%nat
  else if N.land c0 0xF8 =? 0xF0 then
    if (remaining <? 4)%nat then Some 0%nat else
    c1 <- nth_error s 1 ;; c2 <- nth_error s 2 ;; c3 <- nth_error s 3 ;;
    if negb (N.land c1 0xC0 =? 0x80) then Some 0%nat
    else if negb (N.land c2 0xC0 =? 0x80) then Some 0%nat
    else if negb (N.land c3 0xC0 =? 0x80) then Some 0%nat
    else if (c0 =? 0xF0) && (c1 <? 0x90) then Some 0%nat
    else if (c0 =? 0xF4) && (0x8F <? c1) then Some 0%nat
    else if 0xF4 <? c0 then Some 0%nat
    else Some 4%nat
  else Some 0%nat.
(** The loop over a validator step; [fuel] bounds the iterations (each reads at least one unit), out of fuel is [None]. *)
Fixpoint valid_loop (step : list N -> option nat) (fuel : nat) (s : list N) : option nat :=
  match s with
  | [] => Some 0%nat
  | _ => match fuel with
         | O => None
         | S fuel' =>
             n <- step s ;;
             match n with
             | O => Some 0%nat
             | _ => r <- valid_loop step fuel' (skipn n s) ;; Some (n + r)%nat
             end
         end
  end.
(** tm_unicode.h:4470-4531 *)
Definition tmu_utf8_valid_range (s : list N) : option nat := valid_loop utf8_step (length s) s.

(** One iteration of tmu_utf16_valid_range, tm_unicode.h:4552-4567. *)
Definition utf16_step (s : list N) : option nat :=
  c0 <- nth_error s 0 ;;
  if is_lead c0 then
    if (length s <? 2)%nat then Some 0%nat else
    c1 <- nth_error s 1 ;;
    if (c1 <? TMU_TRAILING_SURROGATE_MIN) || (TMU_TRAILING_SURROGATE_MAX <? c1) then Some 0%nat
    else if negb (tmu_is_valid_codepoint (pair_codepoint c0 c1)) then Some 0%nat
    else Some 2%nat
  else if is_trail c0 then Some 0%nat
  else Some 1%nat.
(** tm_unicode.h:4549-4570 *)
Definition tmu_utf16_valid_range (s : list N) : option nat := valid_loop utf16_step (length s) s.

(** tm_unicode.h:4533-4547 and 4572-4586, the same text for both encodings: [str] is the buffer, [cur] the offset of the
    write pointer; memmove copies [range] units from offset len - remaining. Each iteration consumes at least one unit. *)
Fixpoint skip_loop (range_of : list N -> option nat) (fuel : nat) (str : list N) (len cur remaining : nat) : option (nat * list N) :=
  match remaining with
  | O => Some (cur, str)
  | _ => match fuel with
         | O => None
         | S fuel' =>
             let i := (len - remaining)%nat in
             range <- range_of (firstn remaining (skipn cur str)) ;;
             str <- (if (cur =? i)%nat then Some str
                     else assert_ (i + range <=? length str)%nat (write_list str cur (firstn range (skipn i str)))) ;;
             if (range =? remaining)%nat then Some ((cur + range)%nat, str)
             else assert_ (range + 1 <=? remaining)%nat (skip_loop range_of fuel' str len (cur + range) (remaining - (range + 1)))
         end
  end.
Definition tmu_utf8_skip_invalid (str : list N) : option (nat * list N) := skip_loop tmu_utf8_valid_range (length str) str (length str) 0 (length str).
Definition tmu_utf16_skip_invalid (str : list N) : option (nat * list N) := skip_loop tmu_utf16_valid_range (length str) str (length str) 0 (length str).

(** ** Conversion between the encodings *)
Inductive validate := V_skip | V_replace | V_error.
(** The end of a loop: finished, undefined behaviour, or still running after the given number of iterations. *)
Inductive run (A : Type) := Done (a : A) | Ub | Running.
Arguments Done {A}. Arguments Ub {A}. Arguments Running {A}.
(** tmu_conversion_result with the caller's buffer and the moving [out] / [out_len]; after an overflow [out_len] is 0. *)
Record cstate := CState { c_size : nat; c_ec : errc; c_invalid : bool; c_buf : list N; c_pos : nat; c_room : nat }.

Section Convert.
Variable extract : list N -> option (bool * N * list N).
Variable encode : N -> list N -> nat -> nat -> option (nat * list N).
(** tm_unicode.h:4635-4645: encode one codepoint. *)
Definition conv_put (cp : N) (st : cstate) : option cstate :=
  ' (size, buf) <- encode cp (c_buf st) (c_pos st) (c_room st) ;;
  Some (if (c_room st <? size)%nat then CState (c_size st + size) ERANGE (c_invalid st) buf (c_pos st) 0
        else CState (c_size st + size) (c_ec st) (c_invalid st) buf (c_pos st + size) (c_room st - size)).
(** tm_unicode.h:4619-4631: write the replacement. *)
Definition conv_replace (rep : list N) (st : cstate) : option cstate :=
  if (c_room st <? length rep)%nat then Some (CState (c_size st + length rep) ERANGE true (c_buf st) (c_pos st) 0)
  else buf <- write_list (c_buf st) (c_pos st) rep ;;
       Some (CState (c_size st + length rep) (c_ec st) true buf (c_pos st + length rep) (c_room st - length rep)).
(** tm_unicode.h:4606-4646; note that after a replacement the stream is where it was. *)
Fixpoint conv_loop (fuel : nat) (v : validate) (rep s : list N) (st : cstate) : run cstate :=
  match s with
  | [] => Done st
  | _ => match fuel with
         | O => Running
         | S fuel' =>
             match extract s with
             | None => Ub
             | Some (false, _, s') =>
                 match v with
                 | V_skip => match s' with
                             | [] => Ub
                             | _ :: s'' => conv_loop fuel' v rep s'' (CState (c_size st) (c_ec st) true (c_buf st) (c_pos st) (c_room st))
                             end
                 | V_replace => match conv_replace rep st with None => Ub | Some st' => conv_loop fuel' v rep s' st' end
                 | V_error => Done (CState (c_size st) EINVAL true (c_buf st) (c_pos st) (c_room st))
                 end
             | Some (true, cp, s') => match conv_put cp st with None => Ub | Some st' => conv_loop fuel' v rep s' st' end
             end
         end
  end.
(** tm_unicode.h:4648-4659; the size counts the terminator only if it does not fit. *)
Definition conv_terminate (st : cstate) : option cstate :=
  match c_ec st with
  | OK | ERANGE =>
      ' (size, buf) <- encode 0 (c_buf st) (c_pos st) (c_room st) ;;
      Some (if (c_room st <? size)%nat then CState (c_size st + size) ERANGE (c_invalid st) buf (c_pos st) 0
            else CState (c_size st) (c_ec st) (c_invalid st) buf (c_pos st + size) (c_room st - size))
  | _ => Some st
  end.
Record result := Result { r_size : nat; r_ec : errc; r_invalid : bool }.
(** tm_unicode.h:4597-4661, 4662-4726: the two functions have the same text with the codecs exchanged. *)
Definition convert_ex (fuel : nat) (s : list N) (v : validate) (rep : list N) (nullterminate : bool) (out : list N) : run (result * list N) :=
  match v, rep with
  | V_replace, [] => Ub
  | _, _ =>
      match conv_loop fuel v rep s (CState 0 OK false out 0 (length out)) with
      | Ub => Ub
      | Running => Running
      | Done st =>
          match (if nullterminate then conv_terminate st else Some st) with
          | None => Ub
          | Some st' => Done (Result (c_size st') (c_ec st') (c_invalid st'), c_buf st')
          end
      end
  end.
End Convert.
Definition tmu_utf8_from_utf16_ex := convert_ex tmu_utf16_extract tmu_utf8_encode.
Definition tmu_utf16_from_utf8_ex := convert_ex tmu_utf8_extract tmu_utf16_encode.
(** tm_unicode.h:4588-4595 *)
Definition tmu_utf8_from_utf16 (fuel : nat) (s out : list N) := tmu_utf8_from_utf16_ex fuel s V_error [] false out.
Definition tmu_utf16_from_utf8 (fuel : nat) (s out : list N) := tmu_utf16_from_utf8_ex fuel s V_error [] false out.

(** tmu_contents; the capacity is the length of the data, a null pointer is the empty block. *)
Record contents := Contents { k_data : list N; k_size : nat }.
(** tm_unicode.h:4735-4762; [fresh n] is the memory the allocator returns for n units, [None] if it refuses.
    Whether malloc or realloc is used only matters for the old block, which is not modelled (realloc releases it). *)
Definition tmu_utf8_from_utf16_dynamic_ex (fuel : nat) (fresh : nat -> option (list N)) (s : list N) (v : validate) (rep : list N)
    (nullterminate : bool) (out : contents) : run (result * contents) :=
  match tmu_utf8_from_utf16_ex fuel s v rep nullterminate (k_data out) with
  | Ub => Ub
  | Running => Running
  | Done (r, data) =>
      match r_ec r with
      | OK => Done (r, Contents data (r_size r))
      | ERANGE =>
          match fresh (r_size r) with
          | None => Done (Result (r_size r) ENOMEM (r_invalid r), Contents data (k_size out))
          | Some block =>
              match tmu_utf8_from_utf16_ex fuel s v rep nullterminate block with
              | Ub => Ub
              | Running => Running
              | Done (r', data') => Done (r', Contents data' (if errc_eqb (r_ec r') OK then r_size r' else 0%nat))
              end
          end
      | _ => Done (r, Contents data (k_size out))
      end
  end.

(** ** Truncating copy, tm_unicode.h:4764-4788 *)
(** The retreat over continuation octets, 4776-4778. *)
Fixpoint retreat (str : list N) (cur : nat) : option nat :=
  match cur with
  | O => Some O
  | S cur' => c <- nth_error str cur ;; if N.land c 0xC0 =? 0x80 then retreat str cur' else Some cur
  end.
Definition tmu_utf8_copy_truncated (str out : list N) : option (nat * list N) :=
  if (length str <=? length out)%nat then out' <- write_list out 0 str ;; Some (length str, out')
  else match length out with
       | O => Some (O, out)
       | S last =>
           c <- nth_error str last ;;
           n <- (if 0x80 <=? c then
                   cur <- retreat str last ;;
                   let distance := (length out - cur)%nat in
                   r <- tmu_utf8_valid_range (firstn distance (skipn cur str)) ;;
                   Some (if (r =? distance)%nat then length out else cur)
                 else Some (length out)) ;;
           out' <- write_list out 0 (firstn n str) ;;
           Some (n, out')
       end.

(** ** Counting and comparing *)
(** tm_unicode.h:4831-4843 *)
Fixpoint count_loop (fuel : nat) (s : list N) : option nat :=
  match fuel with
  | O => None
  | S fuel' => ' (ok, _, s') <- tmu_utf8_extract s ;; if (ok : bool) then n <- count_loop fuel' s' ;; Some (S n) else Some O
  end.
Definition tmu_utf8_count_codepoints (s : list N) : option nat := count_loop (S (length s)) s.

(** Strings given by address and length in one memory. *)
Definition text (m : list N) (a len : nat) : option (list N) := if (a + len <=? length m)%nat then Some (firstn len (skipn a m)) else None.
Fixpoint memcmp_units (x y : list N) : Z :=
  match x, y with
  | c :: x', d :: y' => if c =? d then memcmp_units x' y' else (Z.of_N c - Z.of_N d)%Z
  | _, _ => 0%Z
  end.
Definition list_eqb (x y : list N) : bool := (length x =? length y)%nat && (memcmp_units x y =? 0)%Z.
(** tm_unicode.h:4797-4807; memcmp by its C contract (any value of the right sign; the difference here). *)
Definition tmu_utf8_equals (m : list N) (a al b bl : nat) : option bool :=
  x <- text m a al ;; y <- text m b bl ;;
  if negb (al =? bl)%nat then Some false else if (a =? b)%nat then Some true else Some (memcmp_units x y =? 0)%Z.
Definition by_length (al bl : nat) : Z := if (bl <? al)%nat then 1%Z else if (al <? bl)%nat then (-1)%Z else 0%Z.
Definition b2z (b : bool) : Z := if b then 1%Z else 0%Z.
Definition is_zero (n : nat) : bool := match n with O => true | _ => false end.
Definition is_nil (s : list N) : bool := match s with [] => true | _ => false end.
(** tm_unicode.h:4808-4829 *)
Definition tmu_utf8_compare (m : list N) (a al b bl : nat) : option Z :=
  x <- text m a al ;; y <- text m b bl ;;
  if is_zero al || is_zero bl then Some (b2z (is_zero bl) - b2z (is_zero al))%Z
  else if (a =? b)%nat then Some (by_length al bl)
  else let len := Nat.min al bl in
       let c := memcmp_units (firstn len x) (firstn len y) in
       Some (if (c =? 0)%Z then by_length al bl else c).

(** ** Comparing token by token *)
(** (int)a - (int)b for two uint32_t values, [None] if the subtraction overflows; the conversion to int is the two's
    complement one of every compiler the library supports. *)
Definition int_of (w : N) : Z := if w <? 0x80000000 then Z.of_N w else (Z.of_N w - 0x100000000)%Z.
Definition int_diff (a b : N) : option Z :=
  let d := (int_of a - int_of b)%Z in if ((-0x80000000 <=? d) && (d <=? 0x7FFFFFFF))%Z then Some d else None.
Section Tokens.
Variable St : Type.
(** The next token of a stream and the stream after it; [Some None] for "returned false", which leaves the stream alone. *)
Variable next : St -> option (option (N * St)).
Variable at_end : St -> bool.
(** The loop `while (extract(&a, &a_cp) && extract(&b, &b_cp)) { if (a_cp != b_cp) return ...; }`, tm_unicode.h:5004-5012,
    5032-5041, 5095-5098, 5303-5305, 5332-5335, 5390-5393: the two different tokens, or the streams where the loop stopped.
    If the second extraction fails the first stream has already moved. *)
Fixpoint token_loop (fuel : nat) (x y : St) : option (N * N + St * St) :=
  match fuel with
  | O => None
  | S fuel' =>
      ea <- next x ;;
      match ea with
      | None => Some (inr (x, y))
      | Some (ca, x') =>
          eb <- next y ;;
          match eb with
          | None => Some (inr (x', y))
          | Some (cb, y') => if ca =? cb then token_loop fuel' x' y' else Some (inl (ca, cb))
          end
      end
  end.
(** tm_unicode.h:5303-5308 and 5004-5013 *)
Definition token_equals (fuel : nat) (x y : St) : option bool :=
  r <- token_loop fuel x y ;;
  Some (match r with inl _ => false | inr (x', y') => at_end x' && at_end y' end).
(** tm_unicode.h:5332-5339, 5032-5045, 5095-5101, 5390-5396 *)
Definition token_compare (fuel : nat) (x y : St) : option Z :=
  r <- token_loop fuel x y ;;
  match r with
  | inl (a, b) => d <- int_diff a b ;; Some (if (d <? 0)%Z then (-1)%Z else 1%Z)
  | inr (x', y') => Some (b2z (at_end y') - b2z (at_end x'))%Z
  end.
End Tokens.
Arguments token_equals {St}. Arguments token_compare {St}. Arguments token_loop {St}.

(** The tests before the loop, tm_unicode.h:4997-5000, 5291-5294 for equality and 5023-5028, 5082-5087, 5315-5320,
    5373-5378 for comparison; [a] and [b] are the addresses. *)
Definition equals_at (rest : list N -> list N -> option bool) (m : list N) (a al b bl : nat) : option bool :=
  x <- text m a al ;; y <- text m b bl ;;
  if (a =? b)%nat then Some (al =? bl)%nat else rest x y.
Definition compare_at (rest : list N -> list N -> option Z) (m : list N) (a al b bl : nat) : option Z :=
  x <- text m a al ;; y <- text m b bl ;;
  if is_zero al || is_zero bl then Some (b2z (is_zero bl) - b2z (is_zero al))%Z
  else if (a =? b)%nat then Some (by_length al bl)
  else rest x y.

(** A case folding function gives the folded codepoints, [None] for a failed table access. *)
Section Fold.
Variable simple : N -> option N.
Variable full : N -> option (list N).
(** The extraction of the simple functions, tm_unicode.h:5004-5010. *)
Definition next_simple (s : list N) : option (option (N * list N)) :=
  ' (ok, cp, s') <- tmu_utf8_extract s ;;
  if (ok : bool) then f <- simple cp ;; Some (Some (f, s')) else Some None.
(** tm_unicode.h:5258-5283; the state is the pending folded codepoints (full_case_fold) and the octets (base). *)
Definition next_full (st : list N * list N) : option (option (N * (list N * list N))) :=
  match st with
  | (c :: pending, s) => Some (Some (c, (pending, s)))
  | ([], s) =>
      ' (ok, cp, s') <- tmu_utf8_extract s ;;
      if (ok : bool) then
        f <- full cp ;;
        match f with [] => None | c :: pending => Some (Some (c, (pending, s'))) end
      else Some None
  end.
Definition end_full (st : list N * list N) : bool := is_nil (snd st) && is_nil (fst st).
(** tm_unicode.h:4988-5014, 5016-5046 *)
Definition tmu_utf8_equals_ignore_case_simple (fuel : nat) := equals_at (token_equals next_simple is_nil fuel).
Definition tmu_utf8_compare_ignore_case_simple (fuel : nat) := compare_at (token_compare next_simple is_nil fuel).
(** tm_unicode.h:5285-5309, 5311-5340 *)
Definition tmu_utf8_equals_ignore_case (fuel : nat) := equals_at (fun x y => token_equals next_full end_full fuel ([], x) ([], y)).
Definition tmu_utf8_compare_ignore_case (fuel : nat) := compare_at (fun x y => token_compare next_full end_full fuel ([], x) ([], y)).

(** The number in front of a text, tm_unicode.h:5065-5069 and 5357-5361; uint32_t arithmetic. *)
Definition ascii_digit (c : N) : bool := (48 <=? c) && (c <=? 57).
Fixpoint number_run (s : list N) (value : N) : N * list N :=
  match s with
  | c :: s' => if ascii_digit c then number_run s' (w32 (w32 (value * 10) + (c - 48))) else (value, s)
  | [] => (value, [])
  end.
(** tm_unicode.h:5051-5076 *)
Definition next_human_simple (s : list N) : option (option (N * list N)) :=
  ' (ok, base, s') <- tmu_utf8_extract s ;;
  if (ok : bool) then
    if (base <? 48) || (57 <? base) then f <- simple base ;; Some (Some (f, s'))
    else let '(value, s'') := number_run s 0 in Some (Some (w32 (value + TMU_MAX_UTF32), s''))
  else Some None.
(** tm_unicode.h:5343-5367; [cur] is the base stream before the extraction. *)
Definition next_human (st : list N * list N) : option (option (N * (list N * list N))) :=
  e <- next_full st ;;
  match e with
  | None => Some None
  | Some (base, (pending, s')) =>
      if (base <? 48) || (57 <? base) then Some (Some (base, (pending, s')))
      else let '(value, s'') := number_run (snd st) 0 in Some (Some (w32 (value + TMU_MAX_UTF32), (pending, s'')))
  end.
(** tm_unicode.h:5078-5102 and 5369-5396 *)
Definition tmu_utf8_human_compare_simple (fuel : nat) := compare_at (token_compare next_human_simple is_nil fuel).
Definition tmu_utf8_human_compare (fuel : nat) := compare_at (fun x y => token_compare next_human end_full fuel ([], x) ([], y)).
End Fold.

(** ** Case folding a text *)
(** tmu_transform_output_stream, tm_unicode.h:4894-4899; the capacity is the length of the cells, kept in [t_cap] because
    an overflow sets it to 0. *)
Record tstream := TStream { t_buf : list N; t_used : nat; t_cap : nat; t_size : nat; t_ec : errc }.
(** tm_unicode.h:4901-4914 *)
Definition transform_put (cp : N) (o : tstream) : option tstream :=
  let remaining := (t_cap o - t_used o)%nat in
  ' (size, buf) <- tmu_utf8_encode cp (t_buf o) (t_used o) remaining ;;
  Some (if (remaining <? size)%nat then TStream buf 0 0 (t_size o + size) ERANGE
        else TStream buf (t_used o + size) (t_cap o) (t_size o + size) (t_ec o)).
Fixpoint transform_puts (cps : list N) (o : tstream) : option tstream :=
  match cps with [] => Some o | cp :: cps' => o' <- transform_put cp o ;; transform_puts cps' o' end.
(** The loop of every transform, tm_unicode.h:4978-4982 and 5234-5247, over the codepoints that replace one codepoint. *)
Fixpoint transform_loop (f : N -> option (list N)) (fuel : nat) (s : list N) (o : tstream) : option (list N * tstream) :=
  match fuel with
  | O => None
  | S fuel' =>
      ' (ok, cp, s') <- tmu_utf8_extract s ;;
      if (ok : bool) then cps <- f cp ;; o' <- transform_puts cps o ;; transform_loop f fuel' s' o' else Some (s, o)
  end.
(** tm_unicode.h:4971-4987 and 5228-5251 *)
Definition transform (f : N -> option (list N)) (s out : list N) : option (nat * errc * list N) :=
  ' (rest, o) <- transform_loop f (S (length s)) s (TStream out 0 (length out) 0 OK) ;;
  Some (t_size o, (if errc_eqb (t_ec o) OK && negb (is_nil rest) then EINVAL else t_ec o), t_buf o).
