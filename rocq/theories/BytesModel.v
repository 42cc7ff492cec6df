(** Model of the conversion of raw bytes to UTF-8 (tm_unicode.h:3771-4468).
    A byte stream (cur, end) is the list of the bytes still to be read. Sizes are [nat]. Allocation is an oracle: [fresh k n]
    answers the k-th request, for n octets, with the cells of the new block or a refusal. *)
From Coq Require Import Arith NArith ZArith List Bool.
From Verif Require Import Base CodecModel UniModel.
Import ListNotations.
Local Open Scope N_scope.

(** tm_unicode.h:348-360 *)
Inductive encoding := E_unknown | E_utf8 | E_utf8_bom | E_utf16be | E_utf16be_bom | E_utf16le | E_utf16le_bom
  | E_utf32be | E_utf32be_bom | E_utf32le | E_utf32le_bom.

(** tm_unicode.h:3774-3804 on the bytes in the order in which they are read; uint16_t and uint32_t. *)
Definition u16_be (a b : N) : N := w16 (N.lor (w16 b) (N.shiftl a 8)).
Definition u16_le (a b : N) : N := w16 (N.lor (w16 a) (N.shiftl b 8)).
Definition u32_be (a b c d : N) : N := w32 (N.lor (N.lor (N.lor d (N.shiftl c 8)) (N.shiftl b 16)) (N.shiftl a 24)).
Definition u32_le (a b c d : N) : N := w32 (N.lor (N.lor (N.lor a (N.shiftl b 8)) (N.shiftl c 16)) (N.shiftl d 24)).

(** A pointer to output memory: null or a block, which may be the one the caller passed in (tmu_contents* input). *)
Inductive mem := Null | Block (input : bool) (cells : list N).
(** tmu_conversion_output_stream, tm_unicode.h:3806-3813, with three ghosts: the number of allocation requests so far,
    whether the block of the input has been freed, and the cells of a caller's buffer after the stream has forgotten it. *)
Record bstream := BStream { b_data : mem; b_size : nat; b_necessary : nat; b_capacity : nat; b_grow : bool; b_owns : bool;
  b_ec : errc; b_enc : encoding; b_inv : bool; b_requests : nat; b_input_freed : bool; b_left : list N }.
Definition cells (o : bstream) : list N := match b_data o with Null => [] | Block _ c => c end.
Definition set_cells (o : bstream) (c : list N) : bstream :=
  BStream (match b_data o with Null => Null | Block i _ => Block i c end) (b_size o) (b_necessary o) (b_capacity o) (b_grow o) (b_owns o) (b_ec o) (b_enc o) (b_inv o) (b_requests o) (b_input_freed o) (b_left o).
Definition set_size (o : bstream) (n : nat) : bstream :=
  BStream (b_data o) n (b_necessary o) (b_capacity o) (b_grow o) (b_owns o) (b_ec o) (b_enc o) (b_inv o) (b_requests o) (b_input_freed o) (b_left o).
Definition set_necessary (o : bstream) (n : nat) : bstream :=
  BStream (b_data o) (b_size o) n (b_capacity o) (b_grow o) (b_owns o) (b_ec o) (b_enc o) (b_inv o) (b_requests o) (b_input_freed o) (b_left o).
Definition set_ec (o : bstream) (e : errc) : bstream :=
  BStream (b_data o) (b_size o) (b_necessary o) (b_capacity o) (b_grow o) (b_owns o) e (b_enc o) (b_inv o) (b_requests o) (b_input_freed o) (b_left o).
Definition set_enc (o : bstream) (e : encoding) : bstream :=
  BStream (b_data o) (b_size o) (b_necessary o) (b_capacity o) (b_grow o) (b_owns o) (b_ec o) e (b_inv o) (b_requests o) (b_input_freed o) (b_left o).
Definition set_inv (o : bstream) (i : bool) : bstream :=
  BStream (b_data o) (b_size o) (b_necessary o) (b_capacity o) (b_grow o) (b_owns o) (b_ec o) (b_enc o) i (b_requests o) (b_input_freed o) (b_left o).

(** tm_unicode.h:3815-3828 *)
Definition make_stream (data : mem) (len : nat) (can_grow : bool) : bstream := BStream data 0 0 len can_grow false OK E_unknown false 0 false [].

Section Bytes.
Variable fresh : nat -> nat -> option (list N).

(** tm_unicode.h:3830-3842 *)
Definition tmu_alloc_output_stream (o : bstream) (capacity : nat) : bool * bstream :=
  if b_grow o && (b_capacity o <? capacity)%nat then
    match fresh (b_requests o) capacity with
    | None => (false, BStream Null (b_size o) (b_necessary o) (b_capacity o) (b_grow o) (b_owns o) ENOMEM (b_enc o) (b_inv o) (S (b_requests o)) (b_input_freed o) (b_left o))
    | Some c => (true, BStream (Block false c) 0 (b_necessary o) capacity (b_grow o) true (b_ec o) (b_enc o) (b_inv o) (S (b_requests o)) (b_input_freed o) (b_left o))
    end
  else (true, o).

(** tm_unicode.h:3844-3854 *)
Definition is_input (m : mem) : bool := match m with Block true _ => true | _ => false end.
Definition tmu_destroy_output (o : bstream) : bstream :=
  BStream Null 0 (b_necessary o) 0 (b_grow o) false (b_ec o) (b_enc o) (b_inv o) (b_requests o)
    (b_input_freed o || (b_owns o && is_input (b_data o)))
    (if b_owns o then b_left o else match b_data o with Null => b_left o | Block _ c => c end).

(** tm_unicode.h:3856-3882; after a realloc the old block is gone, its cells are in front of the new block. *)
Definition tmu_output_grow (o : bstream) (by_at_least : nat) : option (bool * bstream) :=
  assert_ (b_grow o) (assert_ (b_capacity o <? b_size o + by_at_least)%nat (assert_ (errc_eqb (b_ec o) OK)
  (let new_capacity := Nat.max (b_capacity o + b_capacity o / 2) (b_capacity o + by_at_least) in
   let grown c freed := BStream (Block false c) (b_size o) (b_necessary o) new_capacity (b_grow o) true (b_ec o) (b_enc o) (b_inv o) (S (b_requests o)) freed (b_left o) in
   let failed := (false, tmu_destroy_output (BStream (b_data o) (b_size o) (b_necessary o) (b_capacity o) (b_grow o) (b_owns o) ENOMEM (b_enc o) (b_inv o) (S (b_requests o)) (b_input_freed o) (b_left o))) in
   match b_data o, b_owns o with
   | Block i old, true =>
       assert_ (0 <? b_capacity o)%nat
       (match fresh (b_requests o) new_capacity with
        | None => Some failed
        | Some c => Some (true, grown (old ++ skipn (length old) c) (b_input_freed o || i))
        end)
   | _, _ =>
       match fresh (b_requests o) new_capacity with
       | None => Some failed
       | Some c => c <- (if b_owns o then Some c else write_list c 0 (firstn (b_size o) (cells o))) ;; Some (true, grown c (b_input_freed o))
       end
   end))).

(** tm_unicode.h:3884-3906 *)
Definition tmu_output_append_codepoint (o : bstream) (cp : N) : option (bool * bstream) :=
  let remaining := (b_capacity o - b_size o)%nat in
  ' (size, c) <- tmu_utf8_encode cp (cells o) (b_size o) remaining ;;
  let o := set_necessary (set_cells o c) (b_necessary o + size) in
  if errc_eqb (b_ec o) OK then
    if (remaining <? size)%nat then
      if b_grow o then
        ' (ok, o) <- tmu_output_grow o size ;;
        if (ok : bool) then
          let remaining := (b_capacity o - b_size o)%nat in
          ' (size, c) <- tmu_utf8_encode cp (cells o) (b_size o) remaining ;;
          assert_ (size <=? remaining)%nat (Some (true, set_size (set_cells o c) (b_size o + size)))
        else Some (false, o)
      else Some (true, set_ec o ERANGE)
    else Some (true, set_size o (b_size o + size))
  else Some (true, o).

(** tm_unicode.h:3908-3929 *)
Definition tmu_output_append_str (o : bstream) (str : list N) : option (bool * bstream) :=
  let len := length str in
  assert_ (0 <? len)%nat
  (let remaining := (b_capacity o - b_size o)%nat in
   let o := set_necessary o (b_necessary o + len) in
   let put (o : bstream) := assert_ (len <=? b_capacity o - b_size o)%nat
     (c <- write_list (cells o) (b_size o) str ;; Some (true, set_size (set_cells o c) (b_size o + len))) in
   if errc_eqb (b_ec o) OK then
     if (remaining <? len)%nat then
       if b_grow o then ' (ok, o) <- tmu_output_grow o len ;; if (ok : bool) then put o else Some (false, o)
       else Some (true, set_ec o ERANGE)
     else put o
   else Some (true, o)).

(** tm_unicode.h:3931-3977. [len = start - end] is a size_t below zero: converted to ptrdiff_t it is the negative difference.
    A memmove of [size - offset] octets with [offset] beyond [size] is undefined. *)
Definition tmu_output_replace_pos (o : bstream) (start stop : nat) (str : list N) : option (bool * bstream) :=
  let size := b_size o in
  assert_ (0 <? length str)%nat (assert_ (start <=? size)%nat (assert_ (stop <=? size)%nat (assert_ (start <=? stop)%nat
  (if (start =? size)%nat then tmu_output_append_str o str
   else
     let diff := (Z.of_nat (length str) - (Z.of_nat start - Z.of_nat stop))%Z in
     if (diff =? 0)%Z then c <- write_list (cells o) start str ;; Some (true, set_cells o c)
     else
       ' (ok, o, offset) <-
         (if (diff <? 0)%Z then Some (true, o, (start + length str)%nat)
          else
            let grow_amount := Z.to_nat diff in
            if (b_capacity o - size <? grow_amount)%nat then
              if b_grow o then ' (ok, o) <- tmu_output_grow o grow_amount ;; Some ((ok : bool), o, (stop + grow_amount)%nat)
              else Some (false, o, 0%nat)
            else Some (true, o, (stop + grow_amount)%nat)) ;;
       if (ok : bool) then
         c <- (if (stop =? size)%nat then Some (cells o)
               else assert_ (offset <=? size)%nat (assert_ (stop + (size - offset) <=? length (cells o))%nat
                      (write_list (cells o) offset (firstn (size - offset) (skipn stop (cells o)))))) ;;
         c <- write_list c start str ;;
         assert_ (0 <=? Z.of_nat size + diff)%Z (Some (true, set_size (set_cells o c) (Z.to_nat (Z.of_nat size + diff))))
       else Some (false, o))))).

Inductive step := Go (o : bstream) | Stop (o : bstream).
(** What the loops do with one codepoint, tm_unicode.h:4006-4026 and 4056-4076. *)
Definition handle (v : validate) (rep : list N) (cp : N) (o : bstream) : option step :=
  let of_append (r : bool * bstream) := let '(ok, o) := r in if (ok : bool) then Go o else Stop o in
  if tmu_is_valid_codepoint cp then r <- tmu_output_append_codepoint o cp ;; Some (of_append r)
  else
    let o := set_inv o true in
    match v with
    | V_skip => Some (Go o)
    | V_error => Some (Stop (tmu_destroy_output (set_ec o EINVAL)))
    | V_replace => r <- tmu_output_append_str o rep ;; Some (of_append r)
    end.
(** tm_unicode.h:3989-4026: the bytes left over and the stream, or the stream at an early return. *)
Fixpoint utf16_loop (ext : N -> N -> N) (v : validate) (rep bytes : list N) (o : bstream) : option (list N * step) :=
  match bytes with
  | b0 :: b1 :: rest =>
      let lead := ext b0 b1 in
      if is_lead lead then
        match rest with
        | c0 :: c1 :: rest2 =>
            let trail := ext c0 c1 in
            r <- handle v rep (if is_trail trail then pair_codepoint lead trail else TMU_INVALID_CODEPOINT) o ;;
            match r with Go o => utf16_loop ext v rep rest2 o | Stop o => Some (rest2, Stop o) end
        | _ =>
            r <- handle v rep TMU_INVALID_CODEPOINT o ;;
            match r with Go o => utf16_loop ext v rep rest o | Stop o => Some (rest, Stop o) end
        end
      else
        r <- handle v rep lead o ;;
        match r with Go o => utf16_loop ext v rep rest o | Stop o => Some (rest, Stop o) end
  | _ => Some (bytes, Go o)
  end.
(** tm_unicode.h:4054-4076 *)
Fixpoint utf32_loop (ext : N -> N -> N -> N -> N) (v : validate) (rep bytes : list N) (o : bstream) : option (list N * step) :=
  match bytes with
  | b0 :: b1 :: b2 :: b3 :: rest =>
      r <- handle v rep (ext b0 b1 b2 b3) o ;;
      match r with Go o => utf32_loop ext v rep rest o | Stop o => Some (rest, Stop o) end
  | _ => Some (bytes, Go o)
  end.
(** The terminator, tm_unicode.h:4034-4041, 4084-4091, 4180-4190, 4368-4373, 4455-4460: answers whether it was appended.
    [--size] of a size 0 (possible only together with ERANGE, where the size is replaced by the necessary one at the end)
    wraps in the code and is 0 here. *)
Definition terminate (o : bstream) : option (bool * bstream) :=
  ' (ok, o) <- tmu_output_append_codepoint o 0 ;; Some ((ok : bool), if ok then set_size o (pred (b_size o)) else o).
Definition ok_or_range (e : errc) : bool := match e with OK | ERANGE => true | _ => false end.
(** tm_unicode.h:4028-4041 and 4078-4091 *)
Definition loop_end (nullterminate : bool) (r : list N * step) : option bstream :=
  match r with
  | (_, Stop o) => Some o
  | (more, Go o) =>
      if negb (match more with [] => true | _ => false end) && errc_eqb (b_ec o) OK then Some (tmu_destroy_output (set_ec o EINVAL))
      else if nullterminate && ok_or_range (b_ec o) then ' (_, o) <- terminate o ;; Some o
      else Some o
  end.
(** tm_unicode.h:3979-4042 and 4044-4092: the two functions differ in the loop. *)
Definition convert_bytes (loop : validate -> list N -> list N -> bstream -> option (list N * step)) (v : validate) (rep : list N) (nullterminate : bool) (bytes : list N) (o : bstream) : option bstream :=
  assert_ (match v, rep with V_replace, [] => false | _, _ => true end)
  (let '(ok, o) := tmu_alloc_output_stream o (length bytes + length bytes / 2) in
   if ok then r <- loop v rep bytes o ;; loop_end nullterminate r else Some o).

Fixpoint same (a b : list N) : bool := match a, b with [], [] => true | x :: a', y :: b' => (x =? y) && same a' b' | _, _ => false end.
(** tm_unicode.h:4094-4115; note that a stream which is only a byte order mark does not count. *)
Definition starts (bom bytes : list N) : bool := (length bom <? length bytes)%nat && same (firstn (length bom) bytes) bom.
(** tm_unicode.h:3552-3556 *)
Definition utf8_bom : list N := [0xEF; 0xBB; 0xBF].
Definition utf32_be_bom : list N := [0; 0; 0xFE; 0xFF].
Definition utf32_le_bom : list N := [0xFF; 0xFE; 0; 0].
Definition utf16_be_bom : list N := [0xFE; 0xFF].
Definition utf16_le_bom : list N := [0xFF; 0xFE].

(** tm_unicode.h:4168-4322 *)
Definition tmu_convert_bytes_to_utf8_internal (bytes : list N) (enc : encoding) (v : validate) (rep : list N) (nullterminate : bool) (o : bstream) : option (bool * bstream) :=
  assert_ (match v, rep with V_replace, [] => false | _, _ => true end)
  (let conv loop n e o := o <- convert_bytes loop v rep nullterminate (skipn n bytes) o ;; Some (set_enc o e) in
   let detected loop n e := o <- convert_bytes loop v rep nullterminate (skipn n bytes) (set_enc o e) ;; Some (true, o) in
   let given loop bom with_bom e e_bom :=
     if starts bom bytes then o <- conv loop (length bom) e_bom o ;; Some (errc_eqb (b_ec o) OK, o)
     else if (with_bom : bool) then Some (false, set_ec o EINVAL)
     else o <- conv loop 0%nat e o ;; Some (errc_eqb (b_ec o) OK, o) in
   let utf8 (with_bom : bool) :=
     if starts utf8_bom bytes then Some (false, set_enc o E_utf8_bom)
     else if with_bom then Some (false, set_ec o EINVAL)
     else Some (false, set_enc o E_utf8) in
   match bytes with
   | [] =>
       if nullterminate then
         ' (ok, o) <- terminate o ;;
         if (ok : bool) then Some (true, o) else Some (false, set_necessary (set_ec o ERANGE) 1)
       else Some (true, o)
   | _ =>
       match enc with
       | E_unknown =>
           if starts utf8_bom bytes then Some (false, set_enc o E_utf8_bom)
           else if starts utf32_be_bom bytes then detected (utf32_loop u32_be) 4%nat E_utf32be_bom
           else if starts utf32_le_bom bytes then detected (utf32_loop u32_le) 4%nat E_utf32le_bom
           else if starts utf16_be_bom bytes then detected (utf16_loop u16_be) 2%nat E_utf16be_bom
           else if starts utf16_le_bom bytes then detected (utf16_loop u16_le) 2%nat E_utf16le_bom
           else Some (false, set_enc o E_utf8)
       | E_utf8 => utf8 false
       | E_utf8_bom => utf8 true
       | E_utf32be => given (utf32_loop u32_be) utf32_be_bom false E_utf32be E_utf32be_bom
       | E_utf32be_bom => given (utf32_loop u32_be) utf32_be_bom true E_utf32be E_utf32be_bom
       | E_utf32le => given (utf32_loop u32_le) utf32_le_bom false E_utf32le E_utf32le_bom
       | E_utf32le_bom => given (utf32_loop u32_le) utf32_le_bom true E_utf32le E_utf32le_bom
       | E_utf16be => given (utf16_loop u16_be) utf16_be_bom false E_utf16be E_utf16be_bom
       | E_utf16be_bom => given (utf16_loop u16_be) utf16_be_bom true E_utf16be E_utf16be_bom
       | E_utf16le => given (utf16_loop u16_le) utf16_le_bom false E_utf16le E_utf16le_bom
       | E_utf16le_bom => given (utf16_loop u16_le) utf16_le_bom true E_utf16le E_utf16le_bom
       end
   end).

(** ** Into a buffer of the caller *)
(** The copying loop, tm_unicode.h:4425-4453; every iteration consumes at least one byte. *)
Fixpoint copy_loop (fuel : nat) (v : validate) (rep bytes : list N) (o : bstream) : option bstream :=
  match bytes with
  | [] => Some o
  | _ =>
      match fuel with
      | O => None
      | S fuel' =>
          range <- tmu_utf8_valid_range bytes ;;
          o <- (match range with O => Some o | _ => ' (_, o) <- tmu_output_append_str o (firstn range bytes) ;; Some o end) ;;
          match skipn range bytes with
          | [] => Some o
          | _ :: rest =>
              let o := set_inv o true in
              match v with
              | V_skip => copy_loop fuel' v rep rest o
              | V_replace => ' (_, o) <- tmu_output_append_str o rep ;; copy_loop fuel' v rep rest o
              | V_error => Some (set_ec o EINVAL)
              end
          end
      end
  end.
Record conversion := Conversion { v_size : nat; v_ec : errc; v_enc : encoding; v_inv : bool }.
(** tm_unicode.h:4401-4468; the caller's buffer afterwards is the second component. *)
Definition tmu_utf8_convert_from_bytes (bytes : list N) (enc : encoding) (v : validate) (rep : list N) (nullterminate : bool) (out : list N) : option (conversion * list N) :=
  ' (converted, o) <- tmu_convert_bytes_to_utf8_internal bytes enc v rep nullterminate (make_stream (Block false out) (length out) false) ;;
  o <- (if errc_eqb (b_ec o) OK && negb converted && (0 <? length bytes)%nat then
          let input := if starts utf8_bom bytes then skipn 3 bytes else bytes in
          o <- copy_loop (length input) v rep input o ;;
          if nullterminate && ok_or_range (b_ec o) then ' (_, o) <- terminate o ;; Some o else Some o
        else Some o) ;;
  Some (Conversion (match b_ec o with ERANGE => b_necessary o | _ => b_size o end) (b_ec o) (b_enc o) (b_inv o),
        match b_data o with Block _ c => c | Null => b_left o end).

(** ** Taking over the input *)
(** tm_unicode.h:4117-4140 *)
Fixpoint replace_loop (fuel : nat) (rep : list N) (cur remaining : nat) (inv : bool) (o : bstream) : option bstream :=
  match remaining with
  | O => Some (set_inv o inv)
  | _ =>
      match fuel with
      | O => None
      | S fuel' =>
          range <- tmu_utf8_valid_range (firstn remaining (skipn cur (cells o))) ;;
          if (range =? remaining)%nat then Some (set_inv o inv)
          else
            ' (ok, o) <- tmu_output_replace_pos o (cur + range) (cur + range + 1) rep ;;
            if (ok : bool) then replace_loop fuel' rep (cur + length rep + range) (remaining - (range + 1)) true o
            else Some (set_inv (tmu_destroy_output (set_ec o ENOMEM)) true)
      end
  end.
(** tm_unicode.h:4142-4166 *)
Definition tmu_output_validate_inplace (v : validate) (rep : list N) (o : bstream) : option bstream :=
  match v with
  | V_skip =>
      ' (n, c) <- tmu_utf8_skip_invalid (firstn (b_size o) (cells o)) ;;
      Some (set_size (set_inv (set_cells o (c ++ skipn (b_size o) (cells o))) (negb (n =? b_size o)%nat)) n)
  | V_replace => replace_loop (b_size o) rep 0 (b_size o) false o
  | V_error =>
      range <- tmu_utf8_valid_range (firstn (b_size o) (cells o)) ;;
      Some (set_size (if (range =? b_size o)%nat then o else set_ec (set_inv o true) EINVAL) range)
  end.
(** What the caller's tmu_contents refers to afterwards. *)
Inductive input_after := Zeroed | Kept (c : list N) | Dangling.
(** tm_unicode.h:4324-4399; the input is a block with [input] as its cells, of which [size] are used. *)
Definition tmu_utf8_convert_from_bytes_dynamic (input : list N) (size : nat) (enc : encoding) (v : validate) (rep : list N) (nullterminate : bool)
  : option (conversion * mem * nat * input_after) :=
  assert_ (size <=? length input)%nat
  (let bytes := firstn size input in
   ' (converted, o) <- tmu_convert_bytes_to_utf8_internal bytes enc v rep nullterminate (make_stream Null 0 true) ;;
   let answer (o : bstream) data n cap after := Some (Conversion n (b_ec o) (b_enc o) (b_inv o), data, cap, after) in
   if errc_eqb (b_ec o) OK then
     if converted then answer o (b_data o) (b_size o) (b_capacity o) (Kept input)
     else
       let o := BStream (Block true input) size (b_necessary o) (length input) (b_grow o) true (b_ec o) (b_enc o) (b_inv o) (b_requests o) (b_input_freed o) (b_left o) in
       o <- (if starts utf8_bom bytes then c <- write_list (cells o) 0 (firstn (size - 3) (skipn 3 (cells o))) ;; Some (set_size (set_cells o c) (size - 3))
             else Some o) ;;
       o <- tmu_output_validate_inplace v rep o ;;
       o <- (if nullterminate && ok_or_range (b_ec o) then ' (_, o) <- terminate o ;; Some o else Some o) ;;
       if errc_eqb (b_ec o) OK then answer o (b_data o) (b_size o) (b_capacity o) Zeroed
       else answer o Null 0%nat 0%nat (if b_input_freed o then Dangling else Kept (cells o))
   else
     assert_ (match b_data o with Null => true | _ => false end) (assert_ (b_size o =? 0)%nat (assert_ (b_capacity o =? 0)%nat
       (answer o Null 0%nat 0%nat (Kept input))))).
End Bytes.
