(** Model of the extended JSON reader of tm_json.h: the functions with the suffix Ex, which know
    comments of three kinds, property names without quotation marks, raw and concatenated strings,
    more whitespace, infinities and keywords in any case.  The reader, the buffer and undefined
    behaviour are those of JsonModel.v. *)
From Coq Require Import Arith NArith List Bool.
Import ListNotations.
From Verif Require Import Base JsonModel.
Local Open Scope N_scope.

(** tm_json.h 387-459, the bits of JsonReaderFlags that only the functions Ex look at. *)
Definition bBlockComments := 1.
Definition bPythonComments := 2.
Definition bUnquotedNames := 4.
Definition bExtendedFloats := 6.
Definition bCppRaw := 9.
Definition bPythonRaw := 10.
Definition bConcatenated := 11.
Definition bConcatenatedInArrays := 12.
Definition bIgnoreCase := 15.

(** tm_json.h 1205-1236, skipWhitespaceEx with ex = true, and skipWhitespaceHelper 1187-1200. *)
Definition is_ws5 (c : N) : bool :=
  (c =? 9) || (c =? 10) || (c =? 11) || (c =? 12) || (c =? 13) || (c =? 32) || (c =? 160).
Fixpoint skip_loop_ex (p : N -> bool) (s : list N) (o l c : nat) : list N * nat * nat * nat :=
  match s with
  | x :: t =>
      if p x then
        if x =? 10 then skip_loop_ex p t (S o) (S l) 0 else skip_loop_ex p t (S o) l (S c)
      else (s, o, l, c)
  | [] => ([], o, l, c)
  end.
Definition skip_ws_ex (fl : N) (r : reader) : reader :=
  let p := if N.testbit fl bExtendedWhitespace then is_ws5 else is_ws in
  let '(s, o, l, c) := skip_loop_ex p (rest r) (off r) (line r) (col r) in set_pos r s o l c.

(** tolower, isalpha, isspace of the "C" locale. *)
Definition to_lower (c : N) : N := if (65 <=? c) && (c <=? 90) then c + 32 else c.
Definition isalpha (c : N) : bool := ((65 <=? c) && (c <=? 90)) || ((97 <=? c) && (c <=? 122)).
Definition isspace (c : N) : bool := (c =? 32) || ((9 <=? c) && (c <=? 13)).

(** tm_json.h 928-938 and 946-950, stringStartsWithIgnoreCase ([p] in lower case). *)
Fixpoint starts_with_ic (s p : list N) : bool :=
  match p, s with
  | [], _ => true
  | x :: p', y :: s' => (x =? to_lower y) && starts_with_ic s' p'
  | _ :: _, [] => false
  end.

Definition str_infinity : list N := [105; 110; 102; 105; 110; 105; 116; 121].
Definition str_nan : list N := [110; 97; 110].
Definition str_Infinity : list N := [73; 110; 102; 105; 110; 105; 116; 121].
Definition str_NaN : list N := [78; 97; 78].

(** tm_json.h 1619-1658, readNumberEx. *)
Definition read_number_ex (fl : N) (r : reader) : option (bool * reader) :=
  match rest r with
  | c :: t =>
      if N.testbit fl bExtendedFloats then
        let '(s, k) := if c =? 45 then (t, 1%nat)
                       else if (c =? 43) && N.testbit fl bPlusSign then (t, 1%nat)
                       else (rest r, 0%nat) in
        if N.testbit fl bIgnoreCase then
          if starts_with_ic s str_infinity then Some (true, advance_value (set_vt r YFloat) (8 + k))
          else if starts_with_ic s str_nan then Some (true, advance_value (set_vt r YFloat) (3 + k))
          else read_number fl r
        else
          if starts_with s str_Infinity then Some (true, advance_value (set_vt r YFloat) (8 + k))
          else if starts_with s str_NaN then Some (true, advance_value (set_vt r YFloat) (3 + k))
          else read_number fl r
      else read_number fl r
  | [] => read_number fl r
  end.

(** tm_json.h 1676-1706, readValueEx. *)
Definition read_value_ex (fl : N) (r : reader) : option (tok * reader) :=
  let sw := if N.testbit fl bIgnoreCase then starts_with_ic (rest r) else starts_with (rest r) in
  if sw str_true then Some (TValue, advance_value (set_vt r YBool) 4)
  else if sw str_false then Some (TValue, advance_value (set_vt r YBool) 5)
  else if sw str_null then Some (TValue, advance_value (set_vt r YNull) 4)
  else
    ' (ok, r) <- read_number_ex fl r;;
    if ok then Some (last r, r) else Some (TError, set_error r JUnexpectedToken).

(** tm_json.h 1843-1854, jsonParsePythonComment (called at a '#'). *)
Definition parse_python_comment (fl : N) (r : reader) : tok * reader :=
  if N.testbit fl bPythonComments then (TComment, read_comment_line fl (advance r))
  else (TError, set_error r JUnexpectedToken).

(** tm_json.h 1809-1825, jsonCountNewlines, for the text [s] of the comment. *)
Fixpoint count_newlines (s : list N) (n k : nat) : nat * nat :=
  match s with
  | [] => (n, k)
  | x :: t => if x =? 10 then count_newlines t (S n) 0 else count_newlines t n (S k)
  end.
Definition add_newlines (s : list N) (r : reader) : reader :=
  let '(n, k) := count_newlines s 0 0 in
  match n with
  | O => set_pos r (rest r) (off r) (line r) (col r + k)
  | _ => set_pos r (rest r) (off r) (line r + n) k
  end.

(** tm_json.h 1866-1892, the loop of jsonParseBlockComment; [acc] is the text of the comment up to
    here, whose length is [current.size].  When there is no further '*' the loop ends and the
    comment ends where the search began. *)
Fixpoint block_loop (fuel : nat) (r : reader) (acc : list N) : option (tok * reader) :=
  match fuel with
  | O => None
  | S fuel =>
      let finish r acc :=
        let r := add_newlines acc (set_cur r (curo r) (length acc)) in
        Some (TComment, set_pos r (rest r) (off r) (line r) (col r + 2)) in
      match memchr 42 (rest r) with
      | None => finish r acc
      | Some (a, b) =>
          let r := set_pos r b (off r + length a + 1) (line r) (col r) in
          match b with
          | [] => Some (TError, set_error r JUnexpectedEof)
          | x :: b' =>
              if x =? 47 then finish (set_pos r b' (S (off r)) (line r) (col r)) (acc ++ a)
              else block_loop fuel r (acc ++ a ++ [42])
          end
      end
  end.

(** tm_json.h 1855-1896, jsonParseBlockComment (called at "/*"). *)
Definition parse_block (fl : N) (r : reader) : option (tok * reader) :=
  if N.testbit fl bBlockComments then
    let r := advance r in
    match rest r with
    | [] => Some (TError, set_error r JUnexpectedEof)
    | x :: _ =>
        if x =? 42 then
          let r := advance r in
          match rest r with
          | [] => Some (TError, set_error r JUnexpectedEof)
          | _ => block_loop (S (length (rest r))) (set_cur r (Some (off r)) 0) []
          end
        else Some (TError, set_error r JUnexpectedToken)
    end
  else Some (TError, set_error r JUnexpectedToken).

(** tm_json.h 1897-1913, jsonParseComment. *)
Definition parse_comment_ex (fl : N) (r : reader) : option (tok * reader) :=
  if N.testbit fl bSingleLineComments || N.testbit fl bBlockComments then
    match rest r with
    | _ :: x :: _ =>
        if x =? 47 then Some (parse_comment fl r)
        else if x =? 42 then parse_block fl r
        else Some (TError, set_error r JUnexpectedToken)
    | _ => Some (TError, set_error r JUnexpectedEof)
    end
  else Some (TError, set_error r JUnexpectedToken).

Definition is_ident_start (c : N) : bool := isalpha c || (c =? 95) || (c =? 36).
Definition is_ident (c : N) : bool := isdigit c || isalpha c || (c =? 95) || (c =? 36).

(** tm_json.h 2130-2161, jsonParseUnquotedPropertyName. *)
Definition parse_unquoted (fl : N) (c : ctx) (r : reader) : option (bool * reader) :=
  if ctx_eqb c CObject && N.testbit fl bUnquotedNames && negb (tok_eqb (last r) TPropertyColon) then
    if tok_eqb (last r) TObjectStart || tok_eqb (last r) TComma then
      x <- peek r;;
      let r := set_cur r (Some (off r)) 0 in
      if isdigit x || negb (is_ident_start x) then Some (false, r)
      else Some (true, set_last (cur_end (adv_while is_ident (advance r))) TPropertyName)
    else Some (false, set_error r JUnexpectedToken)
  else Some (false, r).

(** The first condition of the two functions for raw strings. *)
Definition raw_allowed (c : ctx) (r : reader) : bool :=
  ctx_eqb c CArray || tok_eqb (last r) TPropertyColon.

(** tm_json.h 2163-2183, jsonParsePythonRawString (called at 'r' or 'R'). *)
Definition parse_python_raw (fl : N) (c : ctx) (r : reader) : option (bool * reader) :=
  if raw_allowed c r && N.testbit fl bPythonRaw then
    let r := advance r in
    match rest r with
    | [] => Some (false, set_error r JUnexpectedEof)
    | x :: _ =>
        if (x =? 34) || (x =? 39) then
          ' (ok, r) <- read_quoted fl r;;
          if ok then Some (true, set_vt (set_last r TValue) YRaw)
          else Some (false, set_error r JUnexpectedToken)
        else Some (false, set_error r JUnexpectedToken)
    end
  else Some (false, r).

(** tm_json.h 2184-2186, jsonIsValidDelimChar. *)
Definition is_delim (c : N) : bool :=
  negb (c =? 41) && negb (c =? 40) && negb (c =? 92) && negb (isspace c).

(** tm_json.h 2206-2210, the loop over the delimiter: the reader advances first, so the byte stored
    is the one after the byte tested; behind the last byte this reads outside of the buffer. *)
Fixpoint delim_loop (fuel : nat) (r : reader) (acc : list N) : option (reader * list N) :=
  match fuel with
  | O => Some (r, acc)
  | S fuel =>
      match rest r with
      | x :: _ =>
          if is_delim x then
            let r := advance r in
            d <- peek r;; delim_loop fuel r (acc ++ [d])
          else Some (r, acc)
      | [] => Some (r, acc)
      end
  end.

(** tm_json.h 2225-2242, the search for the end of a raw string.  The column stays. *)
Fixpoint raw_loop (fuel : nat) (delim : list N) (r : reader) : option (bool * reader) :=
  match fuel with
  | O => None
  | S fuel =>
      match memchr 41 (rest r) with
      | None => Some (false, set_error r JUnexpectedEof)
      | Some (a, b) =>
          let p := (off r + length a)%nat in
          let r := set_pos r b (S p) (line r) (col r) in
          if Nat.ltb (length b) (length delim) then Some (false, set_error r JUnexpectedEof)
          else if starts_with b delim then
            let r := match curo r with Some o => set_cur r (Some o) (p - o) | None => r end in
            Some (true, set_pos r (skipn (length delim) b) (off r + length delim) (line r) (col r))
          else raw_loop fuel delim r
      end
  end.

(** tm_json.h 2187-2257, jsonParseCppRawString (called at 'r' or 'R'). *)
Definition parse_cpp_raw (fl : N) (c : ctx) (r0 : reader) : option (bool * reader) :=
  if raw_allowed c r0 && N.testbit fl bCppRaw then
    let r := advance r0 in
    match rest r with
    | [] => Some (false, set_error r JUnexpectedEof)
    | x :: _ =>
        if x =? 34 then
          let r := advance r in
          match rest r with
          | [] => Some (false, set_error r JUnexpectedEof)
          | _ =>
              ' (r, delim) <- delim_loop 16 r [];;
              match rest r with
              | y :: _ =>
                  if y =? 40 then
                    let r := advance r in
                    match rest r with
                    | [] => Some (false, set_error r JUnexpectedEof)
                    | _ =>
                        let r := set_cur r (Some (off r)) 0 in
                        ' (ok, r) <- raw_loop (S (length (rest r))) (delim ++ [34]) r;;
                        if ok then Some (true, set_vt (set_last r TValue) YRaw) else Some (false, r)
                    end
                  else Some (false, r0)
              | [] => Some (false, r0)
              end
          end
        else Some (false, r0)
    end
  else Some (false, r0).

(** tm_json.h 2267-2279, the loop of jsonParseQuotedStringEx over the strings that follow the first
    one.  [cd], [cn] is [current]; [while (reader->data[0] == quot)] is evaluated without a test of
    the size. *)
Fixpoint concat_loop (fuel : nat) (fl quot : N) (r : reader) (cd cn : nat)
  : option (reader * nat) :=
  match fuel with
  | O => None
  | S fuel =>
      let r := skip_ws_ex fl r in
      match rest r with
      | [] => Some (r, cn)
      | x :: _ =>
          if x =? quot then
            ' (ok, r') <- read_quoted fl r;;
            if ok then
              o <- curo r';;
              let cn := (o + curn r' - cd)%nat in
              let r' := set_vt r' YConcat in
              y <- peek r';;
              if y =? quot then concat_loop fuel fl quot r' cd cn else Some (r', cn)
            else Some (r, cn)
          else Some (r, cn)
      end
  end.

(** tm_json.h 2259-2289, jsonParseQuotedStringEx. *)
Definition parse_quoted_ex (fl : N) (c : ctx) (r : reader) : option (tok * reader) :=
  quot <- peek r;;
  ' (t, r) <- parse_quoted fl c r;;
  if tok_eqb t TValue
     && ((N.testbit fl bConcatenated && ctx_eqb c CObject)
         || (N.testbit fl bConcatenatedInArrays && ctx_eqb c CArray)) then
    cd <- curo r;;
    ' (r, cn) <- concat_loop (S (length (rest r))) fl quot r cd (curn r);;
    match vt r with
    | YConcat => Some (t, set_cur r (Some (cd - 1)%nat) (S cn))
    | _ => Some (t, set_cur r (Some cd) cn)
    end
  else Some (t, r).

(** tm_json.h 2352-2386, the default case: a name, a raw string or another value. *)
Definition parse_other (fl : N) (c : ctx) (x : N) (r : reader) : option (tok * reader) :=
  ' (ok, r) <- parse_unquoted fl c r;;
  if ok then Some (TPropertyName, r)
  else
    ' (t, r) <-
      (if (x =? 114) || (x =? 82) then
         ' (ok, r) <- parse_cpp_raw fl c r;;
         if ok then Some (Some (last r), r)
         else if negb (err_ok (err r)) then Some (Some TError, r)
         else
           ' (ok, r) <- parse_python_raw fl c r;;
           if ok then Some (Some (last r), r)
           else if negb (err_ok (err r)) then Some (Some TError, r)
           else Some (None, r)
       else Some (None, r));;
    match t with
    | Some t => Some (t, r)
    | None =>
        if negb (err_ok (err r)) then Some (TError, r)
        else if can_value_follow r c then read_value_ex fl (set_root r)
        else Some (TError, set_error r JUnexpectedToken)
    end.

(** tm_json.h 2295-2387, one round of the loop of jsonNextTokenImplicitEx. *)
Definition next_step_ex (fl : N) (c : ctx) (r : reader) : option (tok * reader + reader) :=
  let r := skip_ws_ex fl r in
  match rest r with
  | [] =>
      match c with
      | CNull => Some (inl (TEof, set_last r TEof))
      | _ => Some (inl (TError, set_error r JUnexpectedEof))
      end
  | x :: _ =>
      if x =? 47 then t <- parse_comment_ex fl r;; Some (inl t)
      else if x =? 35 then Some (inl (parse_python_comment fl r))
      else if x =? 39 then
        if N.testbit fl bSingleQuoted then t <- parse_quoted_ex fl c r;; Some (inl t)
        else Some (inl (TError, set_error r JUnexpectedToken))
      else if x =? 34 then t <- parse_quoted_ex fl c r;; Some (inl t)
      else if (x =? 123) || (x =? 91) then Some (inl (parse_start c (x =? 123) r))
      else if (x =? 125) || (x =? 93) then Some (inl (parse_end fl c (x =? 125) r))
      else if (x =? 58) || (x =? 61) then
        if negb (ctx_eqb c CObject) || negb (tok_eqb (last r) TPropertyName)
           || ((x =? 61) && negb (N.testbit fl bAllowEqual))
        then Some (inl (TError, set_error r JUnexpectedToken))
        else Some (inr (set_last (advance r) TPropertyColon))
      else if x =? 44 then
        match c with
        | CNull => Some (inl (TError, set_error r JUnexpectedToken))
        | _ =>
            match last r with
            | TObjectEnd | TArrayEnd | TValue => Some (inr (set_last (advance r) TComma))
            | _ => Some (inl (TError, set_error r JUnexpectedToken))
            end
        end
      else t <- parse_other fl c x r;; Some (inl t)
  end.

(** tm_json.h 2291-2388, jsonNextTokenImplicitEx. *)
Fixpoint next_loop_ex (fuel : nat) (fl : N) (c : ctx) (r : reader) : option (tok * reader) :=
  match fuel with
  | O => None
  | S fuel =>
      x <- next_step_ex fl c r;;
      match x with
      | inl t => Some t
      | inr r => next_loop_ex fuel fl c r
      end
  end.
Definition next_token_ex (fl : N) (c : ctx) (r : reader) : option (tok * reader) :=
  next_loop_ex (S (length (rest r))) fl c r.

(** tm_json.h 2389-2415, jsonNextTokenEx. *)
Definition next_token_explicit_ex (fl : N) (r : reader) (st : cstack)
  : option (tok * reader * cstack) :=
  ' (t, r) <- next_token_ex fl (top_context st) r;;
  match t with
  | TObjectStart | TArrayStart =>
      match push_context st (match t with TObjectStart => CObject | _ => CArray end) with
      | Some st => Some (t, r, st)
      | None => Some (TError, set_error r JOutOfContextStack, st)
      end
  | TObjectEnd | TArrayEnd =>
      p <- pop_context st (match t with TObjectEnd => CObject | _ => CArray end);;
      match p with
      | Some st => Some (t, r, st)
      | None => Some (TError, set_error r JMismatchedBrackets, st)
      end
  | _ => Some (t, r, st)
  end.

(** tm_json.h 2077-2096, jsonIsValidUntilEofEx; no error is set for a token that is left over. *)
Fixpoint valid_until_eof_loop_ex (fuel : nat) (fl : N) (r : reader) : option (bool * reader) :=
  match fuel with
  | O => None
  | S fuel =>
      ' (t, r) <- next_token_ex fl CNull r;;
      match t with
      | TComment => valid_until_eof_loop_ex fuel fl r
      | TEof => Some (true, r)
      | _ => Some (false, r)
      end
  end.
Definition valid_until_eof_ex (fl : N) (r : reader) : option (bool * reader) :=
  match rest r with
  | [] => Some (true, r)
  | _ => if tok_eqb (last r) TEof then Some (true, r)
         else valid_until_eof_loop_ex (S (length (rest r))) fl r
  end.

(** tm_json.h 2417-2440, jsonReadRootType with ex = true. *)
Fixpoint read_root_type_ex (fuel : nat) (fl : N) (r : reader) : option (tok * reader) :=
  match fuel with
  | O => None
  | S fuel =>
      ' (t, r) <- next_token_ex fl CNull r;;
      match t with
      | TObjectStart | TArrayStart | TValue => Some (t, r)
      | TComment => read_root_type_ex fuel fl r
      | _ => Some (TError, set_error r JUnexpectedToken)
      end
  end.

(** tm_json.h 2496-2542, the second half of jsonSkipCurrent with ex = true; see [skip_brackets]. *)
Fixpoint skip_brackets_ex (fuel : nat) (fl : N) (obj : bool) (depth : nat) (r : reader)
  : option (bool * reader) :=
  match fuel with
  | O => None
  | S fuel =>
      match rest r with
      | [] => Some (false, r)
      | _ =>
          let r := skip_ws_ex fl r in
          match rest r with
          | [] => Some (false, set_error r JUnexpectedEof)
          | x :: _ =>
              let r1 := advance r in
              if x =? (if obj then 123 else 91) then skip_brackets_ex fuel fl obj (S depth) r1
              else if x =? (if obj then 125 else 93) then
                match depth with
                | O => None
                | S O => Some (true, set_last r1 (if obj then TObjectEnd else TArrayEnd))
                | S d => skip_brackets_ex fuel fl obj d r1
                end
              else if x =? 34 then
                ' (ok, r) <- read_quoted fl (set_pos r (rest r) (off r) (line r) (S (col r)));;
                if ok then skip_brackets_ex fuel fl obj depth r else Some (false, r)
              else skip_brackets_ex fuel fl obj depth r1
          end
      end
  end.

(** tm_json.h 2452-2492, the first half, see [skip_to_content]. *)
Fixpoint skip_to_content_ex (fuel : nat) (fl : N) (c : ctx) (r : reader)
  : option (bool * reader + reader) :=
  match fuel with
  | O => None
  | S fuel =>
      ' (t, r) <- next_token_ex fl c r;;
      match t with
      | TObjectStart | TArrayStart =>
          if err_ok (err r) then Some (inr r) else Some (inl (false, r))
      | TValue => Some (inl (true, r))
      | TComment => skip_to_content_ex fuel fl c r
      | _ => if err_ok (err r) then None else Some (inl (false, r))
      end
  end.

(** tm_json.h 2442-2543, jsonSkipCurrent with ex = true; see [skip_current]. *)
Definition skip_current_ex (fl : N) (c : ctx) (r : reader) : option (bool * reader) :=
  if negb (err_ok (err r)) then Some (false, r)
  else match rest r with
       | [] => Some (false, r)
       | _ =>
           match last r with
           | TObjectStart => skip_brackets_ex (S (length (rest r))) fl true 1 r
           | TArrayStart => skip_brackets_ex (S (length (rest r))) fl false 1 r
           | TPropertyName =>
               x <- skip_to_content_ex (S (length (rest r))) fl c r;;
               match x with
               | inl b => Some b
               | inr r =>
                   match last r with
                   | TObjectStart => skip_brackets_ex (S (length (rest r))) fl true 1 r
                   | TArrayStart => skip_brackets_ex (S (length (rest r))) fl false 1 r
                   | _ => None
                   end
               end
           | _ => Some (false, r)
           end
       end.

(** tm_json.h 2648-2674, the loop of jsonCopyConcatenatedString.  [t] are the [sz] bytes from [p]
    on, [out] what was written so far, [size] what is left of the buffer.  Result: the text that
    follows the last quotation mark, what was written and what is left. *)
Fixpoint concat_copy_loop (fuel : nat) (quot : N) (t out : list N) (size : nat) (add : bool)
  : option (list N * list N * nat) :=
  match fuel with
  | O => None
  | S fuel =>
      match memchr quot t with
      | None => Some (t, out, size)
      | Some (a, b) =>
          if add then
            let skip := negb (match a with [] => true | _ => false end) && negb (is_char_unescaped a) in
            u <- copy_unescaped_string (if skip then a ++ [quot] else a) size;;
            concat_copy_loop fuel quot b (out ++ u) (size - length u) skip
          else concat_copy_loop fuel quot b out size true
      end
  end.

(** tm_json.h 2638-2684, jsonCopyConcatenatedString.  The terminating null is written at
    [buffer[result]], that is, [result] bytes behind the end of what was written; [avail] are the
    bytes that belong to the caller from the start of the buffer on ([size] of them are the
    buffer). *)
Definition copy_concatenated (s : list N) (size : nat) (avail : N) : option (list N) :=
  match s with
  | [] | [_] => Some []
  | quot :: s =>
      if Nat.eqb size 0 then Some []
      else
        ' (t, out, room) <- concat_copy_loop (S (length s)) quot (firstn (Nat.min size (length s)) s) [] size true;;
        out <- put size out t;;
        if Nat.ltb (length out) room then
          assert_ (N.of_nat (length out + length out) <? avail) (Some out)
        else Some out
  end.

(** tm_json.h 2700-2714, jsonAllocateConcatenatedString.  The rest of the pool belongs to the
    caller, see [copy_concatenated]. *)
Definition allocate_concatenated (a : alloc) (s : list N) : option (jv * alloc) :=
  let n := N.of_nat (length s) in
  match allocate a n 1 with
  | None => Some (VNoString, a)
  | Some a =>
      out <- copy_concatenated s (length s) (a_cap a - (a_size a - n));;
      let diff := n - N.of_nat (length out) in
      Some (VString out, if 0 <? diff then Alloc (sub64 (a_ptr a) diff) (w64 (a_size a + diff)) (a_cap a)
                         else a)
  end.

(** tm_json.h 3015-3040, jsonAllocateValueEx. *)
Definition token_value_ex (buf : list N) (r : reader) (a : alloc) : option (jv * alloc) :=
  match vt r with
  | YString => allocate_unescaped a (current buf r)
  | YConcat => allocate_concatenated a (current buf r)
  | YRaw => Some (VString (current buf r), a)
  | t => Some (VScalar t (current buf r), a)
  end.

(** tm_json.h 3041-3071, jsonReadObjectEx counts the members. *)
Fixpoint count_members_ex (fuel : nat) (fl : N) (r : reader) (n : nat)
  : option (jerr * reader + nat) :=
  match fuel with
  | O => None
  | S fuel =>
      ' (t, r) <- next_token_ex fl CObject r;;
      match t with
      | TPropertyName =>
          ' (_, r) <- skip_current_ex fl CObject r;;
          count_members_ex fuel fl r (S n)
      | TObjectEnd => Some (inr n)
      | TComment => count_members_ex fuel fl r n
      | _ => if err_ok (err r) then None else Some (inl (err r, r))
      end
  end.

(** tm_json.h 3145-3180, jsonReadArrayEx counts the values (less than 2^31 of them). *)
Fixpoint count_values_ex (fuel : nat) (fl : N) (r : reader) (n : nat)
  : option (jerr * reader + nat) :=
  match fuel with
  | O => None
  | S fuel =>
      ' (t, r) <- next_token_ex fl CArray r;;
      match t with
      | TObjectStart | TArrayStart =>
          ' (_, r) <- skip_current_ex fl CArray r;;
          count_values_ex fuel fl r (S n)
      | TValue => count_values_ex fuel fl r (S n)
      | TComment => count_values_ex fuel fl r n
      | TArrayEnd => Some (inr n)
      | _ => if err_ok (err r) then None else Some (inl (err r, r))
      end
  end.

(** tm_json.h 3041-3232, jsonReadObjectEx and jsonReadArrayEx; see [read_object]. *)
Fixpoint read_object_ex (fuel : nat) (fl : N) (buf : list N) (r : reader) (a : alloc)
  : option (jerr * reader * alloc * jv) :=
  match fuel with
  | O => None
  | S fuel =>
      c <- count_members_ex (S (length (rest r))) fl r 0;;
      match c with
      | inl (e, r) => Some (e, r, a, VUndef)
      | inr n =>
          match allocate a (w64 (N.of_nat n * sizeof_node)) 8 with
          | None => Some (JOutOfMemory, r, a, VUndef)
          | Some a => object_loop_ex fuel fl buf r a n []
          end
      end
  end
with object_loop_ex (fuel : nat) (fl : N) (buf : list N) (r : reader) (a : alloc) (cap : nat)
       (acc : list (list N * jv)) : option (jerr * reader * alloc * jv) :=
  match fuel with
  | O => None
  | S fuel =>
      ' (t, r) <- next_token_ex fl CObject r;;
      match t with
      | TPropertyName =>
          if Nat.ltb (length acc) cap then member_loop_ex fuel fl buf r a cap acc (current buf r)
          else None
      | TComment => object_loop_ex fuel fl buf r a cap acc
      | TObjectEnd => Some (err r, r, a, VObject cap (rev acc))
      | _ => if err_ok (err r) then None else Some (err r, r, a, VUndef)
      end
  end
with member_loop_ex (fuel : nat) (fl : N) (buf : list N) (r : reader) (a : alloc) (cap : nat)
       (acc : list (list N * jv)) (name : list N) : option (jerr * reader * alloc * jv) :=
  match fuel with
  | O => None
  | S fuel =>
      ' (t, r) <- next_token_ex fl CObject r;;
      match t with
      | TObjectStart =>
          ' (e, r, a, v) <- read_object_ex fuel fl buf r a;;
          if err_ok e then object_loop_ex fuel fl buf r a cap ((name, v) :: acc)
          else Some (e, r, a, VUndef)
      | TArrayStart =>
          ' (e, r, a, v) <- read_array_ex fuel fl buf r a;;
          if err_ok e then object_loop_ex fuel fl buf r a cap ((name, v) :: acc)
          else Some (e, r, a, VUndef)
      | TValue =>
          ' (v, a) <- token_value_ex buf r a;;
          object_loop_ex fuel fl buf r a cap ((name, v) :: acc)
      | TComment => member_loop_ex fuel fl buf r a cap acc name
      | _ => if err_ok (err r) then None else Some (err r, r, a, VUndef)
      end
  end
with read_array_ex (fuel : nat) (fl : N) (buf : list N) (r : reader) (a : alloc)
  : option (jerr * reader * alloc * jv) :=
  match fuel with
  | O => None
  | S fuel =>
      c <- count_values_ex (S (length (rest r))) fl r 0;;
      match c with
      | inl (e, r) => Some (e, r, a, VUndef)
      | inr n =>
          match allocate a (w64 (N.of_nat n * sizeof_value)) 8 with
          | None => Some (JOutOfMemory, r, a, VUndef)
          | Some a => array_loop_ex fuel fl buf r a n []
          end
      end
  end
with array_loop_ex (fuel : nat) (fl : N) (buf : list N) (r : reader) (a : alloc) (cap : nat)
       (acc : list jv) : option (jerr * reader * alloc * jv) :=
  match fuel with
  | O => None
  | S fuel =>
      ' (t, r) <- next_token_ex fl CArray r;;
      match t with
      | TObjectStart =>
          if Nat.ltb (length acc) cap then
            ' (e, r, a, v) <- read_object_ex fuel fl buf r a;;
            if err_ok e then array_loop_ex fuel fl buf r a cap (v :: acc)
            else Some (e, r, a, VUndef)
          else None
      | TArrayStart =>
          if Nat.ltb (length acc) cap then
            ' (e, r, a, v) <- read_array_ex fuel fl buf r a;;
            if err_ok e then array_loop_ex fuel fl buf r a cap (v :: acc)
            else Some (e, r, a, VUndef)
          else None
      | TValue =>
          if Nat.ltb (length acc) cap then
            ' (v, a) <- token_value_ex buf r a;;
            array_loop_ex fuel fl buf r a cap (v :: acc)
          else None
      | TComment => array_loop_ex fuel fl buf r a cap acc
      | TArrayEnd => Some (err r, r, a, VArray cap (rev acc))
      | _ => if err_ok (err r) then None else Some (err r, r, a, VUndef)
      end
  end.

(** tm_json.h 3247-3288, jsonMakeDocumentEx. *)
Definition make_document_ex (fl : N) (buf : list N) (a : alloc) : option (document * alloc) :=
  let fuel := (3 * length buf + 3)%nat in
  ' (t, r) <- read_root_type_ex (S (length buf)) fl (make_reader buf);;
  ' (e, r, a, v) <-
    match t with
    | TError => Some (JOk, r, a, None)
    | TObjectStart =>
        ' (e, r, a, v) <- read_object_ex fuel fl buf r a;; Some (e, r, a, Some v)
    | TArrayStart =>
        ' (e, r, a, v) <- read_array_ex fuel fl buf r a;; Some (e, r, a, Some v)
    | TValue =>
        ' (v, a) <- token_value_ex buf r a;; Some (JOk, r, a, Some v)
    | _ => None
    end;;
  r <- (if err_ok (err r) then ' (_, r) <- valid_until_eof_ex fl r;; Some r else Some r);;
  assert_ (match rest r with [] => true | _ => negb (err_ok (err r)) end)
    (if err_ok (err r) then Some (Doc v e 0 0 (Some 0%nat) 0, a)
     else Some (Doc None (err r) (line r) (col r) (curo r) (curn r), a)).

(** tm_json.h 3234-3246, jsonAllocateDocumentEx. *)
Definition allocate_document_ex (fl : N) (buf : list N) (ptr : N) : option document :=
  let n := w64 (N.of_nat (length buf) * sizeof_value) in
  ' (d, _) <- make_document_ex fl buf (Alloc ptr 0 n);; Some d.
