(** Model of the JSON reader and of the document functions of tm_json.h (the functions without the
    suffix Ex, C++ on an LP64 platform).

    The buffer handed to the reader is a list of bytes.  [reader->data] is the offset [off] into it
    and [rest] are the [reader->size] bytes from there to the end of the buffer; the functions keep
    [data + size] at the end of the buffer, so one of the two determines the other.  Reading
    [data[0]] when [rest] is empty is undefined behaviour ([None]).  The bit TMJ_ROOT_ENTERED of
    [reader->flags] is kept apart as [root]; the remaining bits never change and are the
    parameter [fl].  Offsets, sizes, lines and columns are [nat] (they are bounded by the size of
    the buffer, plus 1). *)
From Coq Require Import Arith NArith List Bool.
Import ListNotations.
Require Import Verif.Base.
Local Open Scope N_scope.

(** tm_json.h 365-385, JsonTokenType. *)
Inductive tok :=
| TEof | TPropertyName | TObjectStart | TArrayStart | TObjectEnd | TArrayEnd | TValue | TComment
| TComma | TPropertyColon | TError.

(** tm_json.h 352-366, JsonValueType ([YRaw] and [YConcat] are only produced by the functions with
    the suffix Ex, see JxModel.v). *)
Inductive vtype := YNull | YString | YObject | YArray | YInt | YUInt | YBool | YFloat | YRaw | YConcat.

(** tm_json.h 479, JsonContext. *)
Inductive ctx := CNull | CObject | CArray.

(** tm_json.h 481-494, JsonErrorType. *)
Inductive jerr :=
| JOk | JUnexpectedToken | JUnexpectedEof | JIllformedString | JMismatchedBrackets
| JOutOfContextStack | JNoRoot | JOutOfMemory | JInternal.

Definition tok_eqb (a b : tok) : bool :=
  match a, b with
  | TEof, TEof | TPropertyName, TPropertyName | TObjectStart, TObjectStart
  | TArrayStart, TArrayStart | TObjectEnd, TObjectEnd | TArrayEnd, TArrayEnd | TValue, TValue
  | TComment, TComment | TComma, TComma | TPropertyColon, TPropertyColon | TError, TError => true
  | _, _ => false
  end.
Definition ctx_eqb (a b : ctx) : bool :=
  match a, b with
  | CNull, CNull | CObject, CObject | CArray, CArray => true
  | _, _ => false
  end.
Definition err_ok (e : jerr) : bool := match e with JOk => true | _ => false end.

(** tm_json.h 387-459, the bits of JsonReaderFlags that the modelled functions look at. *)
Definition bSingleLineComments := 0.
Definition bTrailingComma := 3.
Definition bSingleQuoted := 5.
Definition bHexadecimal := 7.
Definition bEscapedMultiline := 8.
Definition bAllowEqual := 13.
Definition bPlusSign := 14.
Definition bLeadTrailPoint := 16.
Definition bExtendedWhitespace := 17.

(** tm_json.h 515-533, JsonReader, without the context stack (see [cstack] below).  [curo] is
    [current.data] as an offset into the buffer, [None] for a null pointer. *)
Record reader := Reader {
  rest : list N;
  off : nat;
  line : nat;
  col : nat;
  curo : option nat;
  curn : nat;
  last : tok;
  vt : vtype;
  root : bool;
  err : jerr }.

Definition set_pos (r : reader) (s : list N) (o l c : nat) : reader :=
  Reader s o l c (curo r) (curn r) (last r) (vt r) (root r) (err r).
Definition set_cur (r : reader) (o : option nat) (n : nat) : reader :=
  Reader (rest r) (off r) (line r) (col r) o n (last r) (vt r) (root r) (err r).
Definition set_last (r : reader) (t : tok) : reader :=
  Reader (rest r) (off r) (line r) (col r) (curo r) (curn r) t (vt r) (root r) (err r).
Definition set_vt (r : reader) (v : vtype) : reader :=
  Reader (rest r) (off r) (line r) (col r) (curo r) (curn r) (last r) v (root r) (err r).
Definition set_root (r : reader) : reader :=
  Reader (rest r) (off r) (line r) (col r) (curo r) (curn r) (last r) (vt r) true (err r).
Definition set_err (r : reader) (e : jerr) : reader :=
  Reader (rest r) (off r) (line r) (col r) (curo r) (curn r) (last r) (vt r) (root r) e.

(** tm_json.h 2545-2559, jsonMakeReader. *)
Definition make_reader (buf : list N) : reader :=
  Reader buf 0 1 0 None 0 TEof YNull false JOk.

(** tm_json.h 1237-1241, setError. *)
Definition set_error (r : reader) (e : jerr) : reader :=
  set_cur (set_err r e) (Some (off r)) 1.

(** tm_json.h 1182-1186, jsonAdvance (only called with a non-empty rest). *)
Definition advance (r : reader) : reader :=
  set_pos r (tl (rest r)) (S (off r)) (line r) (S (col r)).

(** [reader->data[0]]. *)
Definition peek (r : reader) : option N :=
  match rest r with c :: _ => Some c | [] => None end.

(** isdigit, isxdigit of the "C" locale, as in [TM_ISDIGIT((unsigned char)c)]. *)
Definition isdigit (c : N) : bool := (48 <=? c) && (c <=? 57).
Definition isxdigit (c : N) : bool :=
  isdigit c || ((65 <=? c) && (c <=? 70)) || ((97 <=? c) && (c <=? 102)).
Definition hexval (c : N) : N :=
  if isdigit c then c - 48 else if c <=? 70 then c - 55 else c - 87.

(** [do jsonAdvance while (size && p(data[0]))] and its variants: skip the longest prefix of bytes
    that satisfy [p]. *)
Fixpoint span (p : N -> bool) (s : list N) : list N * list N :=
  match s with
  | c :: t => if p c then let (a, b) := span p t in (c :: a, b) else ([], s)
  | [] => ([], [])
  end.
Definition adv_while (p : N -> bool) (r : reader) : reader :=
  let (a, b) := span p (rest r) in
  set_pos r b (off r + length a) (line r) (col r + length a).

(** tm_json.h 1187-1204, skipWhitespace with skipWhitespaceHelper. *)
Definition is_ws (c : N) : bool := (c =? 9) || (c =? 10) || (c =? 13) || (c =? 32).
Fixpoint skip_ws_loop (s : list N) (o l c : nat) : list N * nat * nat * nat :=
  match s with
  | x :: t =>
      if is_ws x then
        if x =? 10 then skip_ws_loop t (S o) (S l) 0 else skip_ws_loop t (S o) l (S c)
      else (s, o, l, c)
  | [] => ([], o, l, c)
  end.
Definition skip_ws (r : reader) : reader :=
  let '(s, o, l, c) := skip_ws_loop (rest r) (off r) (line r) (col r) in set_pos r s o l c.

(** tm_json.h 1250-1252, tmj_is_valid_codepoint. *)
Definition is_valid_codepoint (c : N) : bool :=
  (c <=? 0x10FFFF) && ((c <? 0xD800) || (0xDFFF <? c)).

(** TMJ_TO_UINT on four hexadecimal digits (tm_json.h 970-982 with strtoul): always their value. *)
Definition hex4 (a b c d : N) : N :=
  hexval a * 4096 + hexval b * 256 + hexval c * 16 + hexval d.

(** tm_json.h 1254-1298, tmj_get_codepoint: number of bytes consumed and the code point, [None]
    stands for the result 0. *)
Definition get_codepoint (s : list N) : option (nat * N) :=
  match s with
  | a :: b :: c :: d :: s' =>
      if isxdigit a && isxdigit b && isxdigit c && isxdigit d then
        let lead := hex4 a b c d in
        if (0xD800 <=? lead) && (lead <=? 0xDBFF) then
          match s' with
          | x :: y :: a' :: b' :: c' :: d' :: _ =>
              if (x =? 92) && (y =? 117) then
                if isxdigit a' && isxdigit b' && isxdigit c' && isxdigit d' then
                  let trail := hex4 a' b' c' d' in
                  if (0xDC00 <=? trail) && (trail <=? 0xDFFF) then
                    let cp := w32 (lead * 1024 + trail + (W32 + 0x10000 - 0xD800 * 1024 - 0xDC00)) in
                    if is_valid_codepoint cp then Some (10%nat, cp) else None
                  else None
                else None
              else None
          | _ => None
          end
        else if is_valid_codepoint lead then Some (4%nat, lead) else None
      else None
  | _ => None
  end.

(** tm_json.h 1299-1331, tmj_utf8_encode (the bytes; the caller compares their number with the
    space left). *)
Definition utf8_encode (cp : N) : list N :=
  if cp <? 0x80 then [cp]
  else if cp <? 0x800 then [N.lor 0xC0 (N.shiftr cp 6); N.lor 0x80 (N.land cp 0x3F)]
  else if cp <? 0x10000 then
    [N.lor 0xE0 (N.shiftr cp 12); N.lor 0x80 (N.land (N.shiftr cp 6) 0x3F);
     N.lor 0x80 (N.land cp 0x3F)]
  else
    [N.lor 0xF0 (N.land (N.shiftr cp 18) 0x7); N.lor 0x80 (N.land (N.shiftr cp 12) 0x3F);
     N.lor 0x80 (N.land (N.shiftr cp 6) 0x3F); N.lor 0x80 (N.land cp 0x3F)].

(** tm_json.h 1339-1347, tmj_is_char_unescaped: [pre] is the text from [first] to [last]. *)
Fixpoint leading_backslashes (s : list N) : nat :=
  match s with
  | c :: t => if c =? 92 then S (leading_backslashes t) else 0
  | [] => 0
  end.
Definition is_char_unescaped (pre : list N) : bool := Nat.even (leading_backslashes (rev pre)).

(** tm_json.h 1408-1422, tmj_find_char_unescaped: the text before the first occurrence of [c] that
    is preceded by an even number of backslashes, and the text from that occurrence on.  The
    loop visits the occurrences of [c] one after the other; [pre] is the text before [s]. *)
Fixpoint find_unescaped_loop (c : N) (pre s : list N) : option (list N * list N) :=
  match s with
  | [] => None
  | x :: t =>
      if (x =? c) && is_char_unescaped pre then Some (pre, s)
      else find_unescaped_loop c (pre ++ [x]) t
  end.
Definition find_char_unescaped (s : list N) (c : N) : option (list N * list N) :=
  find_unescaped_loop c [] s.

(** tm_json.h 1349-1406, tmj_is_valid_json_string.  [multi] is allow_escaped_newlines.  Reading
    first[i + 1] outside of the string (it would read the closing quotation mark) is [None].
    The test [remaining > 1] at a carriage return is evaluated with [remaining] counted from the
    backslash, so first[i + 1] may be the byte after the string: [None] as well. *)
Fixpoint valid_string (fuel : nat) (s : list N) (quote : N) (multi ex : bool) : option bool :=
  match fuel with
  | O => None
  | S fuel =>
      match s with
      | [] => Some true
      | c :: t =>
          if c <? 32 then Some false
          else if c =? 92 then
            match t with
            | [] => None
            | n :: u =>
                if (n =? 92) || (n =? 47) || (n =? 98) || (n =? 102) || (n =? 110) || (n =? 114)
                   || (n =? 116) then valid_string fuel u quote multi ex
                else if n =? 117 then
                  match get_codepoint u with
                  | Some (k, _) => valid_string fuel (skipn k u) quote multi ex
                  | None => Some false
                  end
                else if n =? 34 then
                  if quote =? 34 then valid_string fuel u quote multi ex else Some false
                else if n =? 39 then
                  if quote =? 39 then valid_string fuel u quote multi ex else Some false
                else if n =? 10 then
                  if multi then valid_string fuel u quote multi ex else Some false
                else if n =? 13 then
                  if multi && ex then
                    match u with
                    | [] => None
                    | x :: u' =>
                        if x =? 10 then valid_string fuel u' quote multi ex
                        else valid_string fuel u quote multi ex
                    end
                  else Some false
                else Some false
            end
          else valid_string fuel t quote multi ex
      end
  end.

(** The position of the first byte equal to [c]: the text before it and the text after it. *)
Fixpoint memchr (c : N) (s : list N) : option (list N * list N) :=
  match s with
  | [] => None
  | x :: t =>
      if x =? c then Some ([], t)
      else match memchr c t with Some (a, b) => Some (x :: a, b) | None => None end
  end.

(** tm_json.h 1443-1466, the loop of readQuotedString over the line breaks of a string that may
    contain escaped ones.  [s] is the text from [last] on, [o] its offset, [o0] the offset of the
    string.  Result: the reader and [true], or the reader and [false] at an unescaped line break. *)
Fixpoint newline_loop (fuel : nat) (ex : bool) (o0 o : nat) (s : list N) (r : reader)
  : option (bool * reader) :=
  match fuel with
  | O => None
  | S fuel =>
      let p := if ex then match memchr 13 s with Some x => Some (13, x)
                          | None => match memchr 10 s with Some x => Some (10, x) | None => None end
                          end
               else match memchr 10 s with Some x => Some (10, x) | None => None end in
      match p with
      | None => Some (true, set_cur (set_pos r (rest r) (off r) (line r) (length s)) (curo r) (curn r))
      | Some (c, (a, b)) =>
          let at_p := (o + length a)%nat in
          if Nat.eqb at_p o0 || is_char_unescaped a then
            Some (false, set_cur (set_err r JIllformedString) (Some at_p) 1)
          else
            let r := set_pos r (rest r) (off r) (S (line r)) 0 in
            if ex && Nat.ltb 1 (length s) && (c =? 13) then
              match b with
              | [] => None (* *(p + 1) is the byte after the string *)
              | x :: b' =>
                  if x =? 10 then newline_loop fuel ex o0 (at_p + 2) b' r
                  else newline_loop fuel ex o0 (at_p + 1) b r
              end
            else newline_loop fuel ex o0 (at_p + 1) b r
      end
  end.

(** tm_json.h 1424-1490, readQuotedString. *)
Definition read_quoted (fl : N) (r : reader) : option (bool * reader) :=
  match rest r with
  | [] => None
  | quote :: s =>
      if (quote =? 34) || (quote =? 39) then
        let start := off r in
        let r := set_cur (set_pos r s (S start) (line r) (col r)) (Some (S start)) 0 in
        match find_char_unescaped s quote with
        | Some (body, after) =>
            (* [after] starts with the closing quotation mark *)
            let close := (S start + length body)%nat in
            let r := set_cur (set_pos r (tl after) (S close) (line r) (col r))
                       (Some (S start)) (length body) in
            let ex := N.testbit fl bExtendedWhitespace in
            let multi := N.testbit fl bEscapedMultiline in
            ' (ok, r) <- (if multi then newline_loop (S (length body)) ex (S start) (S start) body r
                          else Some (true, set_pos r (rest r) (off r) (line r)
                                             (col r + length body + 1)));;
            if ok then
              v <- valid_string (S (length body)) body quote multi ex;;
              if v then Some (true, r)
              else (* current.data = p; p is null when the loop over the line breaks was run *)
                Some (false, set_cur (set_err r JIllformedString)
                               (if multi then None else Some close) 1)
            else Some (false, r)
        | None =>
            let r := set_err r JUnexpectedEof in
            let r := set_pos r [] (off r + length s) (line r) (col r) in
            Some (false, set_cur r (Some start) 1)
        end
      else None
  end.

(** current.size = data - current.data *)
Definition cur_end (r : reader) : reader :=
  match curo r with
  | Some o => set_cur r (Some o) (off r - o)
  | None => r
  end.

(** tm_json.h 1599-1610, the end of readNumber. *)
Definition number_end (lead dot trail : bool) (r : reader) : option (bool * reader) :=
  if negb lead && negb trail && dot then
    let r := set_pos r (46 :: rest r) (off r - 1) (line r) (col r - 1) in
    Some (false, set_error r JUnexpectedToken)
  else Some (true, cur_end r).

(** tm_json.h 1579-1597, the exponent.  [data[0]] is read without a test of the size. *)
Definition number_exp (lead dot trail : bool) (r : reader) : option (bool * reader) :=
  match rest r with
  | e :: _ =>
      if (e =? 101) || (e =? 69) then
        if negb dot && negb lead then Some (false, set_error r JUnexpectedToken)
        else
          let r := advance (set_vt r YFloat) in
          c <- peek r;;
          let r := if (c =? 43) || (c =? 45) then advance r else r in
          c <- peek r;;
          if negb (isdigit c) then Some (false, set_error r JUnexpectedToken)
          else number_end lead dot true (adv_while isdigit r)
      else number_end lead dot trail r
  | [] => number_end lead dot trail r
  end.

(** tm_json.h 1554-1577, the fraction. *)
Definition number_frac (fl : N) (lead : bool) (r : reader) : option (bool * reader) :=
  match rest r with
  | c :: _ =>
      if c =? 46 then
        let r := advance (set_vt r YFloat) in
        match rest r with
        | [] =>
            if N.testbit fl bLeadTrailPoint then Some (true, r)
            else Some (false, set_error r JUnexpectedEof)
        | d :: _ =>
            if isdigit d then number_exp lead true true (adv_while isdigit r)
            else if N.testbit fl bLeadTrailPoint then number_exp lead true false r
            else Some (false, set_error r JUnexpectedToken)
        end
      else number_exp lead false false r
  | [] => number_exp lead false false r
  end.

(** tm_json.h 1492-1610, readNumber. *)
Definition read_number (fl : N) (r : reader) : option (bool * reader) :=
  match rest r with
  | [] => Some (false, set_error r JUnexpectedEof)
  | c0 :: _ =>
      let r := set_cur (set_last (set_vt r YUInt) TValue) (Some (off r)) (curn r) in
      let r :=
        if c0 =? 45 then advance (set_vt r YInt)
        else if N.testbit fl bPlusSign && (c0 =? 43) then
          let r := advance r in set_cur r (Some (off r)) (curn r)
        else r in
      match rest r with
      | [] => Some (false, set_error r JUnexpectedEof)
      | c :: _ =>
          if c =? 48 then
            let r := advance r in
            match rest r with
            | [] => Some (true, cur_end r)
            | x :: _ =>
                if ((x =? 120) || (x =? 88)) && N.testbit fl bHexadecimal then
                  let r := advance r in
                  match rest r with
                  | [] => Some (false, set_error r JUnexpectedEof)
                  | h :: _ =>
                      if negb (isxdigit h) then Some (false, set_error r JUnexpectedToken)
                      else Some (true, cur_end (adv_while isxdigit r))
                  end
                else number_frac fl true r
            end
          else if isdigit c then
            let r := adv_while isdigit r in
            match rest r with
            | [] => Some (true, r) (* current.size is not set *)
            | _ => number_frac fl true r
            end
          else if negb (N.testbit fl bLeadTrailPoint) || negb (c =? 46) then
            Some (false, set_error r JUnexpectedToken)
          else number_frac fl false r
      end
  end.

(** tm_json.h 1611-1618, advanceValue (the column stays). *)
Definition advance_value (r : reader) (n : nat) : reader :=
  let o := off r in
  set_last (set_cur (set_pos r (skipn n (rest r)) (o + n) (line r) (col r)) (Some o) n) TValue.

(** tm_json.h 940-944, stringStartsWith. *)
Fixpoint starts_with (s p : list N) : bool :=
  match p, s with
  | [], _ => true
  | x :: p', y :: s' => (x =? y) && starts_with s' p'
  | _ :: _, [] => false
  end.
Definition str_true : list N := [116; 114; 117; 101].
Definition str_false : list N := [102; 97; 108; 115; 101].
Definition str_null : list N := [110; 117; 108; 108].

(** tm_json.h 1659-1675, readValue. *)
Definition read_value (fl : N) (r : reader) : option (tok * reader) :=
  if starts_with (rest r) str_true then Some (TValue, advance_value (set_vt r YBool) 4)
  else if starts_with (rest r) str_false then Some (TValue, advance_value (set_vt r YBool) 5)
  else if starts_with (rest r) str_null then Some (TValue, advance_value (set_vt r YNull) 4)
  else
    ' (ok, r) <- read_number fl r;;
    if ok then Some (last r, r) else Some (TError, set_error r JUnexpectedToken).

(** tm_json.h 1745-1765, jsonCanValueFollowLastToken. *)
Definition can_value_follow (r : reader) (c : ctx) : bool :=
  match c with
  | CNull => negb (root r)
  | CObject => tok_eqb (last r) TPropertyColon
  | CArray => tok_eqb (last r) TArrayStart || tok_eqb (last r) TComma
  end.

(** tm_json.h 1766-1787, jsonCanEndBracketFollowLastToken. *)
Definition can_end_follow (fl : N) (r : reader) (c ending : ctx) : bool :=
  if ctx_eqb c CNull || negb (ctx_eqb c ending) then false
  else match last r with
       | TComma => N.testbit fl bTrailingComma
       | TPropertyName | TPropertyColon => false
       | _ => true
       end.

(** tm_json.h 1791-1808, jsonReadCommentLine. *)
Definition read_comment_line (fl : N) (r : reader) : reader :=
  let o := off r in
  let '(body, after) :=
    match memchr 10 (rest r) with
    | Some (a, b) => (a, b)
    | None =>
        if N.testbit fl bExtendedWhitespace then
          match memchr 13 (rest r) with Some (a, b) => (a, b) | None => (rest r, []) end
        else (rest r, [])
    end in
  set_pos (set_cur r (Some o) (length body)) after
    (o + (length (rest r) - length after)) (S (line r)) 0.

(** tm_json.h 1826-1842, jsonParseSingleLineComment. *)
Definition parse_comment (fl : N) (r : reader) : tok * reader :=
  if N.testbit fl bSingleLineComments then
    let r := advance r in
    match rest r with
    | [] => (TError, set_error r JUnexpectedEof)
    | c :: _ =>
        if c =? 47 then (TComment, read_comment_line fl (advance r))
        else (TError, set_error r JUnexpectedToken)
    end
  else (TError, set_error r JUnexpectedToken).

(** tm_json.h 1914-1936, jsonParseQuotedString. *)
Definition parse_quoted (fl : N) (c : ctx) (r : reader) : option (tok * reader) :=
  ' (ok, r) <- read_quoted fl r;;
  if ok then
    let r := set_vt r YString in
    match c with
    | CNull => Some (TValue, set_last r TValue)
    | _ =>
        if ctx_eqb c CObject && (tok_eqb (last r) TObjectStart || tok_eqb (last r) TComma) then
          Some (TPropertyName, set_last r TPropertyName)
        else if can_value_follow r c then Some (TValue, set_last r TValue)
        else Some (TError, set_error r JUnexpectedToken)
    end
  else Some (TError, r).

(** tm_json.h 1937-1954, jsonParseContextStart. *)
Definition parse_start (c : ctx) (is_obj : bool) (r : reader) : tok * reader :=
  let go r := let t := if is_obj then TObjectStart else TArrayStart in
              (t, set_last (advance r) t) in
  match c with
  | CNull => if root r then (TError, set_error r JUnexpectedToken) else go (set_root r)
  | _ => if can_value_follow r c then go r else (TError, set_error r JUnexpectedToken)
  end.

(** tm_json.h 1955-1965, jsonParseContextEnd. *)
Definition parse_end (fl : N) (c : ctx) (is_obj : bool) (r : reader) : tok * reader :=
  if can_end_follow fl r c (if is_obj then CObject else CArray) then
    let t := if is_obj then TObjectEnd else TArrayEnd in
    (t, set_last (advance r) t)
  else (TError, set_error r JUnexpectedToken).

(** tm_json.h 1971-2046, one round of the loop of jsonNextTokenImplicit: a token is returned, or
    the loop continues ([inr]) after a colon or a comma. *)
Definition next_step (fl : N) (c : ctx) (r : reader) : option (tok * reader + reader) :=
  let r := skip_ws r in
  match rest r with
  | [] =>
      match c with
      | CNull => Some (inl (TEof, set_last r TEof))
      | _ => Some (inl (TError, set_error r JUnexpectedEof))
      end
  | x :: _ =>
      if x =? 47 then Some (inl (parse_comment fl r))
      else if x =? 39 then
        if N.testbit fl bSingleQuoted then
          t <- parse_quoted fl c r;; Some (inl t)
        else Some (inl (TError, set_error r JUnexpectedToken))
      else if x =? 34 then t <- parse_quoted fl c r;; Some (inl t)
      else if (x =? 123) || (x =? 91) then Some (inl (parse_start c (x =? 123) r))
      else if (x =? 125) || (x =? 93) then Some (inl (parse_end fl c (x =? 125) r))
      else if (x =? 58) || (x =? 61) then
        if negb (ctx_eqb c CObject) || negb (tok_eqb (last r) TPropertyName)
           || ((x =? 61) && negb (N.testbit fl bAllowEqual))
        then Some (inl (TError, set_error r JUnexpectedToken))
        else Some (inr (set_last (advance r) TPropertyColon))
      else if x =? 44 then
        match c with
        | CNull => Some (inl (TError, set_error r JUnexpectedToken))
        | _ =>
            match last r with
            | TObjectEnd | TArrayEnd | TValue => Some (inr (set_last (advance r) TComma))
            | _ => Some (inl (TError, set_error r JUnexpectedToken))
            end
        end
      else if can_value_follow r c then
        t <- read_value fl (set_root r);; Some (inl t)
      else Some (inl (TError, set_error r JUnexpectedToken))
  end.

(** tm_json.h 1967-2047, jsonNextTokenImplicit. *)
Fixpoint next_loop (fuel : nat) (fl : N) (c : ctx) (r : reader) : option (tok * reader) :=
  match fuel with
  | O => None
  | S fuel =>
      x <- next_step fl c r;;
      match x with
      | inl t => Some t
      | inr r => next_loop fuel fl c r
      end
  end.
Definition next_token (fl : N) (c : ctx) (r : reader) : option (tok * reader) :=
  next_loop (S (length (rest r))) fl c r.

(** tm_json.h 2049-2075, jsonIsValidUntilEof. *)
Fixpoint valid_until_eof_loop (fuel : nat) (fl : N) (r : reader) : option (bool * reader) :=
  match fuel with
  | O => None
  | S fuel =>
      ' (t, r') <- next_token fl CNull r;;
      match t with
      | TComment => valid_until_eof_loop fuel fl r'
      | TEof => Some (true, r')
      | _ =>
          if err_ok (err r') then
            Some (false, set_error (set_pos r' (rest r) (off r) (line r') (col r')) JUnexpectedToken)
          else Some (false, r')
      end
  end.
Definition valid_until_eof (fl : N) (r : reader) : option (bool * reader) :=
  match rest r with
  | [] => Some (true, r)
  | _ => if tok_eqb (last r) TEof then Some (true, r)
         else valid_until_eof_loop (S (length (rest r))) fl r
  end.

(** tm_json.h 2417-2440, jsonReadRootType with ex = false. *)
Fixpoint read_root_type (fuel : nat) (fl : N) (r : reader) : option (tok * reader) :=
  match fuel with
  | O => None
  | S fuel =>
      ' (t, r) <- next_token fl CNull r;;
      match t with
      | TObjectStart | TArrayStart | TValue => Some (t, r)
      | TComment => read_root_type fuel fl r
      | _ => Some (TError, set_error r JUnexpectedToken)
      end
  end.

(** tm_json.h 2496-2542, the second half of jsonSkipCurrent with ex = false: skip to the bracket
    that closes the current object or array.  [obj] tells which of the two is skipped.  The
    column after a string differs from the one a reader would report (the code does not undo
    the increment of the column); it is computed the same way here. *)
Fixpoint skip_brackets (fuel : nat) (fl : N) (obj : bool) (depth : nat) (r : reader)
  : option (bool * reader) :=
  match fuel with
  | O => None
  | S fuel =>
      match rest r with
      | [] => Some (false, r)
      | _ =>
          let r := skip_ws r in
          match rest r with
          | [] => Some (false, set_error r JUnexpectedEof)
          | x :: _ =>
              let r1 := advance r in
              if x =? (if obj then 123 else 91) then skip_brackets fuel fl obj (S depth) r1
              else if x =? (if obj then 125 else 93) then
                match depth with
                | O => None
                | S O => Some (true, set_last r1 (if obj then TObjectEnd else TArrayEnd))
                | S d => skip_brackets fuel fl obj d r1
                end
              else if x =? 34 then
                ' (ok, r) <- read_quoted fl (set_pos r (rest r) (off r) (line r) (S (col r)));;
                if ok then skip_brackets fuel fl obj depth r else Some (false, r)
              else skip_brackets fuel fl obj depth r1
          end
      end
  end.

(** tm_json.h 2452-2492, the first half: go to the value of a property.  [inl] is an early return
    of the function, [inr] means an object or array was entered. *)
Fixpoint skip_to_content (fuel : nat) (fl : N) (c : ctx) (r : reader)
  : option (bool * reader + reader) :=
  match fuel with
  | O => None
  | S fuel =>
      ' (t, r) <- next_token fl c r;;
      match t with
      | TObjectStart | TArrayStart =>
          if err_ok (err r) then Some (inr r) else Some (inl (false, r))
      | TValue => Some (inl (true, r))
      | TComment => skip_to_content fuel fl c r
      | _ => if err_ok (err r) then None else Some (inl (false, r))
      end
  end.

(** tm_json.h 2442-2543, jsonSkipCurrent with ex = false.  ([depth] is an unsigned int: it is
    assumed not to wrap, that is, brackets are nested less than 2^32 deep.) *)
Definition skip_current (fl : N) (c : ctx) (r : reader) : option (bool * reader) :=
  if negb (err_ok (err r)) then Some (false, r)
  else match rest r with
       | [] => Some (false, r)
       | _ =>
           match last r with
           | TObjectStart => skip_brackets (S (length (rest r))) fl true 1 r
           | TArrayStart => skip_brackets (S (length (rest r))) fl false 1 r
           | TPropertyName =>
               x <- skip_to_content (S (length (rest r))) fl c r;;
               match x with
               | inl b => Some b
               | inr r =>
                   match last r with
                   | TObjectStart => skip_brackets (S (length (rest r))) fl true 1 r
                   | TArrayStart => skip_brackets (S (length (rest r))) fl false 1 r
                   | _ => None
                   end
               end
           | _ => Some (false, r)
           end
       end.

(** tm_json.h 2561-2636, jsonCopyUnescapedString.  [remaining] is buffer_remaining, which the
    escape sequences of two characters do not decrease; [out] are the bytes written so far into
    the [size] bytes of the buffer, a write beyond them is undefined behaviour. *)
Definition put (size : nat) (out s : list N) : option (list N) :=
  if Nat.leb (length out + length s) size then Some (out ++ s) else None.
Definition copy_tail (size remaining : nat) (s out : list N) : option (list N) :=
  put size out (firstn remaining s).
Fixpoint copy_unescaped (fuel : nat) (size remaining : nat) (s out : list N) : option (list N) :=
  match fuel with
  | O => None
  | S fuel =>
      match memchr 92 s with
      | None => copy_tail size remaining s out
      | Some (pre, post) =>
          if Nat.eqb remaining 0 then copy_tail size remaining s out
          else
            let pre' := firstn remaining pre in
            out <- put size out pre';;
            let remaining := (remaining - length pre')%nat in
            match post with
            | [] => copy_tail size remaining [] out
            | [c] => copy_tail size remaining [c] out
            | c :: post =>
                if c =? 10 then copy_unescaped fuel size remaining post out
                else if c =? 117 then
                  match get_codepoint post with
                  | None => Some out
                  | Some (k, cp) =>
                      let u := utf8_encode cp in
                      if Nat.ltb remaining (length u) then Some out
                      else
                        out <- put size out u;;
                        copy_unescaped fuel size (remaining - length u) (skipn k post) out
                  end
                else
                  let x := if c =? 98 then 8 else if c =? 102 then 12 else if c =? 110 then 10
                           else if c =? 114 then 13 else if c =? 116 then 9 else c in
                  out <- put size out [x];;
                  copy_unescaped fuel size remaining post out
            end
      end
  end.
Definition copy_unescaped_string (s : list N) (size : nat) : option (list N) :=
  match s with
  | [] => Some []
  | _ => if Nat.eqb size 0 then Some [] else copy_unescaped (S (length s)) size size s []
  end.

(** tm_json.h 713-717, JsonStackAllocator; [a_ptr] is an address. *)
Record alloc := Alloc { a_ptr : N; a_size : N; a_cap : N }.

(** tm_json.h 2717-2733, jsonAllocate with jsonGetAlignmentOffset.  Only the bookkeeping of the
    pool is modelled, the objects stored in it are the values of type [jv] below.  [None] is a
    null pointer. *)
Definition allocate (a : alloc) (n al : N) : option alloc :=
  let offset := N.land (sub64 al (w64 (a_ptr a + a_size a))) (al - 1) in
  if a_cap a <? w64 (a_size a + offset + n) then None
  else Some (Alloc (a_ptr a) (w64 (a_size a + offset + n)) (a_cap a)).

(** tm_json.h 662-693, JsonValue; the nodes of an object are pairs of name and value.  [VNoString]
    is a string whose content is the null string view; [VUndef] is a partially written value. *)
Inductive jv :=
| VScalar (t : vtype) (content : list N)
| VString (content : list N)
| VNoString
| VObject (count : nat) (nodes : list (list N * jv))
| VArray (count : nat) (values : list jv)
| VUndef.

(** tm_json.h 2685-2699, jsonAllocateUnescapedString. *)
Definition allocate_unescaped (a : alloc) (s : list N) : option (jv * alloc) :=
  let n := N.of_nat (length s) in
  match allocate a n 1 with
  | None => Some (VNoString, a)
  | Some a =>
      out <- copy_unescaped_string s (length s);;
      let diff := n - N.of_nat (length out) in
      Some (VString out, if 0 <? diff then Alloc (sub64 (a_ptr a) diff) (w64 (a_size a + diff)) (a_cap a)
                         else a)
  end.

(** The bytes of [reader->current]. *)
Definition current (buf : list N) (r : reader) : list N :=
  match curo r with
  | Some o => firstn (curn r) (skipn o buf)
  | None => []
  end.

Definition sizeof_node : N := 48.
Definition sizeof_value : N := 32.

(** The value stored for a token JTOK_VALUE, e.g. tm_json.h 2820-2826. *)
Definition token_value (buf : list N) (r : reader) (a : alloc) : option (jv * alloc) :=
  match vt r with
  | YString => allocate_unescaped a (current buf r)
  | t => Some (VScalar t (current buf r), a)
  end.

(** tm_json.h 2752-2779, jsonReadObject counts the members.  [inl]: the error returned and the
    reader; [inr]: the number of members. *)
Fixpoint count_members (fuel : nat) (fl : N) (r : reader) (n : nat)
  : option (jerr * reader + nat) :=
  match fuel with
  | O => None
  | S fuel =>
      ' (t, r) <- next_token fl CObject r;;
      match t with
      | TPropertyName =>
          ' (_, r) <- skip_current fl CObject r;;
          count_members fuel fl r (S n)
      | TObjectEnd => Some (inr n)
      | TComment => count_members fuel fl r n
      | _ => if err_ok (err r) then None else Some (inl (err r, r))
      end
  end.

(** tm_json.h 2859-2892, jsonReadArray counts the values (memberCount is an int: the buffer is
    assumed to hold less than 2^31 values). *)
Fixpoint count_values (fuel : nat) (fl : N) (r : reader) (n : nat)
  : option (jerr * reader + nat) :=
  match fuel with
  | O => None
  | S fuel =>
      ' (t, r) <- next_token fl CArray r;;
      match t with
      | TObjectStart | TArrayStart =>
          ' (_, r) <- skip_current fl CArray r;;
          count_values fuel fl r (S n)
      | TValue => count_values fuel fl r (S n)
      | TComment => count_values fuel fl r n
      | TArrayEnd => Some (inr n)
      | _ => if err_ok (err r) then None else Some (inl (err r, r))
      end
  end.

(** tm_json.h 2749-2950, jsonReadObject and jsonReadArray.  The members are written to the
    allocated nodes one after the other; writing more of them than were counted is undefined
    behaviour.  [cap] is the number allocated, [acc] are the ones written, in reverse order.  When
    an error is returned the value is [VUndef]. *)
Fixpoint read_object (fuel : nat) (fl : N) (buf : list N) (r : reader) (a : alloc)
  : option (jerr * reader * alloc * jv) :=
  match fuel with
  | O => None
  | S fuel =>
      c <- count_members (S (length (rest r))) fl r 0;;
      match c with
      | inl (e, r) => Some (e, r, a, VUndef)
      | inr n =>
          match allocate a (w64 (N.of_nat n * sizeof_node)) 8 with
          | None => Some (JOutOfMemory, r, a, VUndef)
          | Some a => object_loop fuel fl buf r a n []
          end
      end
  end
with object_loop (fuel : nat) (fl : N) (buf : list N) (r : reader) (a : alloc) (cap : nat)
       (acc : list (list N * jv)) : option (jerr * reader * alloc * jv) :=
  match fuel with
  | O => None
  | S fuel =>
      ' (t, r) <- next_token fl CObject r;;
      match t with
      | TPropertyName =>
          if Nat.ltb (length acc) cap then member_loop fuel fl buf r a cap acc (current buf r)
          else None
      | TComment => object_loop fuel fl buf r a cap acc
      | TObjectEnd => Some (err r, r, a, VObject cap (rev acc))
      | _ => if err_ok (err r) then None else Some (err r, r, a, VUndef)
      end
  end
with member_loop (fuel : nat) (fl : N) (buf : list N) (r : reader) (a : alloc) (cap : nat)
       (acc : list (list N * jv)) (name : list N) : option (jerr * reader * alloc * jv) :=
  match fuel with
  | O => None
  | S fuel =>
      ' (t, r) <- next_token fl CObject r;;
      match t with
      | TObjectStart =>
          ' (e, r, a, v) <- read_object fuel fl buf r a;;
          if err_ok e then object_loop fuel fl buf r a cap ((name, v) :: acc)
          else Some (e, r, a, VUndef)
      | TArrayStart =>
          ' (e, r, a, v) <- read_array fuel fl buf r a;;
          if err_ok e then object_loop fuel fl buf r a cap ((name, v) :: acc)
          else Some (e, r, a, VUndef)
      | TValue =>
          ' (v, a) <- token_value buf r a;;
          object_loop fuel fl buf r a cap ((name, v) :: acc)
      | TComment => member_loop fuel fl buf r a cap acc name
      | _ => if err_ok (err r) then None else Some (err r, r, a, VUndef)
      end
  end
with read_array (fuel : nat) (fl : N) (buf : list N) (r : reader) (a : alloc)
  : option (jerr * reader * alloc * jv) :=
  match fuel with
  | O => None
  | S fuel =>
      c <- count_values (S (length (rest r))) fl r 0;;
      match c with
      | inl (e, r) => Some (e, r, a, VUndef)
      | inr n =>
          match allocate a (w64 (N.of_nat n * sizeof_value)) 8 with
          | None => Some (JOutOfMemory, r, a, VUndef)
          | Some a => array_loop fuel fl buf r a n []
          end
      end
  end
with array_loop (fuel : nat) (fl : N) (buf : list N) (r : reader) (a : alloc) (cap : nat)
       (acc : list jv) : option (jerr * reader * alloc * jv) :=
  match fuel with
  | O => None
  | S fuel =>
      ' (t, r) <- next_token fl CArray r;;
      match t with
      | TObjectStart =>
          if Nat.ltb (length acc) cap then
            ' (e, r, a, v) <- read_object fuel fl buf r a;;
            if err_ok e then array_loop fuel fl buf r a cap (v :: acc)
            else Some (e, r, a, VUndef)
          else None
      | TArrayStart =>
          if Nat.ltb (length acc) cap then
            ' (e, r, a, v) <- read_array fuel fl buf r a;;
            if err_ok e then array_loop fuel fl buf r a cap (v :: acc)
            else Some (e, r, a, VUndef)
          else None
      | TValue =>
          if Nat.ltb (length acc) cap then
            ' (v, a) <- token_value buf r a;;
            array_loop fuel fl buf r a cap (v :: acc)
          else None
      | TComment => array_loop fuel fl buf r a cap acc
      | TArrayEnd => Some (err r, r, a, VArray cap (rev acc))
      | _ => if err_ok (err r) then None else Some (err r, r, a, VUndef)
      end
  end.

(** tm_json.h 719-733, JsonDocument.  The error offset is [None] when it is computed from a null
    pointer; a document that reports an error has a zeroed root, [doc_root = None]. *)
Record document := Doc {
  doc_root : option jv;
  doc_err : jerr;
  doc_line : nat;
  doc_col : nat;
  doc_off : option nat;
  doc_len : nat }.

(** tm_json.h 2965-3012, jsonMakeDocument.  The fuel covers the nesting and the loops: every
    recursive call and every round of a loop consumes a byte of the buffer. *)
Definition make_document (fl : N) (buf : list N) (a : alloc) : option (document * alloc) :=
  let fuel := (3 * length buf + 3)%nat in
  ' (t, r) <- read_root_type (S (length buf)) fl (make_reader buf);;
  ' (e, r, a, v) <-
    match t with
    | TError => Some (JOk, r, a, None)
    | TObjectStart =>
        ' (e, r, a, v) <- read_object fuel fl buf r a;; Some (e, r, a, Some v)
    | TArrayStart =>
        ' (e, r, a, v) <- read_array fuel fl buf r a;; Some (e, r, a, Some v)
    | TValue =>
        ' (v, a) <- token_value buf r a;; Some (JOk, r, a, Some v)
    | _ => None
    end;;
  r <- (if err_ok (err r) then ' (_, r) <- valid_until_eof fl r;; Some r else Some r);;
  assert_ (match rest r with [] => true | _ => negb (err_ok (err r)) end)
    (if err_ok (err r) then Some (Doc v e 0 0 (Some 0%nat) 0, a)
     else Some (Doc None (err r) (line r) (col r) (curo r) (curn r), a)).

(** tm_json.h 2952-2964, jsonAllocateDocument, with the address [ptr] returned by TM_MALLOC (a
    null pointer is not tested for; it is not modelled). *)
Definition allocate_document (fl : N) (buf : list N) (ptr : N) : option document :=
  let n := w64 (N.of_nat (length buf) * sizeof_value) in
  ' (d, _) <- make_document fl buf (Alloc ptr 0 n);; Some d.

(** The context stack of tm_json.h 506-514: entries of a context and a count (unsigned char). *)
Record cstack := CStack { cs_entries : list (ctx * N); cs_cap : nat }.

(** tm_json.h 1708-1726, jsonPushContext; the top of the stack is the head of the list. *)
Definition push_context (st : cstack) (c : ctx) : option cstack :=
  match cs_entries st with
  | (c', n) :: t =>
      if ctx_eqb c' c && (n <? 255) then Some (CStack ((c', n + 1) :: t) (cs_cap st))
      else if Nat.ltb (length (cs_entries st)) (cs_cap st) then
        Some (CStack ((c, 1) :: cs_entries st) (cs_cap st))
      else None
  | [] =>
      if Nat.ltb 0 (cs_cap st) then Some (CStack [(c, 1)] (cs_cap st)) else None
  end.

(** tm_json.h 1727-1740, jsonPopContext; [None] is a failed assertion, [Some None] the error. *)
Definition pop_context (st : cstack) (c : ctx) : option (option cstack) :=
  match cs_entries st with
  | [] => Some None
  | (c', n) :: t =>
      if negb (ctx_eqb c' c) then Some None
      else if 1 <? n then Some (Some (CStack ((c', n - 1) :: t) (cs_cap st)))
      else assert_ (n =? 1) (Some (Some (CStack t (cs_cap st))))
  end.

Definition top_context (st : cstack) : ctx :=
  match cs_entries st with (c, _) :: _ => c | [] => CNull end.

(** tm_json.h 2098-2128, jsonNextToken. *)
Definition next_token_explicit (fl : N) (r : reader) (st : cstack)
  : option (tok * reader * cstack) :=
  ' (t, r) <- next_token fl (top_context st) r;;
  match t with
  | TObjectStart | TArrayStart =>
      match push_context st (match t with TObjectStart => CObject | _ => CArray end) with
      | Some st => Some (t, r, st)
      | None => Some (TError, set_error r JOutOfContextStack, st)
      end
  | TObjectEnd | TArrayEnd =>
      p <- pop_context st (match t with TObjectEnd => CObject | _ => CArray end);;
      match p with
      | Some st => Some (t, r, st)
      | None => Some (TError, set_error r JMismatchedBrackets, st)
      end
  | _ => Some (t, r, st)
  end.
