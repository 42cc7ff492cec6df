(** Model of tm_xml.h (assertions enabled, 64-bit size_t, unsigned long of 64 bits).

    The document is a null-terminated string without further 0 bytes: a list of bytes, the tokenizer
    holds the part still to be read.  The contents of a token are given by value, together with the
    byte that follows them in memory ([None]: nothing readable follows).  The buffer of the reader is
    given by its size only: what is read from it was written just before.  [alloc size] tells whether
    an allocation of this size succeeds; a reader never asks for the same size twice. *)
From Coq Require Import Arith NArith ZArith List Bool.
From Verif Require Import Base CodecModel UniModel.
Import ListNotations.
Local Open Scope N_scope.

(** *s for a null-terminated string. *)
Definition chr (s : list N) : N := hd 0 s.
Definition one_of (cs : list N) (c : N) : bool := existsb (N.eqb c) cs.
(** strncmp(s, p, length p) == 0. *)
Fixpoint starts (p s : list N) : bool :=
  match p, s with
  | [], _ => true
  | a :: p, b :: s => (a =? b) && starts p s
  | _ :: _, [] => false
  end.

(** tm_xml.h:168-173, without the length, and 175-178. *)
Record loc := Loc { line : N; column : N; offset : N }.
Record tokenizer := Tk { cur : list N; at_ : loc }.

Inductive ttype := Teof | Terror | Topen | Tclose | Tattr_name | Tattr_value | Tcontents | Tcdata | Tcomment | Tpi.
(** tm_xml.h:202-207 *)
Record token := Token { t_type : ttype; t_text : list N; t_after : option N; t_loc : loc; t_length : N }.
Inductive context := Xnone | Xeof | Xerror | Xinside_tag | Xattr_name | Xcontent | Xpost_root.
(** tm_xml.h:225-242; [r_buffer = None]: the internal buffer of 64 bytes. The depth (64 bits) is not reduced: no document is long
    enough. *)
Record reader := Reader {
  r_tk : tokenizer; r_current : token; r_flags : N; r_context : context; r_depth : N;
  r_tag : list N; r_root : bool; r_buffer : option nat }.

Definition trim_left_flag (f : N) : bool := N.testbit f 0.
Definition trim_right_flag (f : N) : bool := N.testbit f 1.
Definition reduce_flag (f : N) : bool := N.testbit f 2.
Definition newlines_flag (f : N) : bool := N.testbit f 3.
Definition cdata_flag (f : N) : bool := N.testbit f 4.
Definition attribute_flag (f : N) : bool := N.testbit f 5.
(** tmxml_internal_inside_comment, tm_xml.h:350-353 *)
Definition comment_flag (f : N) : bool := N.testbit f 28.
(** flags &= ~(left | right | reduce_spaces | trim_newlines), tm_xml.h:919-920, 1600-1601 *)
Definition clear_trims (f : N) : N := N.ldiff f 15.

(** tm_xml.h:744-751 *)
Definition make_error (tk : tokenizer) : token := Token Terror [] (Some (chr (cur tk))) (at_ tk) 0.

(** tm_xml.h:355-363 *)
Definition make_reader (doc : list N) (flags : N) : reader :=
  Reader (Tk doc (Loc 0 0 0)) (Token Teof [] None (Loc 0 0 0) 0) flags Xnone 0 [] false None.

(** The loops over strcspn/strspn in tm_xml.h:379-403, 419-435, 444-458, character by character instead of chunk by chunk:
    the characters before the first one that is not a newline and satisfies [stop], what remains, line and column. *)
Fixpoint scan (stop : N -> bool) (s : list N) (ln col : N) : list N * list N * N * N :=
  match s with
  | [] => ([], [], ln, col)
  | c :: t =>
      if c =? 10 then let '(p, r, ln', col') := scan stop t (w32 (ln + 1)) 0 in (c :: p, r, ln', col')
      else if stop c then ([], s, ln, col)
      else let '(p, r, ln', col') := scan stop t ln (w32 (col + 1)) in (c :: p, r, ln', col')
  end.

Definition len32 (s : list N) : N := w32 (N.of_nat (length s)).

(** tm_xml.h:365-407.  The offset advances by the length of the value and the closing quote only. *)
Definition parse_attribute_value (tk : tokenizer) : token * tokenizer :=
  let q := chr (cur tk) in
  let start := tl (cur tk) in
  if (q =? 34) || (q =? 39) then
    let '(p, r, ln, col) := scan (N.eqb q) start (line (at_ tk)) (column (at_ tk)) in
    match r with
    | [] => (Token Terror p (Some 0) (at_ tk) (len32 p), Tk [] (Loc ln col (w32 (offset (at_ tk) + len32 p))))
    | c :: r' => (Token Tattr_value p (Some c) (at_ tk) (len32 p),
                  Tk r' (Loc ln (w32 (col + 1)) (w32 (offset (at_ tk) + (len32 p + 1)))))
    end
  else (make_error tk, tk).

(** tm_xml.h:409-437 *)
Definition parse_contents (tk : tokenizer) : token * tokenizer :=
  let '(p, r, ln, col) := scan (N.eqb 60) (cur tk) (line (at_ tk)) (column (at_ tk)) in
  (Token (match r with [] => Terror | _ => Tcontents end) p (Some (chr r)) (at_ tk) (len32 p),
   Tk r (Loc ln col (w32 (offset (at_ tk) + len32 p)))).

(** tm_xml.h:439-460 *)
Definition not_space (c : N) : bool := negb (one_of [32; 9; 13] c).
Definition skip_whitespace (tk : tokenizer) : bool * tokenizer :=
  let '(p, r, ln, col) := scan not_space (cur tk) (line (at_ tk)) (column (at_ tk)) in
  (negb (chr r =? 0), Tk r (Loc ln col (w32 (offset (at_ tk) + len32 p)))).

(** tm_xml.h:464-466 *)
Definition is_valid_xml_codepoint (cp : N) : bool :=
  ((0x1 <=? cp) && (cp <=? 0xD7FF)) || ((0xE000 <=? cp) && (cp <=? 0xFFFD)) || ((0x10000 <=? cp) && (cp <=? 0x10FFFF)).
(** tm_xml.h:489-532 and 534-566 are, but for names, the text of tm_unicode.h:3615-3658 and 3688-3719. *)
Definition utf8_extract := tmu_utf8_extract.
Definition utf8_encode := tmu_utf8_encode.

Definition within (ranges : list (N * N)) (cp : N) : bool := existsb (fun r => (fst r <=? cp) && (cp <=? snd r)) ranges.
(** tm_xml.h:578-590 *)
Definition is_name_start (cp : N) : bool :=
  within [(58, 58); (65, 90); (95, 95); (97, 122); (0xC0, 0xD6); (0xD8, 0xF6); (0xF8, 0x2FF); (0x370, 0x37D);
          (0x37F, 0x1FFF); (0x200C, 0x200D); (0x2070, 0x218F); (0x2C00, 0x2FEF); (0x3001, 0xD7FF);
          (0xF900, 0xFDCF); (0xFDF0, 0xFFFD); (0x10000, 0xEFFFF)] cp.
(** tm_xml.h:592-596 *)
Definition is_name (cp : N) : bool :=
  within [(45, 45); (46, 46); (48, 57)] cp || is_name_start cp || within [(0xB7, 0xB7); (0x300, 0x36F); (0x203F, 0x2040)] cp.

(** *p for a pointer [k] bytes into the remaining string [s] of a view followed by the byte [after]. *)
Definition peek (s : list N) (after : option N) (k : nat) : option N :=
  match nth_error s k with
  | Some c => Some c
  | None => if Nat.eqb k (length s) then after else None
  end.

(** "]]>" behind a ']', tm_xml.h:607-612, 801-804, 1521-1527 *)
Definition ends_cdata (rest : list N) : bool := starts [93; 62] rest.

(** tm_xml.h:598-622 *)
Fixpoint valid_loop (fuel : nat) (s : list N) : option bool :=
  match fuel with
  | O => None
  | S fuel =>
      ' (ok, cp, s') <- utf8_extract s ;;
      if (ok : bool) then
        if cp =? 0 then Some false
        else if cp =? 93 then (if ends_cdata s' then Some false else valid_loop fuel s')
        else if is_valid_xml_codepoint cp then valid_loop fuel s' else Some false
      else Some (match s' with [] => true | _ => false end)
  end.
Definition is_valid_xml_string (s : list N) : option bool := valid_loop (S (length s)) s.

(** strcspn: the characters before the first of [stop]. *)
Fixpoint cspn (stop : list N) (s : list N) : list N * list N :=
  match s with
  | [] => ([], [])
  | c :: t => if one_of stop c then ([], s) else let (p, r) := cspn stop t in (c :: p, r)
  end.

(** tm_xml.h:624-664: validity of the name. *)
Fixpoint name_loop (fuel : nat) (s : list N) : option bool :=
  match fuel with
  | O => None
  | S fuel =>
      ' (ok, cp, s') <- utf8_extract s ;;
      if (ok : bool) then (if is_name cp then name_loop fuel s' else Some false)
      else Some (match s' with [] => true | _ => false end)
  end.
Definition name_ok (s : list N) : option bool :=
  ' (ok, cp, s') <- utf8_extract s ;;
  if (ok : bool) && is_name_start cp then name_loop (S (length s)) s' else Some false.
(** The check for the reserved name "xml" looks at the text behind the name, which starts with a delimiter or is at its
    end: it never applies (tm_xml.h:649-655). *)
Definition reserved (name rest : list N) : bool :=
  Nat.eqb (length name) 3
  && one_of [120; 88] (nth 0 rest 0) && one_of [109; 77] (nth 1 rest 0) && one_of [108; 76] (nth 2 rest 0).
Definition parse_name (tk : tokenizer) : option (token * tokenizer) :=
  let (p, r) := cspn [32; 9; 13; 10; 61; 47; 62; 63] (cur tk) in
  ok <- name_ok p ;;
  let ok := ok && negb (match p with [] => true | _ => false end) && negb (reserved p r) in
  Some (Token (if (ok : bool) then Topen else Terror) p (Some (chr r)) (at_ tk) (len32 p),
        Tk r (Loc (line (at_ tk)) (w32 (column (at_ tk) + len32 p)) (w32 (offset (at_ tk) + len32 p)))).

(** strstr: the text before the first occurrence of [f] and the text from there on. *)
Fixpoint find_str (f s : list N) : option (list N * list N) :=
  if starts f s then Some ([], s)
  else match s with
       | [] => None
       | c :: t => ' (p, r) <- find_str f t ;; Some (c :: p, r)
       end.

(** tm_xml.h:683-699: line and column behind [s]; the column is counted from the start of the token. *)
Fixpoint count_lines (s : list N) (ln col : N) : N * N :=
  match s with
  | [] => (ln, col)
  | c :: t => if c =? 10 then count_lines t (w32 (ln + 1)) 0 else count_lines t ln (w32 (col + 1))
  end.
(** tm_xml.h:666-705 *)
Definition parse_until (tk : tokenizer) (ty : ttype) (f : list N) : token * tokenizer :=
  match find_str f (cur tk) with
  | None => (Token Terror [chr (cur tk)] (nth_error (cur tk ++ [0]) 1) (at_ tk) 1, tk)
  | Some (p, r) =>
      let (ln, col) := count_lines (p ++ f) (line (at_ tk)) 0 in
      (Token ty p (Some (chr r)) (at_ tk) (len32 p),
       Tk (skipn (length f) r) (Loc ln col (w32 (offset (at_ tk) + len32 (p ++ f)))))
  end.

(** tm_xml.h:711-715 *)
Definition advance (tk : tokenizer) (n : nat) : tokenizer :=
  Tk (skipn n (cur tk)) (Loc (line (at_ tk)) (w32 (column (at_ tk) + N.of_nat n)) (w32 (offset (at_ tk) + N.of_nat n))).

Definition with_type (t : token) (ty : ttype) : token := Token ty (t_text t) (t_after t) (t_loc t) (t_length t).

(** tm_xml.h:717-726 *)
Definition parse_comment (tk : tokenizer) : token * tokenizer :=
  let (t, tk') := parse_until tk Tcomment [45; 45] in
  if chr (cur tk') =? 62 then (t, advance tk' 1) else (with_type t Terror, tk').

(** tm_xml.h:728-742 *)
Definition is_error (t : token) : bool := match t_type t with Terror => true | _ => false end.
Definition parse_pi (tk : tokenizer) : token * tokenizer :=
  let (t, tk') := parse_until tk Tpi [63; 62] in
  if is_error t then (t, tk')
  else if match t_text t with [] => true | _ => false end then (with_type t Terror, tk')
  else if Nat.leb 3 (length (t_text t)) && one_of [120; 88] (nth 0 (t_text t) 0) && one_of [109; 77] (nth 1 (t_text t) 0)
          && one_of [108; 76] (nth 2 (t_text t) 0)
       then (with_type t Terror, tk')
       else (t, tk').

(** tm_xml.h:753-765 and 767-778, on a view: its bytes and the byte that follows. *)
Definition is_trimmed (c : N) : bool := one_of [32; 9; 10; 13] c.
Fixpoint drop_spaces (s : list N) : list N :=
  match s with
  | c :: t => if is_trimmed c then drop_spaces t else s
  | [] => []
  end.
Definition trim_left (v : list N * option N) : list N * option N := (drop_spaces (fst v), snd v).
Definition trim_right (v : list N * option N) : list N * option N :=
  let kept := rev (drop_spaces (rev (fst v))) in
  (kept, match skipn (length kept) (fst v) with c :: _ => Some c | [] => snd v end).

(** The output of the two functions below: the buffer, the position and the room left in it, the size counted. *)
Record outp := Outp { u_buf : list N; u_pos : nat; u_room : nat; u_size : nat }.
(** if (out_len) {*out = c; ++out; --out_len;} ++content_size; and the same with memcpy. *)
Definition emit (bs : list N) (o : outp) : option outp :=
  if (length bs <=? u_room o)%nat then
    b <- write_list (u_buf o) (u_pos o) bs ;;
    Some (Outp b (u_pos o + length bs) (u_room o - length bs) (u_size o + length bs))
  else Some (Outp (u_buf o) (u_pos o) (u_room o) (u_size o + length bs)).
(** tm_xml.h:859-869, 1581-1591 *)
Definition terminate (o : outp) : option outp :=
  if (1 <=? u_room o)%nat then
    b <- write_list (u_buf o) (u_pos o) [0] ;; Some (Outp b (S (u_pos o)) (u_room o - 1) (u_size o))
  else Some (Outp (u_buf o) (u_pos o) (u_room o) (S (u_size o))).

(** What tm_xml.h:818-844 (1420-1445, 1541-1567) decides for a valid codepoint [cp] in front of [rest]. *)
Inductive action :=
| Drop                    (* break without output *)
| Space                   (* a space *)
| Continue                (* continue: the start of the pending text is not moved *)
| Copy.
Definition whitespace_action (flags : N) (cp : N) (rest : list N) (after : option N) (last_ws : bool)
  : option (action * bool) :=
  if reduce_flag flags then
    if cp <=? 32 then
      if last_ws then Some (Drop, true)
      else if newlines_flag flags || negb (cp =? 13) then Some (Space, true)
      else Some (Copy, true)
    else Some (Copy, false)
  else if newlines_flag flags && ((cp =? 13) || (cp =? 10)) then
    if (cp =? 13) && negb (match rest with [] => true | _ => false end) then
      c <- peek rest after 1 ;;
      Some (if c =? 10 then Continue else Space, last_ws)
    else Some (Space, last_ws)
  else Some (Copy, last_ws).

(** tm_xml.h:780-872; [pre] is the text between prev and the current position at the start of an iteration. *)
Fixpoint cdata_loop (fuel : nat) (flags : N) (pre s : list N) (after : option N) (last_ws : bool) (o : outp)
  : option (bool * outp * list N) :=
  match fuel with
  | O => None
  | S fuel =>
      ' (ok, cp, s') <- utf8_extract s ;;
      if (ok : bool) then
        let used := pre ++ firstn (length s - length s') s in
        if cp =? 0 then Some (false, o, s')
        else if cp =? 93 then
          if ends_cdata s' then Some (false, o, s')
          else o <- emit [93] o ;; cdata_loop fuel flags [] s' after last_ws o
        else if is_valid_xml_codepoint cp then
          ' (a, last_ws) <- whitespace_action flags cp s' after last_ws ;;
          match a with
          | Drop => cdata_loop fuel flags [] s' after last_ws o
          | Space => o <- emit [32] o ;; cdata_loop fuel flags [] s' after last_ws o
          | Continue => cdata_loop fuel flags used s' after last_ws o
          | Copy => o <- emit used o ;; cdata_loop fuel flags [] s' after last_ws o
          end
        else Some (false, o, s')
      else Some (true, o, s')
  end.
Definition reduce_cdata (flags : N) (v : list N * option N) (buf : list N) : option (bool * nat * list N) :=
  ' (ok, o, rest) <- cdata_loop (S (length (fst v))) flags [] (fst v) (snd v) false (Outp buf 0 (length buf) 0) ;;
  if (ok : bool) then
    o <- terminate o ;; Some (match rest with [] => true | _ => false end, u_size o, u_buf o)
  else Some (false, 0%nat, u_buf o).

(** Digits of numeric references, tm_xml.h:1389-1407. *)
Definition is_dec (c : N) : bool := (48 <=? c) && (c <=? 57).
Definition is_hex (c : N) : bool := is_dec c || ((97 <=? c) && (c <=? 102)) || ((65 <=? c) && (c <=? 70)).
Definition digit_value (c : N) : N := if is_dec c then c - 48 else if 97 <=? c then c - 87 else c - 55.
(** strtoul for such digits: unsigned long has 64 bits, the result is stored in 32. *)
Definition strtoul (base : N) (ds : list N) : N := w32 (fold_left (fun a c => a * base + digit_value c) ds 0).
(** tm_xml.h:1379-1414 behind "&#": codepoint and remaining text, [None]: return TM_FALSE. *)
Definition numeric (s : list N) : option (N * list N) :=
  ' (num, r) <- find_str [59] s ;;
  let r := tl r in
  match num with
  | x :: ds =>
      if x =? 120 then
        if Nat.leb 1 (length ds) && Nat.leb (length ds) 8 && forallb is_hex ds then Some (strtoul 16 ds, r) else None
      else if Nat.leb (length num) 10 && forallb is_dec num then Some (strtoul 10 num, r) else None
  | [] => None
  end.

(** The entities in the order of tm_xml.h:1454-1493. *)
Definition entity (s : list N) : option (N * list N) :=
  if starts [108; 116; 59] s then Some (60, skipn 3 s)
  else if starts [97; 109; 112; 59] s then Some (38, skipn 4 s)
  else if starts [113; 117; 111; 116; 59] s then Some (34, skipn 5 s)
  else if starts [97; 112; 111; 115; 59] s then Some (39, skipn 5 s)
  else if starts [103; 116; 59] s then Some (62, skipn 3 s)
  else None.

(** tm_xml.h:1364-1579, the loop of tmxml_unescape_string. *)
Fixpoint unescape_loop (fuel : nat) (flags : N) (pre s : list N) (after : option N) (last_ws : bool) (o : outp)
  : option (bool * outp * list N) :=
  match fuel with
  | O => None
  | S fuel =>
      ' (ok, cp, s') <- utf8_extract s ;;
      if (ok : bool) then
        let used := pre ++ firstn (length s - length s') s in
        if cp =? 0 then Some (false, o, s')
        else if cp =? 38 then
          match s' with
          | [] => Some (false, o, s')
          | 35 :: s2 =>
              match numeric s2 with
              | None => Some (false, o, s')
              | Some (cp, r) =>
                  if is_valid_xml_codepoint cp then
                    ' (a, last_ws) <- whitespace_action flags cp r after last_ws ;;
                    match a with
                    | Drop => unescape_loop fuel flags [] r after last_ws o
                    | Space => o <- emit [32] o ;; unescape_loop fuel flags [] r after last_ws o
                    | Continue =>
                        unescape_loop fuel flags (pre ++ firstn (length s - length r) s) r after last_ws o
                    | Copy =>
                        ' (n, b) <- utf8_encode cp (u_buf o) (u_pos o) (u_room o) ;;
                        unescape_loop fuel flags [] r after last_ws
                          (if (n <=? u_room o)%nat then Outp b (u_pos o + n) (u_room o - n) (u_size o + n)
                           else Outp b (u_pos o) (u_room o) (u_size o + n))
                    end
                  else Some (false, o, s')
              end
          | _ =>
              match entity s' with
              | Some (c, r) => o <- emit [c] o ;; unescape_loop fuel flags [] r after last_ws o
              | None =>
                  match find_str [59] s' with
                  | None => Some (false, o, s')
                  | Some _ => o <- emit [38] o ;; unescape_loop fuel flags [] s' after last_ws o
                  end
              end
          end
        else if cp =? 60 then
          if comment_flag flags then o <- emit [60] o ;; unescape_loop fuel flags [] s' after last_ws o
          else Some (false, o, s')
        else if cp =? 93 then
          if negb (comment_flag flags) && ends_cdata s' then Some (false, o, s')
          else o <- emit [93] o ;; unescape_loop fuel flags [] s' after last_ws o
        else if is_valid_xml_codepoint cp then
          ' (a, last_ws) <- whitespace_action flags cp s' after last_ws ;;
          match a with
          | Drop => unescape_loop fuel flags [] s' after last_ws o
          | Space => o <- emit [32] o ;; unescape_loop fuel flags [] s' after last_ws o
          | Continue => unescape_loop fuel flags used s' after last_ws o
          | Copy => o <- emit used o ;; unescape_loop fuel flags [] s' after last_ws o
          end
        else Some (false, o, s')
      else Some (true, o, s')
  end.

Definition trims (flags : N) (v : list N * option N) : list N * option N :=
  let v := if trim_left_flag flags then trim_left v else v in
  if trim_right_flag flags then trim_right v else v.

(** tm_xml.h:1347-1594: the answer, *out_written and the buffer afterwards. *)
Definition unescape_string (v : list N * option N) (flags : N) (buf : list N) : option (bool * nat * list N) :=
  let v := trims flags v in
  match fst v with
  | [] => Some (true, 0%nat, buf)
  | _ =>
      ' (ok, o, rest) <- unescape_loop (S (length (fst v))) flags [] (fst v) (snd v) false (Outp buf 0 (length buf) 0) ;;
      if (ok : bool) then
        o <- terminate o ;; Some (match rest with [] => true | _ => false end, u_size o, u_buf o)
      else Some (false, 0%nat, u_buf o)
  end.

Definition with_current (r : reader) (t : token) : reader :=
  Reader (r_tk r) t (r_flags r) (r_context r) (r_depth r) (r_tag r) (r_root r) (r_buffer r).
Definition with_context (r : reader) (c : context) : reader :=
  Reader (r_tk r) (r_current r) (r_flags r) c (r_depth r) (r_tag r) (r_root r) (r_buffer r).
Definition with_tk (r : reader) (tk : tokenizer) : reader :=
  Reader tk (r_current r) (r_flags r) (r_context r) (r_depth r) (r_tag r) (r_root r) (r_buffer r).
Definition with_depth (r : reader) (d : N) : reader :=
  Reader (r_tk r) (r_current r) (r_flags r) (r_context r) d (r_tag r) (r_root r) (r_buffer r).
Definition with_tag (r : reader) (t : list N) : reader :=
  Reader (r_tk r) (r_current r) (r_flags r) (r_context r) (r_depth r) t (r_root r) (r_buffer r).
Definition with_root (r : reader) : reader :=
  Reader (r_tk r) (r_current r) (r_flags r) (r_context r) (r_depth r) (r_tag r) true (r_buffer r).
Definition with_buffer (r : reader) (n : nat) : reader :=
  Reader (r_tk r) (r_current r) (r_flags r) (r_context r) (r_depth r) (r_tag r) (r_root r) (Some n).

(** tm_xml.h:879-889 *)
Definition buffer_size (r : reader) : nat := match r_buffer r with Some n => n | None => 64%nat end.

Definition text_of (t : token) (v : list N * option N) : token := Token (t_type t) (fst v) (snd v) (t_loc t) (t_length t).

(** tm_xml.h:928-949 and 1612-1634: a first attempt with the buffer there is, a second with a larger one; the new contents
    are the [size] first bytes of the buffer. tmxml_grow_buffer is 891-913. *)
Definition process_twice (alloc : nat -> bool) (f : list N -> option (bool * nat * list N)) (r : reader) : option (bool * reader) :=
  let size := buffer_size r in
  ' (ok, n, b) <- f (repeat 0 size) ;;
  if (ok : bool) then
    if (size <=? n)%nat then
      assert_ (size <? n)%nat
        (if alloc n then
           let r := with_buffer r n in
           ' (ok, n2, b) <- f (repeat 0 n) ;;
           if (ok : bool) then
             assert_ (n2 <? n)%nat (Some (true, with_current r (text_of (r_current r) (firstn n2 b, nth_error b n2))))
           else Some (false, with_current r (with_type (r_current r) Terror))
         else Some (false, with_current r (with_type (r_current r) Terror)))
    else Some (true, with_current r (text_of (r_current r) (firstn n b, nth_error b n)))
  else Some (false, with_current r (with_type (r_current r) Terror)).

(** tm_xml.h:915-953 *)
Definition process_cdata (alloc : nat -> bool) (r : reader) : option (bool * reader) :=
  let flags := if cdata_flag (r_flags r) then r_flags r else clear_trims (r_flags r) in
  let v := trims flags (t_text (r_current r), t_after (r_current r)) in
  let r := with_current r (text_of (r_current r) v) in
  match fst v with
  | [] => Some (true, r)
  | _ =>
      if reduce_flag flags then process_twice alloc (reduce_cdata flags v) r
      else ok <- is_valid_xml_string (fst v) ;; Some (ok, r)
  end.

(** tm_xml.h:1596-1635 *)
Definition unescape_current_token (alloc : nat -> bool) (r : reader) : option (bool * reader) :=
  let flags :=
    match t_type (r_current r) with
    | Tattr_value => if attribute_flag (r_flags r) then r_flags r else clear_trims (r_flags r)
    | _ => r_flags r
    end in
  let v := trims flags (t_text (r_current r), t_after (r_current r)) in
  let r := with_current r (text_of (r_current r) v) in
  match fst v with
  | [] => Some (true, r)
  | _ =>
      let flags := match t_type (r_current r) with Tcomment => N.setbit flags 28 | _ => flags end in
      process_twice alloc (unescape_string v flags) r
  end.

(** tm_xml.h:988-1073, the case '<' of the loop over contents. *)
Definition markup (alloc : nat -> bool) (r : reader) (tk : tokenizer) : option (bool * reader) :=
  let tk := advance tk 1 in
  let c := chr (cur tk) in
  if c =? 0 then Some (true, r)
  else if c =? 33 then
    let tk := advance tk 1 in
    if starts [45; 45] (cur tk) then
      let (t, tk) := parse_comment (advance tk 2) in
      let r := with_current r t in
      if is_error t then Some (true, r)
      else
        ' (ok, r) <- unescape_current_token alloc r ;;
        if (ok : bool) then Some (true, with_tk (with_context r Xcontent) tk) else Some (true, r)
    else if starts [91; 67; 68; 65; 84; 65; 91] (cur tk) then
      let tk := advance tk 7 in
      if 0 <? r_depth r then
        let (t, tk) := parse_until tk Tcdata [93; 93; 62] in
        let r := with_current r t in
        if is_error t then Some (true, r)
        else
          ' (ok, r) <- process_cdata alloc r ;;
          if (ok : bool) then Some (true, with_tk (with_context r Xcontent) tk) else Some (true, r)
      else Some (true, with_tk r tk)
    else Some (true, r)
  else if c =? 63 then
    let (t, tk) := parse_pi (advance tk 1) in
    let r := with_current r t in
    if is_error t then Some (true, r)
    else
      ok <- is_valid_xml_string (t_text t) ;;
      if (ok : bool) then Some (true, with_tk (with_context r Xcontent) tk)
      else Some (true, with_current r (with_type t Terror))
  else if c =? 47 then
    ' (t, tk) <- parse_name (advance tk 1) ;;
    let r := with_current r (with_type t Tclose) in
    let (more, tk) := skip_whitespace tk in
    if (more : bool) then
      if chr (cur tk) =? 62 then
        let tk := advance tk 1 in
        let r := with_context r Xcontent in
        if r_depth r =? 0 then Some (true, r)
        else
          let r := with_depth r (r_depth r - 1) in
          let r := if r_depth r =? 0 then with_context r Xpost_root else r in
          Some (true, with_tk r tk)
      else Some (true, with_current r (make_error tk))
    else Some (true, r)
  else
    ' (t, tk) <- parse_name tk ;;
    let r := with_current r t in
    if is_error t then Some (true, with_tk r tk)
    else
      let (more, tk) := skip_whitespace tk in
      if (more : bool) then
        let '(r, tk) :=
          if chr (cur tk) =? 62 then (with_depth (with_context r Xcontent) (r_depth r + 1), advance tk 1)
          else if chr (cur tk) =? 47 then (with_tag (with_context r Xinside_tag) (t_text t), tk)
          else (with_context r Xinside_tag, tk) in
        Some (true, with_tk (with_root r) tk)
      else Some (true, r).

(** tm_xml.h:978-1098, the loop: after one "continue" the text starts with '<'. *)
Definition content (alloc : nat -> bool) (r : reader) (tk : tokenizer) : option (bool * reader) :=
  let c := chr (cur tk) in
  if c =? 0 then
    if r_root r && (r_depth r =? 0) then
      Some (true, with_context (with_current r (with_type (r_current r) Teof)) Xeof)
    else Some (true, r)
  else if c =? 60 then markup alloc r tk
  else if negb (r_root r) || (r_depth r =? 0) then
    let (more, tk) := skip_whitespace tk in
    if (more : bool) then
      let r := with_tk r tk in
      if chr (cur tk) =? 60 then markup alloc r tk else Some (true, r)
    else Some (true, r)
  else
    let (t, tk) := parse_contents tk in
    let r := with_current r t in
    if is_error t then Some (true, r)
    else
      ' (ok, r) <- unescape_current_token alloc r ;;
      if (ok : bool) then
        if (trim_left_flag (r_flags r) || trim_right_flag (r_flags r))
           && match t_text (r_current r) with [] => true | _ => false end then
          markup alloc (with_current r (make_error tk)) tk
        else Some (true, with_tk (with_context r Xcontent) tk)
      else Some (true, r).

(** tm_xml.h:1100-1141 *)
Definition inside_tag (r : reader) (tk : tokenizer) : option (bool * reader) :=
  if chr (cur tk) =? 47 then
    let tk := advance tk 1 in
    if chr (cur tk) =? 62 then
      let r := with_context r (if r_depth r =? 0 then Xpost_root else Xcontent) in
      let tk := advance tk 1 in
      let t := r_current r in
      Some (true, with_tk (with_tag (with_current r (Token Tclose (r_tag r) None (t_loc t) (t_length t))) []) tk)
    else Some (true, with_current r (make_error tk))
  else
    ' (t, tk) <- parse_name tk ;;
    if is_error t then Some (true, with_tk (with_current r t) tk)
    else
      let r := with_current r (with_type t Tattr_name) in
      let (more, tk) := skip_whitespace tk in
      if (more : bool) then
        if chr (cur tk) =? 61 then
          let (more, tk) := skip_whitespace (advance tk 1) in
          if (more : bool) then
            if (chr (cur tk) =? 34) || (chr (cur tk) =? 39) then Some (true, with_tk (with_context r Xattr_name) tk)
            else Some (true, with_current r (make_error tk))
          else Some (true, r)
        else Some (true, with_current r (make_error tk))
      else Some (true, r).

(** tm_xml.h:1143-1165; strchr also finds the terminating 0. *)
Definition attribute (alloc : nat -> bool) (r : reader) (tk : tokenizer) : option (bool * reader) :=
  let (t, tk) := parse_attribute_value tk in
  let r := with_current r t in
  if is_error t then Some (true, with_tk r tk)
  else
    ' (ok, r) <- unescape_current_token alloc r ;;
    if (ok : bool) then
      if one_of [32; 9; 13; 10; 62; 0] (chr (cur tk)) then
        let (more, tk) := skip_whitespace tk in
        if (more : bool) then
          let '(r, tk) :=
            if chr (cur tk) =? 62 then (with_depth (with_context r Xcontent) (r_depth r + 1), advance tk 1)
            else if chr (cur tk) =? 47 then (with_tag (with_context r Xinside_tag) (t_text (r_current r)), tk)
            else (with_context r Xinside_tag, tk) in
          Some (true, with_tk r tk)
        else Some (true, r)
      else Some (true, r)
    else Some (true, r).

(** tm_xml.h:1167-1195 *)
Definition post_root (alloc : nat -> bool) (r : reader) (tk : tokenizer) : option (bool * reader) :=
  let (more, tk) := skip_whitespace tk in
  if (more : bool) then
    let r := with_current r (make_error tk) in
    if starts [60; 33; 45; 45] (cur tk) then
      let (t, tk) := parse_comment (advance tk 4) in
      let r := with_current r t in
      let r := if is_error t then r else with_context r Xpost_root in
      ' (ok, r) <- unescape_current_token alloc r ;;
      if (ok : bool) then Some (true, with_tk r tk) else Some (true, r)
    else if starts [60; 63] (cur tk) then
      let (t, tk) := parse_pi (advance tk 2) in
      let r := with_current r t in
      if is_error t then Some (true, r)
      else
        ok <- is_valid_xml_string (t_text t) ;;
        if (ok : bool) then Some (true, with_tk (with_context r Xpost_root) tk)
        else Some (true, with_current r (with_type t Terror))
    else Some (true, with_tk r tk)
  else
    let t := r_current r in
    Some (true, with_tk (with_context (with_current r (Token Teof [] (Some 0) (at_ tk) (t_length t))) Xeof) tk).

(** tm_xml.h:955-1200, tmxml_next_token *)
Definition next_token (alloc : nat -> bool) (r0 : reader) : option (bool * reader) :=
  let tk := r_tk r0 in
  let r := with_current (with_context r0 Xerror) (make_error tk) in
  match r_context r0 with
  | Xeof => Some (false, with_context r Xeof)
  | Xerror => Some (false, r)
  | Xnone =>
      let (more, tk) := skip_whitespace tk in
      if (more : bool) then (if chr (cur tk) =? 60 then content alloc r tk else Some (true, r))
      else Some (true, r)
  | Xcontent => content alloc r tk
  | Xinside_tag => inside_tag r tk
  | Xattr_name => attribute alloc r tk
  | Xpost_root => post_root alloc r tk
  end.

(** The documented loop: tokens until tmxml_next_token returns false. *)
Fixpoint read_all (fuel : nat) (alloc : nat -> bool) (r : reader) : option (list token * reader) :=
  match fuel with
  | O => None
  | S fuel =>
      ' (more, r) <- next_token alloc r ;;
      if (more : bool) then
        ' (ts, r') <- read_all fuel alloc r ;; Some (r_current r :: ts, r')
      else Some ([], r)
  end.

(** tm_xml.h:244-251 *)
Record prolog := Prolog { p_version : list N; p_encoding : list N; p_standalone_specified : bool; p_standalone : bool;
  p_present : bool; p_doctype : bool }.

Definition list_eqb (a b : list N) : bool := Nat.eqb (length a) (length b) && starts a b.
Definition is_nil (s : list N) : bool := match s with [] => true | _ => false end.
Definition is_open (t : token) : bool := match t_type t with Topen => true | _ => false end.

(** tm_xml.h:1226-1233, 1246-1253, 1264-1270: '=' and a quoted value that is not empty; [None]: return TM_FALSE. *)
Definition pseudo_value (tk : tokenizer) : option (list N * tokenizer) :=
  let (more, tk) := skip_whitespace tk in
  if (more && (chr (cur tk) =? 61))%bool then
    let (more, tk) := skip_whitespace (advance tk 1) in
    if (more : bool) then
      let (t, tk) := parse_attribute_value tk in
      match t_type t, t_text t with
      | Tattr_value, _ :: _ => Some (t_text t, tk)
      | _, _ => None
      end
    else None
  else None.

(** tm_xml.h:1239-1241, 1255-1257: behind a value; [None]: return TM_FALSE. *)
Definition next_name (tk : tokenizer) : option (option (token * tokenizer)) :=
  if one_of [32; 9; 13; 10; 63; 0] (chr (cur tk)) then
    let (more, tk) := skip_whitespace tk in
    if (more : bool) then x <- parse_name tk ;; Some (Some x) else Some None
  else Some None.

Definition version_text : list N := [118; 101; 114; 115; 105; 111; 110].
Definition encoding_text : list N := [101; 110; 99; 111; 100; 105; 110; 103].
Definition standalone_text : list N := [115; 116; 97; 110; 100; 97; 108; 111; 110; 101].

(** tm_xml.h:1260-1291, behind the optional encoding. The comparison with "no" includes its terminating 0, where the
    document has the closing quote: it fails. *)
Definition prolog_tail (out : prolog) (t : token) (tk : tokenizer) : bool * prolog * tokenizer :=
  let finish out (tk : tokenizer) :=
    let (more, tk) := skip_whitespace tk in
    if negb more || is_nil (p_version out) then (false, out, tk)
    else if chr (cur tk) =? 63 then
      let tk := advance tk 1 in
      if chr (cur tk) =? 62 then (true, out, advance tk 1) else (false, out, tk)
    else (false, out, tk) in
  if is_open t && list_eqb (t_text t) standalone_text then
    let out := Prolog (p_version out) (p_encoding out) true (p_standalone out) (p_present out) (p_doctype out) in
    match pseudo_value tk with
    | None => (false, out, tk)
    | Some (v, tk) => if list_eqb v [121; 101; 115] then finish out tk else (false, out, tk)
    end
  else if is_open t then (false, out, tk)
  else finish out tk.

(** tm_xml.h:1238-1258 *)
Definition prolog_encoding (out : prolog) (tk : tokenizer) : option (bool * prolog * tokenizer) :=
  x <- next_name tk ;;
  match x with
  | None => Some (false, out, tk)
  | Some (t, tk) =>
      if is_open t && list_eqb (t_text t) encoding_text then
        match pseudo_value tk with
        | None => Some (false, out, tk)
        | Some (v, tk) =>
            let out := Prolog (p_version out) v (p_standalone_specified out) (p_standalone out) (p_present out) (p_doctype out) in
            y <- next_name tk ;;
            match y with
            | None => Some (false, out, tk)
            | Some (t, tk) => Some (prolog_tail out t tk)
            end
        end
      else Some (prolog_tail out t tk)
  end.

(** tm_xml.h:1212-1291, behind "<?" *)
Definition prolog_declaration (tk : tokenizer) : option (bool * prolog * tokenizer) :=
  let out := Prolog [] [] false true true false in
  if starts [120; 109; 108] (cur tk) then
    let tk := advance tk 3 in
    if one_of [32; 9; 13; 10; 0] (chr (cur tk)) then
      let (more, tk) := skip_whitespace tk in
      if (more : bool) then
        ' (t, tk) <- parse_name tk ;;
        if is_open t && list_eqb (t_text t) version_text then
          match pseudo_value tk with
          | None => Some (false, out, tk)
          | Some (v, tk) => prolog_encoding (Prolog v [] false true true false) tk
          end
        else Some (false, out, tk)
      else Some (false, out, tk)
    else Some (false, out, tk)
  else Some (false, out, tk).

(** tm_xml.h:1314-1335; the column is only changed by newlines. *)
Fixpoint doctype_loop (fuel : nat) (depth : N) (tk : tokenizer) : option tokenizer :=
  match fuel with
  | O => None
  | S fuel =>
      let (p, r) := cspn [10; 60; 62] (cur tk) in
      match r with
      | [] => Some tk
      | c :: r =>
          let l := at_ tk in
          let tk := Tk r (Loc (if c =? 10 then w32 (line l + 1) else line l) (if c =? 10 then 0 else column l)
                              (w32 (offset l + (len32 p + 1)))) in
          let depth := if c =? 62 then depth - 1 else if c =? 60 then depth + 1 else depth in
          if depth =? 0 then Some tk else doctype_loop fuel depth tk
      end
  end.

(** tm_xml.h:1294-1341; [None] as inner result: return TM_TRUE without storing the tokenizer, [(false, ...)]: return TM_FALSE. *)
Fixpoint skip_doctype (fuel : nat) (rollback tk : tokenizer) : option (option (bool * bool * tokenizer)) :=
  match fuel with
  | O => None
  | S fuel =>
      let (more, tk) := skip_whitespace tk in
      if (more : bool) then
        if chr (cur tk) =? 60 then
          if nth 1 (cur tk) 0 =? 33 then
            let tk := advance tk 2 in
            if starts [45; 45] (cur tk) then
              let (t, tk) := parse_comment (advance tk 2) in
              if is_error t then Some (Some (false, false, tk)) else skip_doctype fuel rollback tk
            else if starts [68; 79; 67; 84; 89; 80; 69] (cur tk) then
              let tk := advance tk 7 in
              tk <- doctype_loop (S (length (cur tk))) 1 tk ;; Some (Some (true, true, tk))
            else Some (Some (true, false, tk))
          else Some (Some (true, false, rollback))
        else Some (Some (true, false, tk))
      else Some None
  end.

(** tm_xml.h:1202-1345 *)
Definition read_prolog (r : reader) : option (bool * prolog * reader) :=
  let tk := r_tk r in
  ' (ok, out, tk) <- (if starts [60; 63] (cur tk) then prolog_declaration (advance tk 2)
                      else Some (true, Prolog [] [] false false false false, tk)) ;;
  if (ok : bool) then
    x <- skip_doctype (S (length (cur tk))) tk tk ;;
    match x with
    | None => Some (true, out, r)
    | Some (ok, found, tk) =>
        let out := Prolog (p_version out) (p_encoding out) (p_standalone_specified out) (p_standalone out) (p_present out) found in
        if (ok : bool) then Some (true, out, with_tk r tk) else Some (false, out, r)
    end
  else Some (false, out, r).

(** tm_xml.h:1645-1664: the allocated block, [None]: NULL. *)
Definition copy_string (alloc : nat -> bool) (s : list N) : option (list N) :=
  match s with
  | [] => if alloc 1%nat then Some [0] else None
  | _ => if alloc (length s) then Some s else None
  end.
