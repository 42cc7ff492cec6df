(** Model of tools/merge/src/main.cpp: the program that puts the single headers together. Texts are lists of octets, positions are
    indices into the text that is read (with its terminating 0), a read outside of it and a failing assertion are [None]. *)
From Coq Require Import Arith NArith List Bool.
From Verif Require Import Base.
Import ListNotations.
Local Open Scope N_scope.

Definition text := list N.
Definition text_eqb (a b : text) : bool := if list_eq_dec N.eq_dec a b then true else false.
(** The octets from position [a] up to position [b]. *)
Definition slice (d : text) (a b : nat) : text := firstn (b - a) (skipn a d).
(** std::memchr in a range that lies inside of the text; the first position, counted from the start of the range. *)
Fixpoint index (c : N) (l : text) : option nat :=
  match l with [] => None | x :: t => if x =? c then Some 0%nat else option_map S (index c t) end.
(** strncmp(str, literal, n) == 0, the literal with its terminating 0. *)
Fixpoint strncmp_eq (n : nat) (a b : text) : option bool :=
  match n with
  | O => Some true
  | S n' => match a, b with
            | x :: a', y :: b' => if x =? y then if x =? 0 then Some true else strncmp_eq n' a' b' else Some false
            | _, _ => None
            end
  end.
(** isalnum in the C locale. *)
Definition isalnum (c : N) : bool := ((48 <=? c) && (c <=? 57)) || ((65 <=? c) && (c <=? 90)) || ((97 <=? c) && (c <=? 122)).
(** main.cpp:83: space, tab, CR, LF, VT, FF. *)
Definition is_blank (c : N) : bool := (c =? 32) || ((9 <=? c) && (c <=? 13)).
(** main.cpp:82-86 from a suffix of the text: how many octets are skipped. *)
Fixpoint skip_whitespace (l : text) : option nat :=
  match l with
  | [] => None
  | c :: t => if negb (c =? 0) && is_blank c then option_map S (skip_whitespace t) else Some 0%nat
  end.
Definition INT32_MAX : N := 2147483647.
(** main.cpp:88-94 *)
Definition distance (a b : nat) : option nat := assert_ ((a <=? b)%nat && (N.of_nat (b - a) <? INT32_MAX)) (Some (b - a)%nat).

Inductive token_type := tok_hash | tok_identifier | tok_string | tok_eof.
Record token := Token { t_type : token_type; t_len : nat; t_str : nat }.
(** main.cpp:108-120, from the octet behind the opening of the comment: how many octets the comment still has. The loop over memchr is
    written as one pass. *)
Fixpoint comment_end (l : text) : option (option nat) :=
  match l with
  | [] => Some None
  | x :: t =>
      if x =? 42 then
        match t with
        | [] => None
        | y :: _ => if y =? 47 then Some (Some 2%nat) else r <- comment_end t ;; Some (option_map S r)
        end
      else r <- comment_end t ;; Some (option_map S r)
  end.
(** main.cpp:139-155, [prev] is the octet before: the position of the closing quote. *)
Fixpoint string_end (prev : N) (l : text) : option nat :=
  match l with
  | [] => None
  | x :: t => if (x =? 34) && negb (prev =? 92) then Some 0%nat else option_map S (string_end x t)
  end.
(** main.cpp:159-162 *)
Fixpoint word_end (l : text) : option nat :=
  match l with
  | [] => None
  | x :: t => if isalnum x || (x =? 95) then option_map S (word_end t) else Some 0%nat
  end.
(** main.cpp:100-169; [sp] is where the stream stays at the end of the text. *)
Fixpoint token_loop (fuel : nat) (d : text) (sp p : nat) : option (token * nat) :=
  match fuel with
  | O => None
  | S fuel' =>
      len <- distance sp (length d) ;;
      let eof := Some (Token tok_eof len (length d), sp) in
      c <- nth_error d p ;;
      if c =? 47 then
        c1 <- nth_error d (p + 1) ;;
        if c1 =? 42 then
          r <- comment_end (skipn (p + 2) d) ;;
          match r with None => eof | Some n => token_loop fuel' d sp (p + 2 + n) end
        else if c1 =? 47 then
          match index 10 (skipn (p + 1) d) with None => eof | Some n => token_loop fuel' d sp (p + 1 + n + 1) end
        else token_loop fuel' d sp (p + 1)
      else if c =? 35 then Some (Token tok_hash 1 p, (p + 1)%nat)
      else if c =? 0 then eof
      else if c =? 34 then
        match string_end 34 (skipn (p + 1) d) with
        | None => eof
        | Some n => len <- distance (p + 1) (p + 1 + n) ;; Some (Token tok_string len (p + 1), (p + 1 + n + 1)%nat)
        end
      else
        n <- word_end (skipn p d) ;;
        let q := if (n =? 0)%nat then (p + 1)%nat else (p + n)%nat in
        len <- distance p q ;; Some (Token tok_identifier len p, q)
  end.
(** main.cpp:96-170: the token and where the stream is afterwards. *)
Definition next_token (d : text) (p : nat) : option (token * nat) :=
  n <- skip_whitespace (skipn p d) ;;
  token_loop (S (length d)) d (p + n) (p + n).

(** main.cpp:172-179 *)
Definition concat_paths (dir path : text) : text :=
  match rev dir with
  | [] => path
  | c :: _ => if (c =? 47) || (c =? 92) then dir ++ path else dir ++ 47 :: path
  end.
Record definition := Def { d_name : text; d_value : text }.
Inductive outcome (A : Type) := Merge_ok (a : A) | Merge_skip | Merge_error.
Arguments Merge_ok {A}. Arguments Merge_skip {A}. Arguments Merge_error {A}.
Definition is_identifier (t : token) : bool := match t_type t with tok_identifier => true | _ => false end.
Definition is_string (t : token) : bool := match t_type t with tok_string => true | _ => false end.
Definition word_define : text := [100; 101; 102; 105; 110; 101; 0].
Definition word_include : text := [105; 110; 99; 108; 117; 100; 101; 0].
Definition word_merge : text := [77; 69; 82; 71; 69; 95].
(** main.cpp:207-240, behind the #: the definition and where the stream is then. *)
Definition parse_define_statement (d : text) (p : nat) : option (outcome (definition * nat)) :=
  ' (t, p) <- next_token d p ;;
  yes <- (if is_identifier t then strncmp_eq (t_len t) (skipn (t_str t) d) word_define else Some false) ;;
  if negb yes then Some Merge_skip else
  ' (t, p) <- next_token d p ;;
  yes <- (if is_identifier t then strncmp_eq 6 (skipn (t_str t) d) (word_merge ++ [0]) else Some false) ;;
  if negb yes then Some Merge_skip else
  n <- skip_whitespace (skipn p d) ;;
  let p := (p + n)%nat in
  c <- nth_error d p ;;
  if c =? 40 then Some Merge_error else
  let '(line_end, next) := match index 10 (skipn p d) with None => (length d, length d) | Some n => ((p + n)%nat, (p + n + 1)%nat) end in
  line_end <- (if (p <? length d)%nat then c <- nth_error d (line_end - 1) ;; Some (if c =? 13 then (line_end - 1)%nat else line_end) else Some line_end) ;;
  n <- distance p line_end ;;
  Some (Merge_ok (Def (slice d (t_str t) (t_str t + t_len t)) (firstn n (skipn p d)), next)).

(** std::search: how many octets come before the first occurrence. *)
Fixpoint starts_with (w l : text) : bool :=
  match w, l with
  | [], _ => true
  | x :: w', y :: l' => (x =? y) && starts_with w' l'
  | _ :: _, [] => false
  end.
Fixpoint search (w l : text) : option nat :=
  if starts_with w l then Some 0%nat else match l with [] => None | _ :: t => option_map S (search w t) end.
(** The octet before the position behind [l], or after the position before [l]: a letter or digit. *)
Definition ends_alnum (l : text) : bool := match rev l with [] => false | c :: _ => isalnum c end.
Definition begins_alnum (l : text) : bool := match l with [] => false | c :: _ => isalnum c end.
(** main.cpp:261-262: back to the line break before, or to the beginning (line 262 never does anything: *pos is the line break). *)
Definition back_to_line (l : text) : text :=
  match index 10 (rev l) with None => [] | Some n => firstn (length l - n - 1) l end.
(** main.cpp:265-266 *)
Definition behind_line (l : text) : text := match index 10 l with None => [] | Some n => skipn (S n) l end.
(** main.cpp:249-268: the vector is [before ++ rest], pos is behind [before]. *)
Fixpoint erase_loop (fuel : nat) (w before rest : text) : option text :=
  match fuel with
  | O => None
  | S fuel' =>
      match search w rest with
      | None => Some (before ++ rest)
      | Some k =>
          let b := before ++ firstn k rest in let a := skipn (k + length w) rest in
          if ends_alnum b || begins_alnum a then erase_loop fuel' w (b ++ w) a
          else erase_loop fuel' w (back_to_line b) (behind_line a)
      end
  end.
Definition word_undef : text := [35; 117; 110; 100; 101; 102; 32].
(** main.cpp:242-270; each step leaves less of the rest *)
Definition erase_one (data : text) (def : definition) : option text := erase_loop (S (length data)) (word_undef ++ d_name def) [] data.
Definition each (f : text -> definition -> option text) (data : text) (defs : list definition) : option text :=
  fold_left (fun r def => data <- r ;; f data def) defs (Some data).
Definition erase_undef_statements : text -> list definition -> option text := each erase_one.
(** main.cpp:351-364 *)
Fixpoint replace_loop (fuel : nat) (def : definition) (before rest : text) : option text :=
  match fuel with
  | O => None
  | S fuel' =>
      match search (d_name def) rest with
      | None => Some (before ++ rest)
      | Some k =>
          let b := before ++ firstn k rest in let a := skipn (k + length (d_name def)) rest in
          if ends_alnum b || begins_alnum a then replace_loop fuel' def (b ++ d_name def) a
          else replace_loop fuel' def (b ++ d_value def) a
      end
  end.
Definition replace_one (data : text) (def : definition) : option text := replace_loop (S (length data)) def [] data.
(** main.cpp:347-366 *)
Definition process_definitions : text -> list definition -> option text := each replace_one.

Record indentation := Indent { i_amount : nat; i_spaces : bool }.
(** main.cpp:283-305: [l] is the text reversed; its last octet, the first of the text, is not looked at. *)
Fixpoint indent_loop (l : text) (spaces : nat) (r : indentation) : indentation :=
  match l with
  | [] | [_] => r
  | c :: t =>
      if c =? 9 then indent_loop t spaces (Indent (S (i_amount r)) (i_spaces r))
      else if c =? 32 then
        if (spaces =? 3)%nat then indent_loop t 0 (Indent (S (i_amount r)) true) else indent_loop t (S spaces) (Indent (i_amount r) true)
      else r
  end.
Definition get_indent (out : text) : indentation := indent_loop (rev out) 0 (Indent 0 false).
Definition is_break (c : N) : bool := (c =? 13) || (c =? 10).
(** main.cpp:327-330, 339-342: the rest of the line with the line breaks behind it, and what follows. *)
Fixpoint skip_breaks (l : text) : nat := match l with c :: t => if is_break c then S (skip_breaks t) else 0%nat | [] => 0%nat end.
Definition next_line (l : text) : nat := match index 10 l with None => length l | Some n => (n + skip_breaks (skipn n l))%nat end.
Definition unit_of (i : indentation) : text := if i_spaces i then [32; 32; 32; 32] else [9].
(** main.cpp:332-344: the vector is [before ++ rest], first is behind [before]. *)
Fixpoint indent_lines (fuel : nat) (i : indentation) (before rest : text) : option text :=
  match fuel with
  | O => None
  | S fuel' =>
      let n := next_line rest in
      let b := before ++ concat (repeat (unit_of i) (i_amount i)) ++ firstn n rest in
      match skipn n rest with [] => Some b | a => indent_lines fuel' i b a end
  end.
(** main.cpp:306-345 *)
Definition indent_range (data : text) (i : indentation) : option text :=
  if (i_amount i =? 0)%nat then Some data
  else match skipn (next_line data) data with [] => Some data | a => indent_lines (S (length data)) i (firstn (next_line data) data) a end.

(** fopen takes the name up to its first 0. *)
Fixpoint c_string (l : text) : text := match l with [] => [] | c :: t => if c =? 0 then [] else c :: c_string t end.
Record merged := Merged { m_data : text; m_files : list text; m_success : bool; m_changed : bool }.
(** std::find over names *)
Definition is_in (name : text) (l : list text) : bool := existsb (text_eqb name) l.
Section Merge.
(** read_file (main.cpp:41-53) without the terminator: what the file of that name holds. *)
Variable files : text -> option text.
Variable dir : text.
(** main.cpp:368-412, behind the #; ok: the result so far with the file, and where the stream is then. *)
Definition merge_include_statement (d : text) (p : nat) (defs : list definition) (already : list text) (out : merged) : option (outcome (merged * nat)) :=
  ' (t, p) <- next_token d p ;;
  yes <- (if is_identifier t then strncmp_eq (t_len t) (skipn (t_str t) d) word_include else Some false) ;;
  if negb yes then Some Merge_skip else
  ' (t, p) <- next_token d p ;;
  if negb (is_string t) then Some Merge_skip else
  let name := slice d (t_str t) (t_str t + t_len t) in
  if is_in name already then Some Merge_error else
  let filename := concat_paths dir name in
  match filename with
  | [] => Some Merge_error
  | _ =>
      match files (c_string filename) with
      | None => Some Merge_skip
      | Some data =>
          data <- erase_undef_statements data defs ;;
          data <- process_definitions data defs ;;
          let names := if is_in name (m_files out) then m_files out else m_files out ++ [name] in
          data <- indent_range data (get_indent (m_data out)) ;;
          Some (Merge_ok (Merged (m_data out ++ data) names (m_success out) (m_changed out), p))
      end
  end.
Definition set_data (m : merged) (data : text) : merged := Merged data (m_files m) (m_success m) (m_changed m).
(** main.cpp:437-486: [defs] begins with the definition of the year. *)
Fixpoint merge_loop (fuel : nat) (d : text) (already : list text) (p : nat) (defs : list definition) (out : merged) : option merged :=
  match fuel with
  | O => None
  | S fuel' =>
      ' (t, q) <- next_token d p ;;
      (* main.cpp:440-446 *)
      ' (prev, out) <- (match t_type t with
                        | tok_eof => Some (p, out)
                        | _ => if (p =? t_str t)%nat then Some (p, out)
                               else cur <- process_definitions (slice d p (t_str t)) defs ;; Some (t_str t, set_data out (m_data out ++ cur))
                        end) ;;
      let copy (_ : unit) := cur <- process_definitions (slice d prev q) defs ;; merge_loop fuel' d already q defs (set_data out (m_data out ++ cur)) in
      match t_type t with
      | tok_eof =>
          cur <- process_definitions (slice d prev (length d - 1)) defs ;;
          Some (Merged (m_data out ++ cur) (m_files out ++ already) true (m_changed out))
      | tok_hash =>
          r <- merge_include_statement d q defs already out ;;
          match r with
          | Merge_ok (out, q) => merge_loop fuel' d already q (firstn 1 defs) (Merged (m_data out) (m_files out) (m_success out) true)
          | Merge_error => Some out
          | Merge_skip =>
              r <- parse_define_statement d q ;;
              match r with
              | Merge_ok (def, q) => merge_loop fuel' d already q (defs ++ [def]) out
              | Merge_error => Some out
              | Merge_skip => copy tt
              end
          end
      | _ => copy tt
      end
  end.
Definition merge_year : text := word_merge ++ [89; 69; 65; 82].
(** main.cpp:414-487; [d] is the text with its terminating 0, [year] the digits of the year. *)
Definition merge (year : text) (d : text) (already : list text) : option merged :=
  match rev d with
  | 0 :: _ =>
      if (260 <? length dir)%nat then Some (Merged [] [] false false)
      else merge_loop (S (length d)) d already 0 [Def merge_year year] (Merged [] [] false false)
  | _ => None
  end.
(** main.cpp:510-521: [None] undefined, [Some None] more rounds than the fuel, otherwise the last result. *)
Fixpoint rounds (fuel : nat) (year : text) (recursive : bool) (d : text) (already : list text) : option (option merged) :=
  match fuel with
  | O => Some None
  | S fuel' =>
      m <- merge year d already ;;
      if negb (m_success m) then Some (Some m)
      else if recursive && m_changed m then rounds fuel' year recursive (m_data m ++ [0]) (m_files m)
      else Some (Some m)
  end.
(** main.cpp:489-528 without the command line: what is written to the output file. *)
Definition run (fuel : nat) (year : text) (recursive : bool) (input : text) : option (option (option text)) :=
  r <- rounds fuel year recursive (input ++ [0]) [] ;;
  Some (option_map (fun m => if m_success m then Some (m_data m) else None) r).
End Merge.
