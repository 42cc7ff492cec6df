(** Model of the search, tokenizing, trimming and comparison functions of tm_stringutil.h.
    Memory is one list [m] of characters (numbers below 256), pointers are indices into it; [None] is a read outside of
    the memory, a failed assertion or a null pointer where none is allowed. NULL as a result is [Some None].
    [char] comparisons are on equal representations, so signedness does not matter. The standard library functions
    memchr, memcmp, strlen, strncmp, strcspn, strspn are modelled by their C definitions, memcmp and strncmp return the
    difference of the first different characters (the standard fixes only its sign). TM_MEMRCHR is undefined by default
    and the fallback loop is modelled. Pointer differences are unbounded. *)
From Coq Require Import Arith NArith ZArith List Bool.
From Verif Require Import Base CTypeModel CodecModel.
Import ListNotations.
Local Open Scope N_scope.

Definition is_some {A} (o : option A) : bool := match o with Some _ => true | None => false end.

Section Mem.
Variable m : list N.

(** <string.h> *)
Fixpoint memchr (i n : nat) (c : N) : option (option nat) :=
  match n with
  | O => Some None
  | S n' => x <- nth_error m i ;; if x =? c then Some (Some i) else memchr (S i) n' c
  end.
Fixpoint memcmp (a b n : nat) : option Z :=
  match n with
  | O => Some 0%Z
  | S n' => x <- nth_error m a ;; y <- nth_error m b ;;
            if x =? y then memcmp (S a) (S b) n' else Some (Z.of_N x - Z.of_N y)%Z
  end.
Fixpoint strlen_list (l : list N) : option nat :=
  match l with
  | [] => None
  | x :: r => if x =? 0 then Some O else n <- strlen_list r ;; Some (S n)
  end.
Definition strlen (i : nat) : option nat := strlen_list (skipn i m).
Fixpoint strncmp (a b n : nat) : option Z :=
  match n with
  | O => Some 0%Z
  | S n' => x <- nth_error m a ;; y <- nth_error m b ;;
            if x =? y then (if x =? 0 then Some 0%Z else strncmp (S a) (S b) n') else Some (Z.of_N x - Z.of_N y)%Z
  end.
(** strcspn / strspn: [cont] tells on which answer of "is in the set" the loop continues; [l] is the rest of the memory. *)
Fixpoint span_list (l : list N) (f fn : nat) (cont : bool) : option nat :=
  match l with
  | [] => None
  | x :: r => if x =? 0 then Some O
              else q <- memchr f fn x ;; if Bool.eqb (is_some q) cont then n <- span_list r f fn cont ;; Some (S n) else Some O
  end.

(** tm_stringutil.h:515-522: tmsu_distance, tmsu_distance_sz. *)
Definition distance (first last : nat) : option nat := if (first <=? last)%nat then Some (last - first)%nat else None.

(** ** Length based search *)
(** tm_stringutil.h:544-549. *)
Definition tmsu_find_char_n (first last : nat) (c : N) : option nat :=
  if (first =? last)%nat then Some last
  else n <- distance first last ;; r <- memchr first n c ;; Some (match r with Some p => p | None => last end).
(** tm_stringutil.h:550-569. *)
Definition tmsu_find_char2_n (first last : nat) (a b : N) : option nat :=
  n <- distance first last ;;
  if (n =? 0)%nat then Some last
  else
    ra <- memchr first n a ;; rb <- memchr first n b ;;
    let pa := match ra with Some p => p | None => last end in
    let pb := match rb with Some p => p | None => last end in
    Some (if (pa <? pb)%nat then pa else pb).

(** tm_stringutil.h:571-587: the loop walks down from str_last; [n] is cur - str_first. *)
Fixpoint last_char_loop (first n : nat) (c : N) (not_found : option nat) : option (option nat) :=
  match n with
  | O => Some not_found
  | S n' => x <- nth_error m (first + n') ;; if x =? c then Some (Some (first + n')%nat) else last_char_loop first n' c not_found
  end.
Definition tmsu_find_last_char_n_ex (first last : nat) (c : N) (not_found : option nat) : option (option nat) :=
  n <- distance first last ;; last_char_loop first n c not_found.
(** tm_stringutil.h:588-590. *)
Definition tmsu_find_last_char_n (first last : nat) (c : N) : option nat :=
  r <- tmsu_find_last_char_n_ex first last c (Some last) ;; r.

(** tm_stringutil.h:592-616. [f1] is find_str_first after the increment, [n1] find_str_len after the decrement. *)
Fixpoint find_loop (fuel cur search_last : nat) (c : N) (f1 n1 last : nat) : option nat :=
  match fuel with
  | O => None
  | S fuel' =>
    cur <- tmsu_find_char_n cur search_last c ;;
    if (cur =? search_last)%nat then Some last
    else r <- memcmp (S cur) f1 n1 ;;
         if (r =? 0)%Z then Some cur else find_loop fuel' (S cur) search_last c f1 n1 last
  end.
Definition tmsu_find_n (first last f fl : nat) : option nat :=
  d <- distance first last ;; n <- distance f fl ;;
  if (n =? 0)%nat then Some first
  else if (d <? n)%nat then Some last
  else
    c <- nth_error m f ;;
    let search_last := (last - (n - 1))%nat in
    find_loop (S (search_last - first)) first search_last c (S f) (n - 1) last.

(** tm_stringutil.h:618-643. *)
Fixpoint find_last_loop (fuel first prev : nat) (c : N) (f1 n1 : nat) (not_found : option nat) : option (option nat) :=
  match fuel with
  | O => None
  | S fuel' =>
    cur <- tmsu_find_last_char_n first prev c ;;
    if (cur =? prev)%nat then Some not_found
    else r <- memcmp (S cur) f1 n1 ;;
         if (r =? 0)%Z then Some (Some cur) else find_last_loop fuel' first cur c f1 n1 not_found
  end.
Definition tmsu_find_last_n_ex (first last f fl : nat) (not_found : option nat) : option (option nat) :=
  d <- distance first last ;; n <- distance f fl ;;
  if (n =? 0)%nat then Some (Some first)
  else if (d <? n)%nat then Some not_found
  else
    c <- nth_error m f ;;
    let search_last := (last - (n - 1))%nat in
    find_last_loop (S (search_last - first)) first search_last c (S f) (n - 1) not_found.
(** tm_stringutil.h:645-648. *)
Definition tmsu_find_last_n (first last f fl : nat) : option nat :=
  r <- tmsu_find_last_n_ex first last f fl (Some last) ;; r.

(** tm_stringutil.h:722-726 and 735-739: the loops of find_first_of_n ([cont = false]) and find_first_not_of_n. *)
Fixpoint scan_of (n i f fn : nat) (cont : bool) : option nat :=
  match n with
  | O => Some i
  | S n' => x <- nth_error m i ;; q <- memchr f fn x ;;
            if Bool.eqb (is_some q) cont then scan_of n' (S i) f fn cont else Some i
  end.
(** tm_stringutil.h:716-727. *)
Definition tmsu_find_first_of_n (first last f fl : nat) : option nat :=
  d <- distance first last ;; n <- distance f fl ;;
  if (f =? fl)%nat then Some first else scan_of d first f n false.
(** tm_stringutil.h:729-740. *)
Definition tmsu_find_first_not_of_n (first last f fl : nat) : option nat :=
  d <- distance first last ;; n <- distance f fl ;;
  if (n =? 0)%nat then Some first else scan_of d first f n true.
(** tm_stringutil.h:746-748 and 757-759: [n] is str_last - str_first. *)
Fixpoint scan_back (n first f fn : nat) (cont : bool) : option nat :=
  match n with
  | O => Some O
  | S n' => x <- nth_error m (first + n') ;; q <- memchr f fn x ;;
            if Bool.eqb (is_some q) cont then scan_back n' first f fn cont else Some (S n')
  end.
(** tm_stringutil.h:742-751 ([cont = false]) and 753-762 ([cont = true]). *)
Definition find_last_n_ex (cont : bool) (first last f fl : nat) (not_found : option nat) : option (option nat) :=
  if (first =? last)%nat then Some not_found
  else
    n <- distance f fl ;; d <- distance first last ;;
    k <- scan_back d first f n cont ;;
    if (k =? 0)%nat then Some not_found else Some (Some (first + k - 1)%nat).
Definition tmsu_find_last_of_n_ex := find_last_n_ex false.
Definition tmsu_find_last_not_of_n_ex := find_last_n_ex true.
(** tm_stringutil.h:764-772. *)
Definition tmsu_find_last_of_n (first last f fl : nat) : option nat := r <- tmsu_find_last_of_n_ex first last f fl (Some last) ;; r.
Definition tmsu_find_last_not_of_n (first last f fl : nat) : option nat := r <- tmsu_find_last_not_of_n_ex first last f fl (Some last) ;; r.

(** ** Comparison *)
(** tm_stringutil.h:1098-1108 (the same lines in the three comparison functions): [Some r] is an early return. *)
Definition by_length (a_len b_len : nat) : Z := if (b_len <? a_len)%nat then 1%Z else if (a_len <? b_len)%nat then (-1)%Z else 0%Z.
Definition zero_len (n : nat) : Z := if (n =? 0)%nat then 1%Z else 0%Z.
Definition early (a_first b_first a_len b_len : nat) : option Z :=
  if (a_len =? 0)%nat || (b_len =? 0)%nat then Some (zero_len b_len - zero_len a_len)%Z
  else if (a_first =? b_first)%nat then Some (by_length a_len b_len)
  else None.
(** tm_stringutil.h:1096-1119. *)
Definition tmsu_compare_n (a_first a_last b_first b_last : nat) : option Z :=
  a_len <- distance a_first a_last ;; b_len <- distance b_first b_last ;;
  match early a_first b_first a_len b_len with
  | Some r => Some r
  | None =>
    r <- memcmp a_first b_first (Nat.min a_len b_len) ;;
    if (r =? 0)%Z then Some (by_length a_len b_len) else Some r
  end.
(** tm_stringutil.h:1134-1139. *)
Fixpoint cmp_upper (a b n : nat) : option Z :=
  match n with
  | O => Some 0%Z
  | S n' => x <- nth_error m a ;; y <- nth_error m b ;;
            let diff := (Z.of_N (to_upper x) - Z.of_N (to_upper y))%Z in
            if (diff =? 0)%Z then cmp_upper (S a) (S b) n' else Some diff
  end.
(** tm_stringutil.h:1120-1144. *)
Definition tmsu_compare_ignore_case_ansi_n (a_first a_last b_first b_last : nat) : option Z :=
  a_len <- distance a_first a_last ;; b_len <- distance b_first b_last ;;
  match early a_first b_first a_len b_len with
  | Some r => Some r
  | None =>
    r <- cmp_upper a_first b_first (Nat.min a_len b_len) ;;
    if (r =? 0)%Z then Some (by_length a_len b_len) else Some r
  end.
(** tm_stringutil.h:1193-1198. *)
Definition tmsu_equals_n (a_first a_last b_first b_last : nat) : option bool :=
  a_len <- distance a_first a_last ;; b_len <- distance b_first b_last ;;
  if negb (a_len =? b_len)%nat then Some false else r <- memcmp a_first b_first a_len ;; Some (r =? 0)%Z.
(** tm_stringutil.h:1199-1210. *)
Definition tmsu_equals_ignore_case_ansi_n (a_first a_last b_first b_last : nat) : option bool :=
  a_len <- distance a_first a_last ;; b_len <- distance b_first b_last ;;
  if negb (a_len =? b_len)%nat then Some false else r <- cmp_upper a_first b_first a_len ;; Some (r =? 0)%Z.

(** tm_stringutil.h:1149-1164: tmsu_human_parse_and_advance: the value and the new position; int overflow is undefined. *)
Fixpoint human_digits (n p : nat) (acc : N) : option (N * nat) :=
  match n with
  | O => Some (acc, p)
  | S n' => x <- nth_error m p ;;
            if is_digit x then
              let acc' := acc * 10 + (x - 48) in
              if acc' <? 2^31 then human_digits n' (S p) acc' else None
            else Some (acc, p)
  end.
Definition tmsu_human_parse_and_advance (p last : nat) : option (N * nat) :=
  if (p =? last)%nat then None
  else
    x <- nth_error m p ;;
    if negb (is_digit x) then Some (to_upper x, S p)
    else ' (v, p') <- human_digits (last - p) p 0 ;; if v + 256 <? 2^31 then Some (v + 256, p') else None.
(** tm_stringutil.h:1179-1184: every iteration advances both positions. *)
Fixpoint human_loop (fuel a a_last b b_last : nat) : option Z :=
  match fuel with
  | O => None
  | S fuel' =>
    if (a =? a_last)%nat || (b =? b_last)%nat then Some 0%Z
    else
      ' (va, a') <- tmsu_human_parse_and_advance a a_last ;;
      ' (vb, b') <- tmsu_human_parse_and_advance b b_last ;;
      let diff := (Z.of_N va - Z.of_N vb)%Z in
      if (diff =? 0)%Z then human_loop fuel' a' a_last b' b_last else Some diff
  end.
(** tm_stringutil.h:1166-1189. *)
Definition tmsu_human_compare_ansi_n (a_first a_last b_first b_last : nat) : option Z :=
  a_len <- distance a_first a_last ;; b_len <- distance b_first b_last ;;
  match early a_first b_first a_len b_len with
  | Some r => Some r
  | None =>
    r <- human_loop (S a_len) a_first a_last b_first b_last ;;
    if (r =? 0)%Z then Some (by_length a_len b_len) else Some r
  end.

(** tm_stringutil.h:1226-1250. *)
Definition tmsu_starts_with_n (first last f fl : nat) : option bool :=
  d <- distance first last ;; n <- distance f fl ;;
  if (d <? n)%nat then Some false else r <- memcmp first f n ;; Some (r =? 0)%Z.
Definition tmsu_ends_with_n (first last f fl : nat) : option bool :=
  d <- distance first last ;; n <- distance f fl ;;
  if (d <? n)%nat then Some false else r <- memcmp (last - n)%nat f n ;; Some (r =? 0)%Z.
(** tm_stringutil.h:1267-1291. *)
Definition tmsu_starts_with_ignore_case_ansi_n (first last f fl : nat) : option bool :=
  d <- distance first last ;; n <- distance f fl ;;
  if (d <? n)%nat then Some false
  else r <- tmsu_compare_ignore_case_ansi_n first (first + n)%nat f fl ;; Some (r =? 0)%Z.
Definition tmsu_ends_with_ignore_case_ansi_n (first last f fl : nat) : option bool :=
  d <- distance first last ;; n <- distance f fl ;;
  if (d <? n)%nat then Some false
  else r <- tmsu_compare_ignore_case_ansi_n (last - n)%nat last f fl ;; Some (r =? 0)%Z.

(** ** Case insensitive search *)
(** tm_stringutil.h:785-797. *)
Definition tmsu_find_char_ignore_case_ansi_n (first last : nat) (c : N) : option nat :=
  d <- distance first last ;;
  if (d =? 0)%nat then Some last
  else if to_upper c =? to_lower c then
    r <- memchr first d c ;; Some (match r with Some p => p | None => last end)
  else tmsu_find_char2_n first last (to_upper c) (to_lower c).
(** tm_stringutil.h:798-819. *)
Fixpoint find_ic_loop (fuel cur search_last : nat) (c : N) (f1 fl n1 last : nat) : option nat :=
  match fuel with
  | O => None
  | S fuel' =>
    cur <- tmsu_find_char_ignore_case_ansi_n cur search_last c ;;
    if (cur =? search_last)%nat then Some last
    else r <- tmsu_compare_ignore_case_ansi_n (S cur) (S cur + n1)%nat f1 fl ;;
         if (r =? 0)%Z then Some cur else find_ic_loop fuel' (S cur) search_last c f1 fl n1 last
  end.
Definition tmsu_find_ignore_case_ansi_n (first last f fl : nat) : option nat :=
  d <- distance first last ;; n <- distance f fl ;;
  if (n =? 0)%nat then Some first
  else if (d <? n)%nat then Some last
  else
    c <- nth_error m f ;;
    let search_last := (last - (n - 1))%nat in
    find_ic_loop (S (search_last - first)) first search_last c (S f) fl (n - 1) last.

(** ** Escape aware search *)
(** tm_stringutil.h:823-831: the number of escape characters directly before [first + n]. *)
Fixpoint escape_run (first n : nat) (esc : N) : option nat :=
  match n with
  | O => Some O
  | S n' => x <- nth_error m (first + n') ;; if x =? esc then k <- escape_run first n' esc ;; Some (S k) else Some O
  end.
Definition tmsu_is_char_unescaped (first last : nat) (esc : N) : option bool :=
  k <- escape_run first (last - first) esc ;; Some (Nat.even k).

(** tm_stringutil.h:887-891. [pos] is str at the loop head. *)
Fixpoint char_unescaped_loop (fuel first pos last : nat) (c esc : N) : option nat :=
  match fuel with
  | O => None
  | S fuel' =>
    pos <- tmsu_find_char_n (S pos) last c ;;
    if (pos =? last)%nat then Some pos
    else ok <- tmsu_is_char_unescaped first pos esc ;;
         if ok then Some pos else char_unescaped_loop fuel' first pos last c esc
  end.
(** tm_stringutil.h:895-903. *)
Fixpoint escape_char_loop (fuel pos last : nat) (c : N) : option nat :=
  match fuel with
  | O => None
  | S fuel' =>
    pos <- tmsu_find_char_n pos last c ;;
    if (pos =? last)%nat then Some pos
    else if (S pos =? last)%nat then Some pos
    else x <- nth_error m (S pos) ;; if x =? c then escape_char_loop fuel' (S (S pos)) last c else Some pos
  end.
(** tm_stringutil.h:880-904. *)
Definition tmsu_find_char_unescaped_n (first last : nat) (c esc : N) : option nat :=
  d <- distance first last ;;
  if (first =? last)%nat then Some last
  else if negb (c =? esc) then
    x <- nth_error m first ;; if x =? c then Some first else char_unescaped_loop (S d) first first last c esc
  else escape_char_loop (S d) first last c.

(** tm_stringutil.h:914-929. *)
Fixpoint first_of_unescaped_loop (fuel first pos last f fl : nat) (esc : N) : option nat :=
  match fuel with
  | O => None
  | S fuel' =>
    pos <- tmsu_find_first_of_n pos last f fl ;;
    if (pos =? last)%nat then Some pos
    else
      x <- nth_error m pos ;;
      if x =? esc then
        if (S pos =? last)%nat then Some pos
        else y <- nth_error m (S pos) ;;
             if y =? esc then first_of_unescaped_loop fuel' (S (S pos)) (S (S pos)) last f fl esc else Some pos
      else
        ok <- tmsu_is_char_unescaped first pos esc ;;
        if ok then Some pos else first_of_unescaped_loop fuel' first (S pos) last f fl esc
  end.
(** tm_stringutil.h:905-930. *)
Definition tmsu_find_first_of_unescaped_n (first last f fl : nat) (esc : N) : option nat :=
  d <- distance first last ;; n <- distance f fl ;;
  if (first =? last)%nat then Some last
  else if (f =? fl)%nat then Some first
  else first_of_unescaped_loop (S d) first first last f fl esc.

(** ** Tokenizing *)
(** tm_stringutil.h:973-985: success, token (out), new first. The output pointer is not null. *)
Definition tmsu_next_token_n (first last f fl : nat) : option (bool * (nat * nat) * nat) :=
  _ <- distance first last ;; _ <- distance f fl ;;
  next <- tmsu_find_first_of_n first last f fl ;;
  _ <- distance first next ;;
  let result := negb (next =? last)%nat in
  Some (result, (first, next), if result then S next else next).
(** tm_stringutil.h:987-1001: the token is only stored on success. *)
Definition tmsu_next_token_skip_empty_n (first last f fl : nat) : option (option (nat * nat) * nat) :=
  _ <- distance first last ;; _ <- distance f fl ;;
  first <- tmsu_find_first_not_of_n first last f fl ;;
  if (first =? last)%nat then Some (None, first)
  else
    next <- tmsu_find_first_of_n first last f fl ;;
    _ <- distance first next ;;
    Some (Some (first, next), next).

(** ** Whitespace and words; [ws] and [wl] delimit the whitespace characters in memory (tm_stringutil.h:1048-1049). *)
Definition tmsu_trim_left_n (ws wl first last : nat) : option nat := tmsu_find_first_not_of_n first last ws wl.
(** tm_stringutil.h:1056-1066. *)
Definition tmsu_trim_right_n (ws wl first last : nat) : option nat :=
  r <- tmsu_find_last_not_of_n_ex first last ws wl None ;;
  Some (match r with None => first | Some p => S p end).
(** tm_stringutil.h:1749-1751 with the assertion of tmsu_view_n, 1643-1649. *)
Definition tmsu_trim_n (ws wl first last : nat) : option (nat * nat) :=
  l <- tmsu_trim_left_n ws wl first last ;; r <- tmsu_trim_right_n ws wl first last ;;
  _ <- distance l r ;; Some (l, r).
(** tm_stringutil.h:1020-1024. *)
Definition tmsu_find_word_end_n_ex (ws wl first last f fl : nat) : option nat :=
  first <- tmsu_trim_left_n ws wl first last ;; tmsu_find_first_of_n first last f fl.
(** tm_stringutil.h:1030-1044. *)
Definition tmsu_find_word_start_n_ex (ws wl first last f fl : nat) : option nat :=
  last <- tmsu_trim_right_n ws wl first last ;;
  if (first =? last)%nat then Some first
  else r <- tmsu_find_last_of_n_ex first last f fl None ;;
       Some (match r with Some p => S p | None => first end).

(** ** Null-terminated variants *)
(** tm_stringutil.h:524-530 on memory. *)
Definition tmsu_find_char_z (i : nat) (c : N) : option nat := k <- CodecModel.tmsu_find_char (skipn i m) c ;; Some (i + k)%nat.
(** tm_stringutil.h:531-537. *)
Fixpoint find_char2_list (l : list N) (a b : N) : option nat :=
  match l with
  | [] => None
  | x :: r => if x =? 0 then Some O else if (x =? a) || (x =? b) then Some O else i <- find_char2_list r a b ;; Some (S i)
  end.
Definition tmsu_find_char2 (i : nat) (a b : N) : option nat := k <- find_char2_list (skipn i m) a b ;; Some (i + k)%nat.
(** tm_stringutil.h:539-542. *)
Definition tmsu_find_last_char (i : nat) (c : N) : option nat := n <- strlen i ;; tmsu_find_last_char_n i (i + n)%nat c.
(** tm_stringutil.h:650-666. *)
Fixpoint find_z_loop (fuel pos : nat) (c : N) (f1 n1 : nat) : option nat :=
  match fuel with
  | O => None
  | S fuel' =>
    pos <- tmsu_find_char_z pos c ;;
    x <- nth_error m pos ;;
    if x =? 0 then Some pos
    else
      r <- strncmp (S pos) f1 n1 ;;
      if (r =? 0)%Z then Some pos
      else y <- nth_error m (S pos) ;; if y =? 0 then Some (S pos) else find_z_loop fuel' (S pos) c f1 n1
  end.
Definition tmsu_find (i f : nat) : option nat :=
  x <- nth_error m i ;;
  if x =? 0 then Some i
  else
    c <- nth_error m f ;;
    if c =? 0 then Some i
    else n1 <- strlen (S f) ;; find_z_loop (length m) i c (S f) n1.
(** tm_stringutil.h:668-672. *)
Definition tmsu_find_last (i f : nat) : option nat :=
  n <- strlen i ;; k <- strlen f ;; tmsu_find_last_n i (i + n)%nat f (f + k)%nat.
(** tm_stringutil.h:674-698: TM_STRSPN and TM_STRCSPN are defined by default. *)
Definition tmsu_find_first_not_of (i f : nat) : option nat :=
  fn <- strlen f ;; k <- span_list (skipn i m) f fn true ;; Some (i + k)%nat.
Definition tmsu_find_first_of (i f : nat) : option nat :=
  fn <- strlen f ;; k <- span_list (skipn i m) f fn false ;; Some (i + k)%nat.
(** tm_stringutil.h:700-714: [str + strlen(str) - 1] is before the string when it is empty; the loop never looks at the
    first character. *)
Fixpoint last_z_loop (n i f fn : nat) (cont : bool) : option nat :=
  match n with
  | O => Some i
  | S n' => x <- nth_error m (i + n)%nat ;; q <- memchr f fn x ;;
            if Bool.eqb (is_some q) cont then last_z_loop n' i f fn cont else Some (i + n)%nat
  end.
Definition find_last_z (cont : bool) (i f : nat) : option nat :=
  n <- strlen i ;;
  match n with O => None | S n' => fn <- strlen f ;; last_z_loop n' i f fn cont end.
Definition tmsu_find_last_not_of := find_last_z true.
Definition tmsu_find_last_of := find_last_z false.
(** tm_stringutil.h:770-783. *)
Definition tmsu_find_char_ignore_case_ansi (i : nat) (c : N) : option nat :=
  if to_upper c =? to_lower c then tmsu_find_char_z i c else tmsu_find_char2 i (to_upper c) (to_lower c).
Definition tmsu_find_ignore_case_ansi (i f : nat) : option nat :=
  n <- strlen i ;; k <- strlen f ;; tmsu_find_ignore_case_ansi_n i (i + n)%nat f (f + k)%nat.
(** tm_stringutil.h:1293-1297. *)
Definition tmsu_stristr (i f : nat) : option (option nat) :=
  p <- tmsu_find_ignore_case_ansi i f ;; x <- nth_error m p ;; Some (if x =? 0 then None else Some p).
(** tm_stringutil.h:1212-1224. *)
Definition tmsu_starts_with (i f : nat) : option bool := n <- strlen f ;; r <- strncmp i f n ;; Some (r =? 0)%Z.
Definition tmsu_ends_with (i f : nat) : option bool :=
  n <- strlen i ;; k <- strlen f ;; tmsu_ends_with_n i (i + n)%nat f (f + k)%nat.
(** tm_stringutil.h:1299-1312. *)
Fixpoint stricmp_loop (fuel a b : nat) : option Z :=
  match fuel with
  | O => None
  | S fuel' =>
    x <- nth_error m a ;; y <- nth_error m b ;;
    let diff := (Z.of_N (to_upper x) - Z.of_N (to_upper y))%Z in
    if negb (x =? 0) && negb (y =? 0) && (diff =? 0)%Z then stricmp_loop fuel' (S a) (S b) else Some diff
  end.
Definition tmsu_stricmp (a b : nat) : option Z := stricmp_loop (length m) a b.
(** tm_stringutil.h:1313-1330: [count--] is evaluated only when neither character is the terminator, and wraps from 0 to
    SIZE_MAX when it ends the loop. *)
Fixpoint strnicmp_loop (fuel a b : nat) (count : N) : option Z :=
  match fuel with
  | O => None
  | S fuel' =>
    x <- nth_error m a ;; y <- nth_error m b ;;
    let diff := (Z.of_N (to_upper x) - Z.of_N (to_upper y))%Z in
    let leave (count : N) := Some (if count =? 0 then 0%Z else diff) in
    if negb (x =? 0) && negb (y =? 0) then
      if count =? 0 then leave (W64 - 1)
      else if (diff =? 0)%Z then strnicmp_loop fuel' (S a) (S b) (count - 1)
      else leave (count - 1)
    else leave count
  end.
Definition tmsu_strnicmp (a b : nat) (count : N) : option Z := strnicmp_loop (length m) a b count.
(** tm_stringutil.h:1252-1258. *)
Definition tmsu_starts_with_ignore_case_ansi (i f : nat) : option bool :=
  n <- strlen f ;; r <- tmsu_strnicmp i f (N.of_nat n) ;; Some (r =? 0)%Z.
(** tm_stringutil.h:833-857. *)
Fixpoint char_unescaped_z_loop (fuel first pos : nat) (c esc : N) : option nat :=
  match fuel with
  | O => None
  | S fuel' =>
    pos <- tmsu_find_char_z (S pos) c ;;
    x <- nth_error m pos ;;
    if x =? 0 then Some pos
    else ok <- tmsu_is_char_unescaped first pos esc ;;
         if ok then Some pos else char_unescaped_z_loop fuel' first pos c esc
  end.
Fixpoint escape_char_z_loop (fuel pos : nat) (c : N) : option nat :=
  match fuel with
  | O => None
  | S fuel' =>
    pos <- tmsu_find_char_z pos c ;;
    x <- nth_error m pos ;;
    if x =? 0 then Some pos
    else y <- nth_error m (S pos) ;; if y =? c then escape_char_z_loop fuel' (S (S pos)) c else Some pos
  end.
Definition tmsu_find_char_unescaped (i : nat) (c esc : N) : option nat :=
  if negb (c =? esc) then
    x <- nth_error m i ;; if x =? c then Some i else char_unescaped_z_loop (length m) i i c esc
  else escape_char_z_loop (length m) i c.
(** tm_stringutil.h:858-879. *)
Fixpoint first_of_unescaped_z_loop (fuel first pos f : nat) (esc : N) : option nat :=
  match fuel with
  | O => None
  | S fuel' =>
    pos <- tmsu_find_first_of pos f ;;
    x <- nth_error m pos ;;
    if x =? 0 then Some pos
    else if x =? esc then
      y <- nth_error m (S pos) ;;
      if y =? esc then first_of_unescaped_z_loop fuel' (S (S pos)) (S (S pos)) f esc else Some pos
    else
      ok <- tmsu_is_char_unescaped first pos esc ;;
      if ok then Some pos else first_of_unescaped_z_loop fuel' first (S pos) f esc
  end.
Definition tmsu_find_first_of_unescaped (i f : nat) (esc : N) : option nat :=
  x <- nth_error m f ;; if x =? 0 then Some i else first_of_unescaped_z_loop (length m) i i f esc.
(** tm_stringutil.h:941-971. *)
Definition tmsu_next_token (current d : nat) : option (bool * (nat * nat) * nat) :=
  next <- tmsu_find_first_of current d ;;
  x <- nth_error m next ;;
  let result := negb (x =? 0) in
  Some (result, (current, next), if result then S next else next).
Definition tmsu_next_token_skip_empty (current d : nat) : option (option (nat * nat) * nat) :=
  current <- tmsu_find_first_not_of current d ;;
  x <- nth_error m current ;;
  if x =? 0 then Some (None, current)
  else next <- tmsu_find_first_of current d ;; Some (Some (current, next), next).
(** tm_stringutil.h:1070-1082: TM_STRCMP is strcmp. *)
Fixpoint strcmp_loop (fuel a b : nat) : option Z :=
  match fuel with
  | O => None
  | S fuel' => x <- nth_error m a ;; y <- nth_error m b ;;
               if x =? y then (if x =? 0 then Some 0%Z else strcmp_loop fuel' (S a) (S b)) else Some (Z.of_N x - Z.of_N y)%Z
  end.
Definition tmsu_compare (a b : nat) : option Z := strcmp_loop (length m) a b.
(** tm_stringutil.h:1083-1094 without TM_STRICMP, which is only defined for WIN32: the result is b - a. *)
Definition tmsu_compare_ignore_case_ansi (a b : nat) : option Z := r <- stricmp_loop (length m) a b ;; Some (- r)%Z.

(** tm_stringutil.h:1341-1354. *)
Fixpoint memrchr_loop (p n : nat) (c : N) : option (option nat) :=
  match n with
  | O => Some None
  | S n' => x <- nth_error m (p + n') ;; if x =? c then Some (Some (p + n')%nat) else memrchr_loop p n' c
  end.
Definition tmsu_memrchr (p : nat) (c : N) (len : nat) : option (option nat) :=
  if 255 <? c then None else memrchr_loop p len c.
End Mem.

(** tm_stringutil.h:1331-1340: [i] and [j] move towards each other; [str] is the start index in memory [m]. *)
Fixpoint rev_loop (fuel : nat) (m : list N) (str i j : nat) : option (list N) :=
  match fuel with
  | O => None
  | S fuel' =>
    if (i <? j)%nat then
      x <- nth_error m (str + i) ;; y <- nth_error m (str + j) ;;
      m <- write m (str + i) y ;; m <- write m (str + j) x ;; rev_loop fuel' m str (S i) (j - 1)
    else Some m
  end.
Definition tmsu_strnrev (m : list N) (str count : nat) : option (list N) :=
  if (count =? 0)%nat then Some m else rev_loop count m str 0 (count - 1).
