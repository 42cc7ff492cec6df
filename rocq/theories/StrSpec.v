(** Specifications for string searching and comparison, on memory [m : list N] with positions. *)
From Coq Require Import Arith NArith ZArith List Bool Sorted.
From Verif Require Import CTypeModel DigitsSpec.
Import ListNotations.
Local Open Scope N_scope.

(** The characters of [first, last). *)
Definition sub (m : list N) (first last : nat) : list N := firstn (last - first) (skipn first m).
(** A range lies in memory. *)
Definition valid (m : list N) (first last : nat) : Prop := (first <= last <= length m)%nat.
(** The null-terminated string [s] starts at [i]. *)
Definition zstring (m : list N) (i : nat) (s : list N) : Prop :=
  ~ In 0 s /\ exists pre post, m = pre ++ s ++ 0 :: post /\ length pre = i.

(** [p] is the first position in [first, last) with property [P], or [last]. *)
Definition is_first (P : nat -> Prop) (first last p : nat) : Prop :=
  ((first <= p < last)%nat /\ P p \/ p = last) /\ forall k, (first <= k < p)%nat -> ~ P k.
(** [r] is the last position in [first, last) with property [P], [None] if there is none. *)
Definition is_last (P : nat -> Prop) (first last : nat) (r : option nat) : Prop :=
  match r with
  | Some p => (first <= p < last)%nat /\ P p /\ forall k, (p < k < last)%nat -> ~ P k
  | None => forall k, (first <= k < last)%nat -> ~ P k
  end.

(** The character at [p] is one of / none of [set]. *)
Definition member (m set : list N) (p : nat) : Prop := exists c, nth_error m p = Some c /\ In c set.
Definition non_member (m set : list N) (p : nat) : Prop := exists c, nth_error m p = Some c /\ ~ In c set.
(** [needle] stands at [p] and ends at [last] or before. *)
Definition occurs (m : list N) (last : nat) (needle : list N) (p : nat) : Prop :=
  (p + length needle <= last)%nat /\ sub m p (p + length needle) = needle.
Definition occurs_ic (m : list N) (last : nat) (needle : list N) (p : nat) : Prop :=
  (p + length needle <= last)%nat /\ map to_upper (sub m p (p + length needle)) = map to_upper needle.

(** Escape aware reading of [first, ...): the positions at which a unit begins; an escape character and the one after it
    form a unit. *)
Inductive unit_at (m : list N) (first : nat) (esc : N) : nat -> Prop :=
| U_start : unit_at m first esc first
| U_plain p c : unit_at m first esc p -> nth_error m p = Some c -> c <> esc -> unit_at m first esc (S p)
| U_pair p : unit_at m first esc p -> nth_error m p = Some esc -> unit_at m first esc (S (S p)).
(** An unescaped occurrence of a character of [set] in a range ending at [last]: it begins a unit, and if it is the escape
    character itself it is not doubled. *)
Definition unescaped (m : list N) (first last : nat) (set : list N) (esc : N) (p : nat) : Prop :=
  unit_at m first esc p /\ exists c, nth_error m p = Some c /\ In c set /\
    (c = esc -> ~ ((S p < last)%nat /\ nth_error m (S p) = Some esc)).

(** Pieces of a text between delimiters, empty pieces included. *)
Inductive pieces (delims : list N) : list N -> list (list N) -> Prop :=
| Pieces_last s : (forall c, In c s -> ~ In c delims) -> pieces delims s [s]
| Pieces_more s d rest ps : (forall c, In c s -> ~ In c delims) -> In d delims -> pieces delims rest ps ->
    pieces delims (s ++ d :: rest) (s :: ps).

(** Lexicographic order. *)
Inductive lex_lt : list N -> list N -> Prop :=
| Lex_nil y b : lex_lt [] (y :: b)
| Lex_head x y a b : x < y -> lex_lt (x :: a) (y :: b)
| Lex_tail x a b : lex_lt a b -> lex_lt (x :: a) (x :: b).

(** The result of a comparison function orders [a] and [b] by [lt]. *)
Definition orders (lt : list N -> list N -> Prop) (a b : list N) (r : Z) : Prop :=
  ((r < 0)%Z <-> lt a b) /\ (r = 0%Z <-> a = b) /\ ((0 < r)%Z <-> lt b a).

(** [sub] text with whitespace removed at the ends. *)
Definition whitespace : list N := [32; 9; 10; 11; 12; 13].

(** Natural order: the sort keys of a text. A character that is no digit counts by its upper case code, a run of digits by
    its value, after all characters. Only texts whose digit runs have no superfluous leading zero and a value that fits
    an int after adding 256 have keys. *)
Inductive human_keys : list N -> list N -> Prop :=
| HK_nil : human_keys [] []
| HK_char c s ks : is_digit c = false -> human_keys s ks -> human_keys (c :: s) (to_upper c :: ks)
| HK_run ds v s ks : Forall (fun c => is_digit c = true) ds -> canonical 10 v (map (fun c => c - 48) ds) -> v + 256 < 2^31 ->
    match s with [] => True | c :: _ => is_digit c = false end -> human_keys s ks -> human_keys (ds ++ s) (v + 256 :: ks).
