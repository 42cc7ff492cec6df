(** Specification of the Unicode encoding forms, independent of the model. *)
From Coq Require Import Arith NArith List Bool.
From Verif Require Import Base.
Import ListNotations.
Local Open Scope N_scope.

(** Unicode scalar values: all codepoints except the surrogates. *)
Definition scalar (v : N) : Prop := v < 0xD800 \/ (0xDFFF < v /\ v <= 0x10FFFF).

(** UTF-8 (definition D92, bit distribution of table 3-6): the octets of a scalar value. *)
Inductive utf8_seq : N -> list N -> Prop :=
| U8_1 v : v < 0x80 -> utf8_seq v [v]
| U8_2 v : 0x80 <= v < 0x800 -> utf8_seq v [0xC0 + v / 64; 0x80 + v mod 64]
| U8_3 v : 0x800 <= v < 0x10000 -> scalar v -> utf8_seq v [0xE0 + v / 4096; 0x80 + v / 64 mod 64; 0x80 + v mod 64]
| U8_4 v : 0x10000 <= v <= 0x10FFFF -> utf8_seq v [0xF0 + v / 262144; 0x80 + v / 4096 mod 64; 0x80 + v / 64 mod 64; 0x80 + v mod 64].

(** Table 3-7, well-formed UTF-8 byte sequences. *)
Definition trail_octet (c : N) : Prop := 0x80 <= c <= 0xBF.
Inductive table37 : list N -> Prop :=
| T_00_7F a : a <= 0x7F -> table37 [a]
| T_C2_DF a b : 0xC2 <= a <= 0xDF -> trail_octet b -> table37 [a; b]
| T_E0 b c : 0xA0 <= b <= 0xBF -> trail_octet c -> table37 [0xE0; b; c]
| T_E1_EC a b c : 0xE1 <= a <= 0xEC -> trail_octet b -> trail_octet c -> table37 [a; b; c]
| T_ED b c : 0x80 <= b <= 0x9F -> trail_octet c -> table37 [0xED; b; c]
| T_EE_EF a b c : 0xEE <= a <= 0xEF -> trail_octet b -> trail_octet c -> table37 [a; b; c]
| T_F0 b c d : 0x90 <= b <= 0xBF -> trail_octet c -> trail_octet d -> table37 [0xF0; b; c; d]
| T_F1_F3 a b c d : 0xF1 <= a <= 0xF3 -> trail_octet b -> trail_octet c -> trail_octet d -> table37 [a; b; c; d]
| T_F4 b c d : 0x80 <= b <= 0x8F -> trail_octet c -> trail_octet d -> table37 [0xF4; b; c; d].

(** UTF-16 (definition D91, bit distribution of table 3-5). *)
Inductive utf16_seq : N -> list N -> Prop :=
| U16_1 v : v <= 0xFFFF -> scalar v -> utf16_seq v [v]
| U16_2 v : 0x10000 <= v <= 0x10FFFF -> utf16_seq v [0xD800 + (v - 0x10000) / 1024; 0xDC00 + (v - 0x10000) mod 1024].

(** A text: the concatenation of the sequences of its scalar values. *)
Inductive encodes (seq : N -> list N -> Prop) : list N -> list N -> Prop :=
| E_nil : encodes seq [] []
| E_cons v vs ch us : seq v ch -> encodes seq vs us -> encodes seq (v :: vs) (ch ++ us).
Definition well_formed (seq : N -> list N -> Prop) (us : list N) : Prop := exists vs, encodes seq vs us.

(** [n] is the length of the longest prefix of [s] with property [P]. *)
Definition longest_prefix (P : list N -> Prop) (s : list N) (n : nat) : Prop :=
  (n <= length s)%nat /\ P (firstn n s) /\ forall k, (k <= length s)%nat -> P (firstn k s) -> (k <= n)%nat.

(** No sequence of the encoding starts here. *)
Definition ill_formed_at (seq : N -> list N -> Prop) (s : list N) : Prop := ~ exists v ch rest, seq v ch /\ s = ch ++ rest.

(** The scalar values left when every unit at which no sequence starts is dropped. *)
Inductive kept (seq : N -> list N -> Prop) : list N -> list N -> Prop :=
| K_nil : kept seq [] []
| K_seq v vs ch us : seq v ch -> kept seq us vs -> kept seq (ch ++ us) (v :: vs)
| K_drop c us vs : ill_formed_at seq (c :: us) -> kept seq us vs -> kept seq (c :: us) vs.

(** Likewise with [rep] put in place of each dropped unit; the result is given as code units of the target encoding. *)
Inductive replaced (seq seq' : N -> list N -> Prop) (rep : list N) : list N -> list N -> Prop :=
| R_nil : replaced seq seq' rep [] []
| R_seq v ch us ch' out : seq v ch -> seq' v ch' -> replaced seq seq' rep us out -> replaced seq seq' rep (ch ++ us) (ch' ++ out)
| R_rep c us out : ill_formed_at seq (c :: us) -> replaced seq seq' rep us out -> replaced seq seq' rep (c :: us) (rep ++ out).

(** What the extraction of tm_unicode.h takes for a sequence: the form is given by the first octet alone, the following
    octets may be anything, and only the resulting value is checked. *)
Inductive lenient : N -> list N -> Prop :=
| L_1 a : a < 0x80 -> lenient a [a]
| L_2 a b : 0xC0 <= a < 0xE0 -> lenient (a mod 32 * 64 + b mod 64) [a; b]
| L_3 a b c v : 0xE0 <= a < 0xF0 -> v = a mod 16 * 4096 + b mod 64 * 64 + c mod 64 -> scalar v -> lenient v [a; b; c]
| L_4 a b c d v : 0xF0 <= a < 0xF8 -> v = a mod 8 * 262144 + b mod 64 * 4096 + c mod 64 * 64 + d mod 64 -> scalar v -> lenient v [a; b; c; d].

(** The two-call protocol: what a conversion that produces the units [bs] for a buffer [out] reports (size, error) and
    leaves in the buffer. The size counts the terminator only if the text with its terminator does not fit. *)
Definition delivered (bs : list N) (terminate : bool) (out : list N) (size : nat) (ec : errc) (buf : list N) : Prop :=
  let t := bs ++ (if terminate then [0] else []) in
  if (length t <=? length out)%nat then ec = OK /\ size = length bs /\ buf = t ++ skipn (length t) out
  else ec = ERANGE /\ size = length t /\ length buf = length out.

(** The tokens of a natural ("human") comparison: folded codepoints, and one token per run of decimal digits that lies
    behind all codepoints. [num] gives the token of a run. *)
Definition is_digit (v : N) : Prop := 48 <= v <= 57.
Definition value10 (ds : list N) : N := fold_left (fun a d => a * 10 + (d - 48)) ds 0.
Inductive human_tokens (fold : N -> list N) (num : N -> N) : list N -> list N -> Prop :=
| H_nil : human_tokens fold num [] []
| H_other v vs ts : ~ is_digit v -> human_tokens fold num vs ts -> human_tokens fold num (v :: vs) (fold v ++ ts)
| H_number d ds vs ts : is_digit d -> Forall is_digit ds -> (forall v vs', vs = v :: vs' -> ~ is_digit v) ->
    human_tokens fold num vs ts -> human_tokens fold num (d :: ds ++ vs) (num (value10 (d :: ds)) :: ts).
