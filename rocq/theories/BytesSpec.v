(** Specification of byte serialisations of texts, independent of the model. *)
From Coq Require Import Arith NArith List Bool.
From Verif Require Import Base UniSpec.
Import ListNotations.
Local Open Scope N_scope.

(** The bytes of a code unit, most or least significant first. *)
Definition be16 (u : N) : list N := [u / 256; u mod 256].
Definition le16 (u : N) : list N := [u mod 256; u / 256].
Definition be32 (u : N) : list N := [u / 16777216; u / 65536 mod 256; u / 256 mod 256; u mod 256].
Definition le32 (u : N) : list N := [u mod 256; u / 256 mod 256; u / 65536 mod 256; u / 16777216].

(** UTF-32: the unit is the scalar value. *)
Inductive utf32_seq : N -> list N -> Prop := U32 v : scalar v -> utf32_seq v [v].

(** The UTF-8 text of a list of code values in which everything that is not a scalar value is replaced by [rep]. *)
Inductive rendered (rep : list N) : list N -> list N -> Prop :=
| R8_nil : rendered rep [] []
| R8_good v ch vs out : utf8_seq v ch -> rendered rep vs out -> rendered rep (v :: vs) (ch ++ out)
| R8_bad v vs out : ~ scalar v -> rendered rep vs out -> rendered rep (v :: vs) (rep ++ out).

Definition lead_surrogate (c : N) : Prop := 0xD800 <= c <= 0xDBFF.
Definition trail_surrogate (c : N) : Prop := 0xDC00 <= c <= 0xDFFF.
(** How tm_unicode.h cuts UTF-16 from bytes into code values: a lead surrogate always takes the next unit with it. *)
Inductive values16 : list N -> list N -> Prop :=
| V16_nil : values16 [] []
| V16_seq v ch us vs : utf16_seq v ch -> values16 us vs -> values16 (ch ++ us) (v :: vs)
| V16_trail c us vs : trail_surrogate c -> values16 us vs -> values16 (c :: us) (c :: vs)
| V16_lead c d us vs : lead_surrogate c -> ~ trail_surrogate d -> values16 us vs -> values16 (c :: d :: us) (c :: vs)
| V16_end c : lead_surrogate c -> values16 [c] [c].
(** No lead surrogate is followed by a unit that is not a trail surrogate. *)
Definition no_cut_pair (us : list N) : Prop := forall p c d r, us = p ++ c :: d :: r -> lead_surrogate c -> trail_surrogate d.

(** The encoding forms with a byte order. *)
Inductive form := F8 | F16be | F16le | F32be | F32le.
Definition put (f : form) : N -> list N := match f with F8 => fun u => [u] | F16be => be16 | F16le => le16 | F32be => be32 | F32le => le32 end.
Definition seq_of (f : form) : N -> list N -> Prop := match f with F8 => utf8_seq | F16be | F16le => utf16_seq | F32be | F32le => utf32_seq end.
Definition unit_bound (f : form) : N := match f with F8 => 256 | F16be | F16le => 65536 | F32be | F32le => 4294967296 end.
Definition width (f : form) : nat := match f with F8 => 1 | F16be | F16le => 2 | F32be | F32le => 4 end.
Definition serialise (f : form) (us : list N) : list N := flat_map (put f) us.
(** The byte order mark: U+FEFF in the form. *)
Definition mark (f : form) : list N := match f with F8 => [0xEF; 0xBB; 0xBF] | _ => put f 0xFEFF end.
(** The bytes of the text with the scalar values [vs]. *)
Definition text (f : form) (vs bytes : list N) : Prop := exists us, encodes (seq_of f) vs us /\ bytes = serialise f us.
