(** Base64 after RFC 4648: the bits of the input, most significant first, are cut into groups of six, the last group
    is filled with zeros, every group is written as a letter of the alphabet, and the padded form is filled with '=' to
    a multiple of four characters. Percent encoding after RFC 3986. *)
From Coq Require Import Arith NArith String List Bool Ascii.
Import ListNotations.
Local Open Scope N_scope.

Definition codes (s : string) : list N := map N_of_ascii (list_ascii_of_string s).
Definition rfc_alphabet : list N := codes "ABCDEFGHIJKLMNOPQRSTUVWXYZabcdefghijklmnopqrstuvwxyz0123456789+/".
Definition rfc_url_alphabet : list N := codes "ABCDEFGHIJKLMNOPQRSTUVWXYZabcdefghijklmnopqrstuvwxyz0123456789-_".

(** The [k] low bits of [n], most significant first. *)
Fixpoint bits (k : nat) (n : N) : list bool :=
  match k with O => [] | S k' => N.testbit n (N.of_nat k') :: bits k' n end.

(** [xs] are the six bit groups of [bytes]. *)
Definition sextets (bytes xs : list N) : Prop :=
  Forall (fun x => x < 64) xs /\
  exists zeros, (length zeros < 6)%nat /\ Forall (fun b => b = false) zeros /\
    flat_map (bits 6) xs = flat_map (bits 8) bytes ++ zeros.

(** Unpadded text. *)
Definition url_text (bytes text : list N) : Prop :=
  exists xs, sextets bytes xs /\ text = map (fun x => nth (N.to_nat x) rfc_url_alphabet 0) xs.
(** Padded text. *)
Definition padded_text (bytes text : list N) : Prop :=
  exists xs p, sextets bytes xs /\ (p < 4)%nat /\
    text = map (fun x => nth (N.to_nat x) rfc_alphabet 0) xs ++ repeat 61 p /\ (length text mod 4 = 0)%nat.

Definition byte (b : N) : Prop := b < 256.

(** Percent encoding: unreserved characters stand for themselves, %HH with hexadecimal digits for any byte. *)
Definition hex_upper : list N := codes "0123456789ABCDEF".
Definition hex_lower : list N := codes "0123456789abcdef".
Definition hex_of (c v : N) : Prop := nth_error hex_upper (N.to_nat v) = Some c \/ nth_error hex_lower (N.to_nat v) = Some c.
Definition unreserved : list N := codes "ABCDEFGHIJKLMNOPQRSTUVWXYZabcdefghijklmnopqrstuvwxyz0123456789-_.".
Inductive percent_text : list N -> list N -> Prop :=
| P_nil : percent_text [] []
| P_plain c bytes text : In c unreserved -> percent_text bytes text -> percent_text (c :: bytes) (c :: text)
| P_hex h l hc lc bytes text : hex_of hc h -> hex_of lc l -> percent_text bytes text ->
    percent_text (16 * h + l :: bytes) (37 :: hc :: lc :: text).

(** [bytes] are the whole bytes carried by the six bit groups [xs]: fewer than eight bits are left over. *)
Definition carries (xs bytes : list N) : Prop :=
  Forall byte bytes /\
  exists rest, (length rest < 8)%nat /\ flat_map (bits 6) xs = flat_map (bits 8) bytes ++ rest.

(** Grammar of padded base64: groups of four characters, letters of the alphabet followed by at most two '='. *)
Definition padded_grammar (text xs : list N) : Prop :=
  exists p, (p <= 2)%nat /\ Forall (fun x => x < 64) xs /\
    text = map (fun x => nth (N.to_nat x) rfc_alphabet 0) xs ++ repeat 61 p /\ (length text mod 4 = 0)%nat.
(** Grammar of unpadded base64url: letters of the alphabet, never one letter alone in the last group. *)
Definition url_grammar (text xs : list N) : Prop :=
  Forall (fun x => x < 64) xs /\ text = map (fun x => nth (N.to_nat x) rfc_url_alphabet 0) xs /\ (length text mod 4 <> 1)%nat.
(** Malformed texts which are nevertheless accepted: a letter after the first '=', a single letter in the last group. *)
Definition padded_quirk (text xs : list N) : Prop :=
  exists d, In d rfc_alphabet /\ Forall (fun x => x < 64) xs /\
    text = map (fun x => nth (N.to_nat x) rfc_alphabet 0) xs ++ [61; d] /\ (length text mod 4 = 0)%nat.
Definition url_quirk (text xs : list N) : Prop :=
  Forall (fun x => x < 64) xs /\ text = map (fun x => nth (N.to_nat x) rfc_url_alphabet 0) xs /\ (length text mod 4 = 1)%nat.
