(** Specification of integer texts, of lookups by name and of JSON pointers (RFC 6901),
    independent of the model. *)
From Coq Require Import Arith NArith ZArith List Bool.
Import ListNotations.
From Verif Require Import Base.
From Verif Require JsonSpec.
Import JsonSpec (digit, hexdigit, int_part, tree, Scalar, Str, Obj, Arr).
From Verif Require Import JqModel.
Local Open Scope N_scope.

(** ** Numbers *)

(** The number written with the decimal digits [ds]. *)
Definition dec_value (ds : list N) : N := fold_left (fun a c => a * 10 + (c - 48)) ds 0.
(** The integers of JSON: an optional minus sign and digits without superfluous zeros. *)
Inductive integer_text : list N -> Z -> Prop :=
| I_pos ds : int_part ds -> integer_text ds (Z.of_N (dec_value ds))
| I_neg ds : int_part ds -> integer_text (45 :: ds) (- Z.of_N (dec_value ds)).
Definition fits_s64 (z : Z) : Prop := (- 2 ^ 63 <= z < 2 ^ 63)%Z.
Definition fits_s32 (z : Z) : Prop := (- 2 ^ 31 <= z < 2 ^ 31)%Z.
(** Hexadecimal integers, as JSON_READER_HEXADECIMAL accepts them. *)
Definition hex_value (vs : list N) : N := fold_left (fun a v => a * 16 + v) vs 0.
Definition hex_text (s : list N) (n : N) : Prop :=
  exists x hs vs, s = 48 :: x :: hs /\ (x = 120 \/ x = 88) /\ hs <> []
    /\ Forall2 hexdigit hs vs /\ hex_value vs = n.

(** The letters of [w] (small letters), in either case. *)
Definition ignoring_case (s w : list N) : Prop := Forall2 (fun c l => c = l \/ c + 32 = l) s w.

(** ** Lookups *)

(** What a lookup of [name] gives: the value of a member of that name, or the nil value. *)
Definition found (nodes : list (list N * qv)) (name : list N) (v : qv) : Prop :=
  In (name, v) nodes \/ (~ In name (map fst nodes) /\ v = QContent JsonModel.YNull None).

(** ** Values *)

(** [everywhere P v]: all objects of [v] satisfy P. *)
Fixpoint everywhere (P : nat -> list (list N * qv) -> Prop) (v : qv) : Prop :=
  match v with
  | QContent _ _ => True
  | QObject l ns => P l ns /\ fold_right (fun m Q => everywhere P (snd m) /\ Q) True ns
  | QArray vs => fold_right (fun x Q => everywhere P x /\ Q) True vs
  end.
(** The index of the last access is one of a member (or 0, or one behind the last member). *)
Definition in_range (v : qv) : Prop := everywhere (fun l ns => (l <= length ns)%nat) v.
Definition distinct_names (v : qv) : Prop := everywhere (fun _ ns => NoDup (map fst ns)) v.
Definition starts_with_digit (s : list N) : Prop := exists c t, s = c :: t /\ digit c.
Definition no_digit_names (v : qv) : Prop :=
  everywhere (fun _ ns => Forall (fun n => ~ starts_with_digit n) (map fst ns)) v.

(** ** JSON pointers *)

(** RFC 6901, 3 and 4: the reference token [tok] and its escaped form. *)
Inductive escaped : list N -> list N -> Prop :=
| E_nil : escaped [] []
| E_plain c s t : c <> 47 -> c <> 126 -> escaped s t -> escaped (c :: s) (c :: t)
| E_tilde s t : escaped s t -> escaped (126 :: 48 :: s) (126 :: t)
| E_slash s t : escaped s t -> escaped (126 :: 49 :: s) (47 :: t).
(** json-pointer = *( "/" reference-token ) *)
Inductive pointer_text : list N -> list (list N) -> Prop :=
| PT_nil : pointer_text [] []
| PT_cons raw tok p toks : escaped raw tok -> pointer_text p toks ->
    pointer_text (47 :: raw ++ p) (tok :: toks).
(** RFC 6901, 4: the value a list of tokens refers to.  An array index has no leading zeros. *)
Inductive points : qv -> list (list N) -> qv -> Prop :=
| P_end v : points v [] v
| P_member l ns k v toks w : In (k, v) ns -> points v toks w -> points (QObject l ns) (k :: toks) w
| P_element vs k v toks w : int_part k -> nth_error vs (N.to_nat (dec_value k)) = Some v ->
    points v toks w -> points (QArray vs) (k :: toks) w.
(** A token that starts with a digit is an array index below 2^64. *)
Definition proper_index (k : list N) : Prop :=
  starts_with_digit k -> int_part k /\ dec_value k < 2 ^ 64.

(** RFC 6901, 6 and RFC 3986, 2.1: percent-encoding; [ok] restricts the bytes that are encoded. *)
Inductive percent (ok : N -> Prop) : list N -> list N -> Prop :=
| PC_nil : percent ok [] []
| PC_plain c s t : c <> 37 -> percent ok s t -> percent ok (c :: s) (c :: t)
| PC_encoded x y a b s t : hexdigit x a -> hexdigit y b -> ok (16 * a + b) -> percent ok s t ->
    percent ok (37 :: x :: y :: s) (16 * a + b :: t).
(** Any byte but null; any byte but null, slash, tilde and digits. *)
Definition any_byte (c : N) : Prop := c <> 0.
Definition inert_byte (c : N) : Prop := c <> 0 /\ c <> 47 /\ c <> 126 /\ ~ digit c.

(** No segment is longer than 63 bytes. *)
Definition short_segments (p : list N) : Prop :=
  forall a b c, p = a ++ b ++ c -> ~ In 47 b -> (length b <= 63)%nat.

(** ** The allocator *)

(** Calls that are in order: at most one block, resized and freed while it is live; the flag tells
    whether a block is live. *)
Inductive orderly : bool -> list mem_event -> Prop :=
| O_end : orderly false []
| O_malloc n ok es : (0 < n)%nat -> orderly ok es -> orderly false (EMalloc n ok :: es)
| O_realloc n ok es : (0 < n)%nat -> orderly true es -> orderly true (ERealloc n ok :: es)
| O_free es : orderly false es -> orderly true (EFree :: es).

(** ** Texts *)

(** The value of a JSON text a list of tokens refers to; names mean what they stand for. *)
Inductive tpoints : tree -> list (list N) -> tree -> Prop :=
| T_end t : tpoints t [] t
| T_member ms raw k v toks w : In (raw, v) ms -> JsonSpec.unescape raw k -> tpoints v toks w ->
    tpoints (Obj ms) (k :: toks) w
| T_element vs k v toks w : int_part k -> nth_error vs (N.to_nat (dec_value k)) = Some v ->
    tpoints v toks w -> tpoints (Arr vs) (k :: toks) w.

Fixpoint tree_everywhere (P : list (list N * tree) -> Prop) (t : tree) : Prop :=
  match t with
  | Scalar _ _ | Str _ => True
  | Obj ms => P ms /\ fold_right (fun m Q => tree_everywhere P (snd m) /\ Q) True ms
  | Arr vs => fold_right (fun x Q => tree_everywhere P x /\ Q) True vs
  end.
(** Names of members: distinct, without escape sequences, not beginning with a digit. *)
Definition simple_names (t : tree) : Prop :=
  tree_everywhere (fun ms => NoDup (map fst ms)
    /\ Forall (fun n => ~ In 92 n /\ ~ starts_with_digit n) (map fst ms)) t.
