(** Specification of JSON texts (RFC 8259) and of the extensions of the reader that concern commas,
    colons and numbers, independent of the model.  Texts are lists of bytes. *)
From Coq Require Import Arith NArith List Bool.
From Verif Require Import Base UniSpec.
From Verif Require JsonModel.
Import ListNotations.
Import JsonModel (vtype, YNull, YString, YInt, YUInt, YBool, YFloat).
Local Open Scope N_scope.

(** The extensions a reader may be asked for: a trailing comma, '=' for ':', a plus sign in front of
    a number, hexadecimal integers. *)
Record dialect := Dialect { d_trailing : bool; d_equal : bool; d_plus : bool; d_hex : bool }.
Definition rfc8259 : dialect := Dialect false false false false.

(** Insignificant whitespace: space, tab, line feed, carriage return. *)
Definition wsp (c : N) : Prop := c = 32 \/ c = 9 \/ c = 10 \/ c = 13.
Definition ws (s : list N) : Prop := Forall wsp s.

(** ** Numbers *)
Definition digit (c : N) : Prop := 48 <= c <= 57.
Inductive hexdigit : N -> N -> Prop :=
| H_dec c : 48 <= c <= 57 -> hexdigit c (c - 48)
| H_upper c : 65 <= c <= 70 -> hexdigit c (c - 65 + 10)
| H_lower c : 97 <= c <= 102 -> hexdigit c (c - 97 + 10).

Definition digits (s : list N) : Prop := s <> [] /\ Forall digit s.

(** int = zero / ( digit1-9 *DIGIT ) *)
Definition int_part (s : list N) : Prop := s = [48] \/ (digits s /\ hd 48 s <> 48).
(** frac = decimal-point 1*DIGIT *)
Definition frac_part (s : list N) : Prop := exists ds, s = 46 :: ds /\ digits ds.
(** exp = e [ minus / plus ] 1*DIGIT *)
Definition exp_part (s : list N) : Prop :=
  exists e sg ds, s = e :: sg ++ ds /\ (e = 101 \/ e = 69)
    /\ (sg = [] \/ sg = [43] \/ sg = [45]) /\ digits ds.

(** Unsigned numbers, and whether they are written as an integer. *)
Inductive magnitude (d : dialect) : list N -> bool -> Prop :=
| M_int i : int_part i -> magnitude d i true
| M_frac i f : int_part i -> frac_part f -> magnitude d (i ++ f) false
| M_exp i e : int_part i -> exp_part e -> magnitude d (i ++ e) false
| M_frac_exp i f e : int_part i -> frac_part f -> exp_part e -> magnitude d (i ++ f ++ e) false
| M_hex x hs : d_hex d = true -> x = 120 \/ x = 88 -> hs <> [] ->
    Forall (fun c => exists v, hexdigit c v) hs -> magnitude d (48 :: x :: hs) true.

(** A number, the text reported for it (a plus sign is left out) and its type. *)
Inductive number (d : dialect) : list N -> list N -> vtype -> Prop :=
| N_pos m i : magnitude d m i -> number d m m (if i then YUInt else YFloat)
| N_neg m i : magnitude d m i -> number d (45 :: m) (45 :: m) (if i then YInt else YFloat)
| N_plus m i : d_plus d = true -> magnitude d m i ->
    number d (43 :: m) m (if i then YUInt else YFloat).

(** ** Strings *)
Inductive simple_escape : N -> N -> Prop :=
| SE_quote : simple_escape 34 34
| SE_backslash : simple_escape 92 92
| SE_slash : simple_escape 47 47
| SE_b : simple_escape 98 8
| SE_f : simple_escape 102 12
| SE_n : simple_escape 110 10
| SE_r : simple_escape 114 13
| SE_t : simple_escape 116 9.

(** The escape sequences \uXXXX of UTF-16 code units. *)
Inductive u_escapes : list N -> list N -> Prop :=
| UE_nil : u_escapes [] []
| UE_cons a b c d a' b' c' d' us s :
    hexdigit a a' -> hexdigit b b' -> hexdigit c c' -> hexdigit d d' -> u_escapes us s ->
    u_escapes (a' * 4096 + b' * 256 + c' * 16 + d' :: us) (92 :: 117 :: a :: b :: c :: d :: s).

(** The text between the quotation marks of a string, and the bytes it stands for: escapes denote
    one character, surrogates only occur in pairs, all other bytes stand for themselves. *)
Inductive unescape : list N -> list N -> Prop :=
| J_nil : unescape [] []
| J_plain c s o : 32 <= c -> c <> 34 -> c <> 92 -> unescape s o -> unescape (c :: s) (c :: o)
| J_escape e x s o : simple_escape e x -> unescape s o -> unescape (92 :: e :: s) (x :: o)
| J_unicode v us t bs s o : utf16_seq v us -> u_escapes us t -> utf8_seq v bs -> unescape s o ->
    unescape (t ++ s) (bs ++ o).

(** ** Values *)
Inductive tree :=
| Scalar (t : vtype) (text : list N)
| Str (raw : list N)
| Obj (members : list (list N * tree))
| Arr (values : list tree).

Definition quoted (raw : list N) : list N := 34 :: raw ++ [34].
Definition colon (d : dialect) (x : N) : Prop := x = 58 \/ (d_equal d = true /\ x = 61).

(** [value d s t]: the text [s], without whitespace around it, is the value [t].
    [member]: a member of an object, with whitespace in front of it.  [object_tail],
    [array_tail]: what follows a member or an element, up to and including the closing bracket. *)
Inductive value (d : dialect) : list N -> tree -> Prop :=
| V_true : value d [116; 114; 117; 101] (Scalar YBool [116; 114; 117; 101])
| V_false : value d [102; 97; 108; 115; 101] (Scalar YBool [102; 97; 108; 115; 101])
| V_null : value d [110; 117; 108; 108] (Scalar YNull [110; 117; 108; 108])
| V_number s t ty : number d s t ty -> value d s (Scalar ty t)
| V_string raw o : unescape raw o -> value d (quoted raw) (Str raw)
| V_object_empty w : ws w -> value d (123 :: w ++ [125]) (Obj [])
| V_object s m u ms : member d s m -> object_tail d u ms -> value d (123 :: s ++ u) (Obj (m :: ms))
| V_array_empty w : ws w -> value d (91 :: w ++ [93]) (Arr [])
| V_array w s v u vs : ws w -> value d s v -> array_tail d u vs ->
    value d (91 :: w ++ s ++ u) (Arr (v :: vs))
with member (d : dialect) : list N -> list N * tree -> Prop :=
| Member w1 raw o w2 x w3 s v : ws w1 -> unescape raw o -> ws w2 -> colon d x -> ws w3 ->
    value d s v -> member d (w1 ++ quoted raw ++ w2 ++ x :: w3 ++ s) (raw, v)
with object_tail (d : dialect) : list N -> list (list N * tree) -> Prop :=
| OT_end w : ws w -> object_tail d (w ++ [125]) []
| OT_trailing w w' : d_trailing d = true -> ws w -> ws w' -> object_tail d (w ++ 44 :: w' ++ [125]) []
| OT_next w s m u ms : ws w -> member d s m -> object_tail d u ms ->
    object_tail d (w ++ 44 :: s ++ u) (m :: ms)
with array_tail (d : dialect) : list N -> list tree -> Prop :=
| AT_end w : ws w -> array_tail d (w ++ [93]) []
| AT_trailing w w' : d_trailing d = true -> ws w -> ws w' -> array_tail d (w ++ 44 :: w' ++ [93]) []
| AT_next w w' s v u vs : ws w -> ws w' -> value d s v -> array_tail d u vs ->
    array_tail d (w ++ 44 :: w' ++ s ++ u) (v :: vs).

Scheme value_mut := Induction for value Sort Prop
  with member_mut := Induction for member Sort Prop
  with object_tail_mut := Induction for object_tail Sort Prop
  with array_tail_mut := Induction for array_tail Sort Prop.
Combined Scheme value_mutind from value_mut, member_mut, object_tail_mut, array_tail_mut.

(** JSON-text = ws value ws *)
Definition json_text (d : dialect) (s : list N) (t : tree) : Prop :=
  exists w v w', s = w ++ v ++ w' /\ ws w /\ ws w' /\ value d v t.

(** ** What a document stores *)

(** The bytes stored for a string.  They are those of [unescape], except that a two-character
    escape sequence at the very end of the string is stored as its letter. *)
Inductive stored : list N -> list N -> Prop :=
| S_nil : stored [] []
| S_plain c s o : 32 <= c -> c <> 34 -> c <> 92 -> stored s o -> stored (c :: s) (c :: o)
| S_escape e x s o : simple_escape e x -> s <> [] -> stored s o -> stored (92 :: e :: s) (x :: o)
| S_escape_last e x : simple_escape e x -> stored [92; e] [e]
| S_unicode v us t bs s o : utf16_seq v us -> u_escapes us t -> utf8_seq v bs -> stored s o ->
    stored (t ++ s) (bs ++ o).

(** The value of a document that represents a tree; [str] relates the text of a string and the
    bytes stored for it. *)
Inductive repr (str : list N -> list N -> Prop) : tree -> JsonModel.jv -> Prop :=
| R_scalar ty s : repr str (Scalar ty s) (JsonModel.VScalar ty s)
| R_string raw o : str raw o -> repr str (Str raw) (JsonModel.VString o)
| R_object ms ns : Forall2 (fun m n => fst m = fst n /\ repr str (snd m) (snd n)) ms ns ->
    repr str (Obj ms) (JsonModel.VObject (length ms) ns)
| R_array vs ns : Forall2 (repr str) vs ns -> repr str (Arr vs) (JsonModel.VArray (length vs) ns).

(** The text ends in the middle of an exponent: the digits are missing. *)
Definition open_exponent (s : list N) : Prop :=
  exists p d e sg, s = p ++ d :: e :: sg /\ digit d /\ (e = 101 \/ e = 69)
    /\ (sg = [] \/ sg = [43] \/ sg = [45]).

(** The dialect selected by the flags; the other flags the reader knows must not be set. *)
Definition plain_flags (fl : N) : Prop :=
  N.testbit fl 0 = false /\ N.testbit fl 5 = false /\ N.testbit fl 8 = false
  /\ N.testbit fl 16 = false.
Definition dialect_of (fl : N) : dialect :=
  Dialect (N.testbit fl 3) (N.testbit fl 13) (N.testbit fl 14) (N.testbit fl 7).

(** The bytes of the pool of a document that a tree takes at most. *)
Fixpoint cost (t : tree) : N :=
  match t with
  | Scalar _ _ => 0
  | Str raw => 2 * N.of_nat (length raw)
  | Obj ms => 7 + 48 * N.of_nat (length ms) + fold_right (fun m k => cost (snd m) + k) 0 ms
  | Arr vs => 7 + 32 * N.of_nat (length vs) + fold_right (fun v k => cost v + k) 0 vs
  end.

(** A number at the root is followed by whitespace if it is an integer. *)
Definition integer_ended (buf : list N) (t : tree) : Prop :=
  match t with
  | Scalar YInt _ | Scalar YUInt _ => exists p c, buf = p ++ [c] /\ wsp c
  | _ => True
  end.

(** ** Token streams *)

(** An event of a token stream: the kind of the token, and for names and values the type and the text. *)
Definition event : Type := JsonModel.tok * option (vtype * list N).

Fixpoint events (t : tree) : list event :=
  match t with
  | Scalar ty s => [(JsonModel.TValue, Some (ty, s))]
  | Str raw => [(JsonModel.TValue, Some (YString, raw))]
  | Obj ms => (JsonModel.TObjectStart, None)
      :: flat_map (fun m => (JsonModel.TPropertyName, Some (YString, fst m)) :: events (snd m)) ms
      ++ [(JsonModel.TObjectEnd, None)]
  | Arr vs => (JsonModel.TArrayStart, None) :: flat_map events vs ++ [(JsonModel.TArrayEnd, None)]
  end.

(** How deep objects and arrays are nested. *)
Fixpoint depth (t : tree) : nat :=
  match t with
  | Scalar _ _ | Str _ => 0
  | Obj ms => S (fold_right (fun m k => Nat.max (depth (snd m)) k) 0%nat ms)
  | Arr vs => S (fold_right (fun v k => Nat.max (depth v) k) 0%nat vs)
  end.
