(** What formatted printing means, from the documentation of tm_print.h (lines 12-55 and 452-485): a format string is built
    from pieces, and each piece stands for a text. *)
From Coq Require Import Arith NArith ZArith Bool Ascii String List.
From Verif Require Import DigitsSpec PrModel.
Import ListNotations.
Local Open Scope nat_scope.

(** ** Placeholders *)
Inductive flag := Minus | Plus | Space | Zero | Pound.
Inductive specifier := Sx | SX | So | Sb | SB | Sc | Se | SE | Sf | Sg | SG | Sa | SA | Sn.
(** [flags][width][.precision][specifier]; numbers by their decimal digits, no width: no digits *)
Record spec := Spec { sp_flags : list flag; sp_width : list N; sp_precision : option (list N); sp_specifier : option specifier }.
Definition flag_char (x : flag) : N := match x with Minus => 45 | Plus => 43 | Space => 32 | Zero => 48 | Pound => 35 end.
Definition specifier_char (x : specifier) : N :=
  match x with Sx => 120 | SX => 88 | So => 111 | Sb => 98 | SB => 66 | Sc => 99 | Se => 101 | SE => 69 | Sf => 102 | Sg => 103 | SG => 71 | Sa => 97 | SA => 65 | Sn => 110 end.
Definition digits_text (ds : list N) : list N := map (digit_char true) ds.
Definition spec_text (x : spec) : list N :=
  map flag_char (sp_flags x) ++ digits_text (sp_width x)
  ++ (match sp_precision x with Some ds => 46%N :: digits_text ds | None => [] end)
  ++ (match sp_specifier x with Some c => [specifier_char c] | None => [] end).
(** digits; a width does not start with a zero (that would be the flag); the numbers fit an int *)
Definition decimal (ds : list N) : Prop := Forall (fun d => (d < 10)%N) ds.
Definition spec_ok (x : spec) : Prop :=
  decimal (sp_width x) /\ hd 1%N (sp_width x) <> 0%N /\ (number 10 (sp_width x) < 2147483648)%N
  /\ match sp_precision x with Some ds => decimal ds /\ (number 10 ds < 2147483648)%N | None => True end.

Definition flag_eqb (x y : flag) : bool := match x, y with Minus, Minus | Plus, Plus | Space, Space | Zero, Zero | Pound, Pound => true | _, _ => false end.
Definition has (x : flag) (l : list flag) : bool := existsb (flag_eqb x) l.
(** of ' ' and '0' the last one counts; spaces without any *)
Fixpoint padding_flag (l : list flag) (spaces : bool) : bool :=
  match l with [] => spaces | Space :: l => padding_flag l true | Zero :: l => padding_flag l false | _ :: l => padding_flag l spaces end.
Definition one_of (c : option specifier) (l : list specifier) : bool :=
  match c with Some c => existsb (fun x => (specifier_char c =? specifier_char x)%N) l | None => false end.
Definition format_of (x : spec) : format :=
  let c := sp_specifier x in
  let pound := has Pound (sp_flags x) in
  {| f_base := if one_of c [Sx; SX] then 16 else if one_of c [So] then 8 else if one_of c [Sb; SB] then 2 else 10;
     f_precision := match sp_precision x with None | Some [] => 6 | Some ds => Z.of_N (number 10 ds) end;
     f_width := Z.of_N (number 10 (sp_width x));
     f_fixed := one_of c [Sf; Sg; SG]; f_scientific := one_of c [Se; SE; Sg; SG]; f_hex := one_of c [Sa; SA];
     f_shortest := one_of c [Sg; SG]; f_zeroes := one_of c [Sf];
     f_bool_number := one_of c [Sn];
     f_lower := one_of c [Sx; Sb; Se; Sg; Sa];
     f_sign := has Plus (sp_flags x);
     f_char := one_of c [Sc];
     f_left := has Minus (sp_flags x);
     f_pre_hex := pound && one_of c [Sx; SX; Sa; SA];
     f_pre_binary := pound && one_of c [Sb; SB];
     f_pre_octal := pound && one_of c [So];
     f_spaces := padding_flag (sp_flags x) true |}.

(** ** Format strings *)
Inductive piece := Lit (s : list N) | LBrace | RBrace | Hole (index : option (list N)) (x : option spec).
Definition hole_text (index : option (list N)) (x : option spec) : list N :=
  (match index with Some ds => digits_text ds | None => [] end) ++ (match x with Some x => 58%N :: spec_text x | None => [] end).
Definition piece_text (p : piece) : list N :=
  match p with
  | Lit s => s
  | LBrace => [123; 123]%N
  | RBrace => [125; 125]%N
  | Hole index x => 123%N :: hole_text index x ++ [125%N]
  end.
Definition unparse (ps : list piece) : list N := concat (map piece_text ps).
Definition piece_ok (p : piece) : Prop :=
  match p with
  | Lit s => ~ In 123%N s /\ ~ In 125%N s
  | LBrace | RBrace => True
  | Hole index x =>
    match index with Some ds => ds <> [] /\ decimal ds /\ (number 10 ds < 4294967296)%N | None => True end
    /\ match x with Some x => spec_ok x | None => True end
  end.
(** No "}}" between a placeholder and the one (or the "{{") before it: the restriction of the theorems, see DESIGN.md. *)
Fixpoint order_ok (pending : bool) (ps : list piece) : bool :=
  match ps with
  | [] => true
  | Lit _ :: ps => order_ok pending ps
  | LBrace :: ps => order_ok false ps
  | RBrace :: ps => order_ok true ps
  | Hole _ _ :: ps => negb pending && order_ok false ps
  end.

(** ** What a value looks like *)
Definition fill (f : format) (used : nat) : nat := Z.to_nat (f_width f) - used.
Definition decorate (f : format) (negative : bool) (digits : list N) : list N :=
  let sign := if negative then bytes_of "-" else if f_sign f then bytes_of "+" else [] in
  let prefix :=
    if f_pre_hex f then bytes_of (if f_lower f then "0x" else "0X")
    else if f_pre_binary f then bytes_of (if f_lower f then "0b" else "0B")
    else if f_pre_octal f then bytes_of "0" else [] in
  let n := fill f (List.length sign + List.length prefix + List.length digits) in
  if f_left f then sign ++ prefix ++ digits ++ repeat 32%N n
  else if f_spaces f then repeat 32%N n ++ sign ++ prefix ++ digits
  else sign ++ prefix ++ repeat 48%N n ++ digits.
Definition pad (f : format) (s : list N) : list N :=
  let n := fill f (List.length s) in if f_left f then s ++ repeat 32%N n else repeat 32%N n ++ s.
Definition shows_number (f : format) (z : Z) (text : list N) : Prop :=
  exists ds, canonical (f_base f) (Z.to_N (Z.abs z)) ds /\ text = decorate f (z <? 0)%Z (map (digit_char (f_lower f)) ds).
Definition shows (f : format) (v : value) (text : list N) : Prop :=
  match v with
  | V_char c => if f_char f then text = pad f [Z.to_N (c mod 256)] else shows_number f c text
  | V_bool b =>
    text = pad f (bytes_of (
      if f_bool_number f then if b then "1" else "0"
      else if f_lower f then if b then "true" else "false" else if b then "TRUE" else "FALSE")%string)
  | V_i32 z | V_i64 z => shows_number f z text
  | V_u32 n | V_u64 n => shows_number f (Z.of_N n) text
  | V_float neg raw | V_double neg raw => text = decorate f neg (if f_hex f then skipn 2 (raw f) else raw f)
  | V_string s | V_view s => text = pad f s
  end.

(** What a format string with these pieces stands for; [index]: the argument of the next placeholder without an index *)
Inductive renders (initial : format) (args : list value) : nat -> list piece -> list N -> Prop :=
| R_nil index : renders initial args index [] []
| R_lit index s ps text : renders initial args index ps text -> renders initial args index (Lit s :: ps) (s ++ text)
| R_lbrace index ps text : renders initial args index ps text -> renders initial args index (LBrace :: ps) (bytes_of "{" ++ text)
| R_rbrace index ps text : renders initial args index ps text -> renders initial args index (RBrace :: ps) (bytes_of "}" ++ text)
| R_next index x ps v text1 text :
    nth_error args index = Some v ->
    shows (match x with Some x => format_of x | None => initial end) v text1 ->
    renders initial args (S index) ps text ->
    renders initial args index (Hole None x :: ps) (text1 ++ text)
| R_given index ds x ps v text1 text :
    nth_error args (N.to_nat (number 10 ds)) = Some v ->
    shows (match x with Some x => format_of x | None => initial end) v text1 ->
    renders initial args index ps text ->
    renders initial args index (Hole (Some ds) x :: ps) (text1 ++ text).

(** The uses of values by the pieces, for restrictions: argument and format *)
Inductive uses (initial : format) (args : list value) (P : value -> format -> Prop) : nat -> list piece -> Prop :=
| U_nil index : uses initial args P index []
| U_text index p ps : match p with Hole _ _ => False | _ => True end -> uses initial args P index ps -> uses initial args P index (p :: ps)
| U_next index x ps v :
    nth_error args index = Some v -> P v (match x with Some x => format_of x | None => initial end) ->
    uses initial args P (S index) ps -> uses initial args P index (Hole None x :: ps)
| U_given index ds x ps v :
    nth_error args (N.to_nat (number 10 ds)) = Some v -> P v (match x with Some x => format_of x | None => initial end) ->
    uses initial args P index ps -> uses initial args P index (Hole (Some ds) x :: ps).

(** The restrictions. No padding of texts, characters and booleans (refuted in general); a base the backend knows; one
    radix prefix; not the least integer; hexadecimal reals with their prefix. *)
Definition base_ok (f : format) : Prop := f_base f = 8%N \/ f_base f = 10%N \/ f_base f = 16%N.
Definition prefix_ok (f : format) : Prop :=
  (f_pre_hex f = true -> f_pre_binary f = false /\ f_pre_octal f = false) /\ (f_pre_binary f = true -> f_pre_octal f = false).
Definition unpadded (f : format) (n : nat) : Prop := (f_width f <= Z.of_nat n)%Z.
Definition real_ok (f : format) (raw : list N) : Prop :=
  f_hex f = true -> f_pre_hex f = true /\ exists c rest, raw = 48%N :: c :: rest /\ rest <> [] /\ (c = 120%N \/ c = 88%N).
Definition printable (v : value) (f : format) : Prop :=
  match v with
  | V_char c => if f_char f then unpadded f 1 else base_ok f /\ prefix_ok f /\ c <> (-2147483648)%Z
  | V_bool b => unpadded f (if f_bool_number f then 1 else if b then 4 else 5)
  | V_i32 z => base_ok f /\ prefix_ok f /\ z <> (-2147483648)%Z
  | V_i64 z => base_ok f /\ prefix_ok f /\ z <> (-9223372036854775808)%Z
  | V_u32 _ | V_u64 _ => base_ok f /\ prefix_ok f
  | V_float _ raw | V_double _ raw => prefix_ok f /\ real_ok f (raw f)
  | V_string s | V_view s => unpadded f (List.length s)
  end.
(** Numbers that are printed as nothing but their digits *)
Definition bare (f : format) (negative : bool) : Prop :=
  negative = false /\ f_sign f = false /\ f_pre_hex f = false /\ f_pre_binary f = false /\ f_pre_octal f = false /\ (f_width f <= 1)%Z.
Definition plain (v : value) (f : format) : Prop :=
  printable v f
  /\ match v with
     | V_char c => if f_char f then True else bare f (c <? 0)%Z
     | V_i32 z | V_i64 z => bare f (z <? 0)%Z
     | V_u32 _ | V_u64 _ => bare f false
     | V_float neg raw | V_double neg raw => bare f neg /\ raw f <> []
     | _ => True
     end.
(** ... and are short enough for the scratch buffer *)
Definition measurable (v : value) (f : format) : Prop :=
  plain v f
  /\ match v with
     | V_char c => Z.abs c < 2 ^ 64
     | V_i32 z | V_i64 z => Z.abs z < 2 ^ 64
     | V_u32 n | V_u64 n => Z.of_N n < 2 ^ 64
     | V_float _ raw | V_double _ raw => Z.of_nat (List.length (raw f)) < 200
     | _ => True
     end%Z.
