(** Model of the grapheme break state machine of tools/unicode_gen/src/main.cpp (2067-2170) and of the table that is written from
    it, generate.cpp 451-478. A read outside of the table or a failed assertion is [None].
    Simplification: a text is a list of code points; the property of a code point is any function ([get_grapheme_break_property],
    2139-2147, is [lookup] below). *)
From Coq Require Import ZArith NArith List Bool Arith.
From Verif Require Import UgModel.
Import ListNotations.
Local Open Scope Z_scope.

(** main.cpp 318-337: the values as indices; 15 is the additional state grapheme_break_extended_pictographic_zwj. *)
Definition num (g : grapheme) : nat := Z.to_nat (grapheme_num g).
Definition pictographic_zwj : nat := 15.

(** uint8_t grapheme_break_transitions[16][16], main.cpp 2067-2070 *)
Definition transitions := nat -> nat -> Z.
Definition assign (t : transitions) (from to : nat) (v : Z) : transitions :=
  fun f g => if ((f =? from) && (g =? to))%nat then v else t f g.
(** t[from][to] |= grapheme_no_break *)
Definition forbid (t : transitions) (from to : nat) : transitions := assign t from to (Z.lor (t from to) 128).
Definition forbid_all (t : transitions) (l : list (grapheme * grapheme)) : transitions :=
  fold_left (fun t p => forbid t (num (fst p)) (num (snd p))) l t.
(** 2084-2088: the loop from grapheme_break_prepend to grapheme_break_extended_pictographic *)
Definition forbid_marks (t : transitions) : transitions :=
  fold_left (fun t from => forbid (forbid (forbid t from (num GExtend)) from (num GSpacing)) from (num GZwj))
    (seq (num GPrepend) (num GPictographic - num GPrepend + 1)) t.
(** init_grapheme_break_transitions, main.cpp 2071-2137 *)
Definition init : transitions :=
  let t := fun _ to => Z.of_nat to in
  let t := forbid_all t [(GOther, GExtend); (GOther, GSpacing); (GOther, GZwj)] in
  let t := forbid_marks t in
  let t := forbid_all t [(GCr, GLf)] in
  let t := assign t (num GRegional) (num GRegional) (Z.lor 128 (grapheme_num GOther)) in
  let t := forbid_all t
    [(GPrepend, GOther); (GPrepend, GRegional); (GPrepend, GPrepend); (GPrepend, GL); (GPrepend, GV); (GPrepend, GT);
     (GPrepend, GLV); (GPrepend, GLVT); (GPrepend, GPictographic);
     (GL, GL); (GL, GV); (GL, GLV); (GL, GLVT); (GV, GV); (GV, GT); (GT, GT); (GLV, GV); (GLV, GT); (GLVT, GT)] in
  let t := assign t (num GPictographic) (num GExtend) (Z.lor 128 (grapheme_num GPictographic)) in
  let t := assign t (num GPictographic) (num GZwj) (Z.lor 128 (Z.of_nat pictographic_zwj)) in
  assign t pictographic_zwj (num GPictographic) (Z.lor 128 (grapheme_num GPictographic)).
(** generate.cpp 470-477: the table that is written, row by row *)
Definition written : list Z := flat_map (fun from => map (init from) (seq 0 16)) (seq 0 16).
(** tmu_grapheme_break_transitions, tm_unicode.h 3273-3290 *)
Definition shipped : list Z :=
  [  0;  1;  2;  3;  4;133;  6;135;  8;  9; 10; 11; 12;141; 14; 15;
     0;  1;130;  3;  4;  5;  6;  7;  8;  9; 10; 11; 12; 13; 14; 15;
     0;  1;  2;  3;  4;  5;  6;  7;  8;  9; 10; 11; 12; 13; 14; 15;
     0;  1;  2;  3;  4;  5;  6;  7;  8;  9; 10; 11; 12; 13; 14; 15;
   128;  1;  2;  3;132;133;134;135;136;137;138;139;140;141;142; 15;
     0;  1;  2;  3;  4;133;  6;135;  8;  9; 10; 11; 12;141; 14; 15;
     0;  1;  2;  3;  4;133;128;135;  8;  9; 10; 11; 12;141; 14; 15;
     0;  1;  2;  3;  4;133;  6;135;  8;  9; 10; 11; 12;141; 14; 15;
     0;  1;  2;  3;  4;133;  6;135;136;137; 10;139;140;141; 14; 15;
     0;  1;  2;  3;  4;133;  6;135;  8;137;138; 11; 12;141; 14; 15;
     0;  1;  2;  3;  4;133;  6;135;  8;  9;138; 11; 12;141; 14; 15;
     0;  1;  2;  3;  4;133;  6;135;  8;137;138; 11; 12;141; 14; 15;
     0;  1;  2;  3;  4;133;  6;135;  8;  9;138; 11; 12;141; 14; 15;
     0;  1;  2;  3;  4;133;  6;135;  8;  9; 10; 11; 12;141; 14; 15;
     0;  1;  2;  3;  4;142;  6;135;  8;  9; 10; 11; 12;143; 14; 15;
     0;  1;  2;  3;  4;  5;  6;  7;  8;  9; 10; 11; 12; 13;142; 15].

(** grapheme_break_transitions[from][to] *)
Definition transition (from to : nat) : option Z := if ((from <? 16) && (to <? 16))%nat then Some (init from to) else None.
(** to_next_grapheme_break, main.cpp 2149-2170: the loop; the result is how many more code points belong to the cluster. *)
Fixpoint more (prop : N -> grapheme) (state : nat) (rest : list N) : option nat :=
  match rest with
  | [] => Some 0%nat
  | c :: r =>
      let! t := transition state (num (prop c)) in
      if Z.land t 128 =? 0 then Some 0%nat
      else let! k := more prop (Z.to_nat (Z.land t 127)) r in Some (S k)
  end.
Definition to_next_grapheme_break (prop : N -> grapheme) (current : nat) (cps : list N) : option nat :=
  let! _ := guard (current <=? List.length cps)%nat in
  match skipn current cps with
  | [] => Some (List.length cps)
  | [_] => Some (List.length cps)
  | c :: r => let! k := more prop (num (prop c)) r in Some (current + 1 + k)%nat
  end.

(** get_grapheme_break_property, main.cpp 2139-2147, on the tables behind pruning. There a cell is never negative. *)
Definition lookup (B : nat) (u : ucd) (t : tables) (cp : N) : option Z :=
  let i := N.to_nat (cp / N.of_nat B) in
  let j := N.to_nat (cp mod N.of_nat B) in
  match nth_error (t_one t) i with
  | None => Some (grapheme_num GOther)
  | Some b =>
      let! blk := nth_error (t_two t) b in
      let! k := nth_error (pl_block blk) j in
      let! e := nth_error (r_entries u) k in
      Some (e_gb e)
  end.
(** generate_tables (main.cpp 1893-2001), then a lookup as test_grapheme_break does (2172) *)
Definition property_of (B P : nat) (fl : flags) (ds : list udata) (cp : N) : option Z :=
  let! u := add_all B fl (ucd_init B) ds in
  let! t := prune P fl (r_staged u) in
  lookup B u t cp.
