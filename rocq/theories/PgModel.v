(** Model of tm_polygon.h: triangulation. The arithmetic is a parameter, so that what follows from the control flow
    alone holds for floats; PgFloat.v instantiates it with IEEE binary32. Sizes are lengths of objects in memory ([nat],
    no overflow); tmpo_index is a number below 2^16, conversions to it are written out. [None]: a failed assertion
    or an access outside of an array. *)
From Coq Require Import Arith Bool List.
From Verif Require Import Base.
Import ListNotations.

(** float: operations, comparisons, and the constants of the file *)
Record arith := Arith {
  num : Type; zero : num; one : num;
  add : num -> num -> num; sub : num -> num -> num; mul : num -> num -> num; div : num -> num -> num;
  leb : num -> num -> bool; ltb : num -> num -> bool;
  micro : num; (* 0.000001f *)
  near0 : num; (* 0.00001f *)
  near1 : num; (* 0.99999f *)
  push : num (* 0.0001f *)
}.
Definition index (n : nat) : nat := n mod (2 ^ 16).

Section Geometry.
Variable F : arith.
Definition vec : Type := (num F * num F)%type.
(** tm_polygon.h:279-286; [last]: the vertex before *)
Fixpoint doubled_area (last : vec) (vs : list vec) (sum : num F) : num F :=
  match vs with
  | [] => sum
  | v :: vs => doubled_area v vs (add F sum (sub F (mul F (fst last) (snd v)) (mul F (snd last) (fst v))))
  end.
Definition is_polygon_clockwise (vs : list vec) : bool :=
  leb F (zero F) (doubled_area (List.last vs (zero F, zero F)) vs (zero F)).
(** tm_polygon.h:288-296 *)
Definition is_triangle_clockwise (a b c : vec) : bool :=
  let bx := sub F (fst b) (fst a) in let by_ := sub F (snd b) (snd a) in
  let cx := sub F (fst c) (fst a) in let cy := sub F (snd c) (snd a) in
  leb F (zero F) (sub F (mul F bx cy) (mul F by_ cx)).
(** tm_polygon.h:297-317 *)
Definition point_inside_triangle (a b c v : vec) : bool :=
  let bx := sub F (fst b) (fst a) in let by_ := sub F (snd b) (snd a) in
  let cx := sub F (fst c) (fst a) in let cy := sub F (snd c) (snd a) in
  let vx := sub F (fst v) (fst a) in let vy := sub F (snd v) (snd a) in
  let bc := add F (mul F bx cx) (mul F by_ cy) in
  let vc := add F (mul F vx cx) (mul F vy cy) in
  let vb := add F (mul F vx bx) (mul F vy by_) in
  let cc := add F (mul F cx cx) (mul F cy cy) in
  let bb := add F (mul F bx bx) (mul F by_ by_) in
  let inv := div F (one F) (sub F (mul F bb cc) (mul F bc bc)) in
  let r := mul F (sub F (mul F cc vb) (mul F bc vc)) inv in
  let s := mul F (sub F (mul F bb vc) (mul F bc vb)) inv in
  leb F (zero F) r && leb F (zero F) s && leb F (add F r s) (one F).
(** tm_polygon.h:318-340 *)
Fixpoint none_inside (i a b c : nat) (va vb vc : vec) (vs : list vec) : bool :=
  match vs with
  | [] => true
  | v :: vs => if Nat.eqb i a || Nat.eqb i b || Nat.eqb i c then none_inside (S i) a b c va vb vc vs
               else if point_inside_triangle va vb vc v then false else none_inside (S i) a b c va vb vc vs
  end.
Definition is_triangle_ear (vs : list vec) (cw : bool) (a b c : nat) : option bool :=
  va <- nth_error vs a ;; vb <- nth_error vs b ;; vc <- nth_error vs c ;;
  if negb (Bool.eqb (is_triangle_clockwise va vb vc) cw) then Some false else Some (none_inside 0 a b c va vb vc vs).
End Geometry.

(** ** The loop, for any test of ears *)
Section Loop.
Variable ear : nat -> nat -> nat -> option bool.
Variable cw : bool.
Variable begin : nat.
Variable max_indices : nat.
Record state := State { q : list nat; size : nat; a : nat; b : nat; c : nat; current : nat; iter : nat; out : list nat }.
(** the elements from index [n] to [n] - 1: memmove *)
Definition move_down (l : list nat) (dst count : nat) : option (list nat) :=
  assert_ (Nat.leb (dst + 1 + count) (length l))
  (Some (firstn dst l ++ firstn count (skipn (dst + 1) l) ++ skipn (dst + count) l)).
(** tm_polygon.h:369-420, body of the loop; [inr]: left by break *)
Definition body (s : state) : option (state + state) :=
  qa <- nth_error (q s) (a s) ;; qb <- nth_error (q s) (b s) ;; qc <- nth_error (q s) (c s) ;;
  e <- ear qa qb qc ;;
  if e then
    assert_ (Nat.leb (length (out s) + 3) max_indices)
    (let o := if cw then out s ++ [index (qa + begin); index (qb + begin); index (qc + begin)]
              else out s ++ [index (qa + begin); index (qc + begin); index (qb + begin)] in
     let sz := size s - 1 in
     q' <- move_down (q s) (b s) (sz - b s) ;;
     let cur := if Nat.leb sz (a s) then a s - sz else a s in
     let a' := if Nat.leb 2 cur then cur - 2 else sz - (2 - cur) in
     let b' := if Nat.leb 2 cur then cur - 1 else if Nat.leb 1 cur then cur - 1 else sz - (1 - cur) in
     Some (inl (State q' sz a' b' cur cur 0 o)))
  else
    let cur := current s + 1 in
    let s' := if Nat.leb (size s) cur then State (q s) (size s) (size s - 2) (size s - 1) 0 0 (iter s) (out s)
              else State (q s) (size s) (b s) (current s) cur cur (iter s) (out s) in
    if Nat.ltb (2 * size s) (iter s) then Some (inr s')
    else Some (inl (State (q s') (size s') (a s') (b s') (c s') (current s') (iter s + 1) (out s'))).
(** [None] also when [fuel] is exhausted *)
Fixpoint loop (fuel : nat) (s : state) : option state :=
  match fuel with
  | O => None
  | S fuel => if Nat.ltb 2 (size s) then r <- body s ;; match r with inl s' => loop fuel s' | inr s' => Some s' end
              else Some s
  end.
(** tm_polygon.h:342-424; the indices written to [out] (TMPO_CLOCKWISE_TRIANGLES = 1). [queries]: the memory at queryList. *)
Definition triangulate (count : nat) (queries : list nat) : option (list nat) :=
  assert_ (Nat.leb count (length queries) && negb (Nat.eqb max_indices 0))
  (if Nat.ltb count 3 then Some []
   else s <- loop (count * (2 * count + 4)) (State (map index (seq 0 count) ++ skipn count queries) count 0 1 2 2 0 []) ;; Some (out s)).
End Loop.
Definition triangulate_polygon_ear_clipping (F : arith) (vs : list (vec F)) (cw : bool) (queries : list nat) (begin max_indices : nat) : option (list nat) :=
  triangulate (is_triangle_ear F vs cw) cw begin max_indices (length vs) queries.
