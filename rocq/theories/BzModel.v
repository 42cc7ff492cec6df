(** Model of tm_bezier.h. The arithmetic is a parameter: BzProps.v uses rationals (exact) and IEEE binary32. *)
From Coq Require Import ZArith Bool List.

(** float: operations, conversion of integers, comparison *)
Record field := Field {
  num : Type; add : num -> num -> num; sub : num -> num -> num; mul : num -> num -> num; div : num -> num -> num; opp : num -> num;
  ofZ : Z -> num; leb : num -> num -> bool
}.

Section Bezier.
Variable F : field.
(** tm_bezier.h:76-82, one of the two coordinates *)
Record axis := Axis { pos : num F; d : num F; dd : num F; ddd : num F }.
(** tm_bezier.h:76-82 *)
Record data := Data { h : num F; xs : axis; ys : axis }.
(** tm_bezier.h:104-150, one coordinate; -6 * x1 is a product with a negative constant *)
Definition differences (steps : Z) (p0 p1 p2 p3 : num F) : axis :=
  let p0_3 := mul F p0 (ofZ F 3) in let p1_3 := mul F p1 (ofZ F 3) in let p2_3 := mul F p2 (ofZ F 3) in
  let a := add F (add F (add F (opp F p0) p1_3) (opp F p2_3)) p3 in
  let b := add F (add F p0_3 (mul F (ofZ F (-6)) p1)) p2_3 in
  let c := add F (opp F p0_3) p1_3 in
  let h := div F (ofZ F 1) (ofZ F steps) in
  let h2 := mul F h h in
  let h3 := mul F h2 h in
  let h3_6 := mul F h3 (ofZ F 6) in
  let h2_2 := mul F h2 (ofZ F 2) in
  let ddd := mul F a h3_6 in
  Axis p0 (add F (add F (mul F a h3) (mul F b h2)) (mul F c h)) (add F ddd (mul F b h2_2)) ddd.
(** tm_bezier.h:104-150 *)
Definition compute (steps : Z) (x0 y0 x1 y1 x2 y2 x3 y3 : num F) : data :=
  Data (div F (ofZ F 1) (ofZ F steps)) (differences steps x0 x1 x2 x3) (differences steps y0 y1 y2 y3).

(** the variables of the loops: result, d, dd, ddd; first iteration: tm_bezier.h:161-171, step: 187-193 *)
Definition first (a : axis) : axis := Axis (add F (pos a) (d a)) (d a) (dd a) (ddd a).
Definition step (a : axis) : axis :=
  let d' := add F (d a) (dd a) in Axis (add F (pos a) d') d' (add F (dd a) (ddd a)) (ddd a).
Definition between (last next diff : num F) : num F := add F last (mul F (sub F next last) diff).
(** tm_bezier.h:173-194; [None]: [fuel] is exhausted *)
Fixpoint eval_loop (fuel : nat) (h t current : num F) (x y : axis) : option (num F * num F) :=
  match fuel with
  | O => None
  | S fuel =>
    if leb F t current then
      let diff := div F (sub F current t) h in
      Some (between (sub F (pos x) (d x)) (pos x) diff, between (sub F (pos y) (d y)) (pos y) diff)
    else if leb F (ofZ F 1) current then Some (pos x, pos y)
    else eval_loop fuel h t (add F current h) (step x) (step y)
  end.
(** tm_bezier.h:151-197; the assertion h > 0 (the quotient is not a NaN) *)
Definition evaluate (fuel : nat) (D : data) (t : num F) : option (num F * num F) :=
  if leb F (h D) (ofZ F 0) then None else eval_loop fuel (h D) t (ofZ F 0) (first (xs D)) (first (ys D)).
(** tm_bezier.h:221-240 *)
Fixpoint fromx_loop (fuel : nat) (h x current : num F) (px py : axis) : option (num F) :=
  match fuel with
  | O => None
  | S fuel =>
    if leb F x (pos px) then
      let lastx := sub F (pos px) (d px) in let lasty := sub F (pos py) (d py) in
      Some (between lasty (pos py) (div F (sub F x lastx) (sub F (pos px) lastx)))
    else if leb F (ofZ F 1) current then Some (sub F (pos py) (d py))
    else fromx_loop fuel h x (add F current h) (step px) (step py)
  end.
(** tm_bezier.h:198-243 *)
Definition evaluate_from_x (fuel : nat) (D : data) (x : num F) : option (num F) :=
  if leb F (h D) (ofZ F 0) then None else fromx_loop fuel (h D) x (ofZ F 0) (first (xs D)) (first (ys D)).
End Bezier.
