(** What packing rectangles into a bin means, in terms of unit cells. *)
From Coq Require Import ZArith List Bool.
From Verif Require Import BinPackModel.
Import ListNotations.
Local Open Scope Z_scope.

(** The unit cell with corner (x, y) belongs to the rectangle. *)
Definition covers (r : rect) (x y : Z) : Prop :=
  left r <= x < left r + width r /\ top r <= y < top r + height r.

Definition overlap (a b : rect) : Prop := exists x y, covers a x y /\ covers b x y.

(** No two different entries of the list share a cell. *)
Definition pairwise_disjoint (l : list rect) : Prop :=
  forall i j a b, i <> j -> nth_error l i = Some a -> nth_error l j = Some b -> ~ overlap a b.

Definition within (W H : Z) (r : rect) : Prop :=
  0 <= left r /\ 0 <= top r /\ left r + width r <= W /\ top r + height r <= H.

Definition positive (r : rect) : Prop := 0 < width r /\ 0 < height r.

Definition area (r : rect) : Z := width r * height r.
Definition total_area (l : list rect) : Z := fold_right (fun r acc => area r + acc) 0 l.

(** A placed rectangle has the requested dimensions, possibly turned by 90 degrees. *)
Definition has_dims (w h : Z) (flipped : bool) (r : rect) : Prop :=
  if flipped then width r = h /\ height r = w else width r = w /\ height r = h.

(** [f] has room for a [w] x [h] bin. *)
Definition has_room (w h : Z) (canFlip : bool) (f : rect) : Prop :=
  (w <= width f /\ h <= height f) \/ (canFlip = true /\ h <= width f /\ w <= height f).
