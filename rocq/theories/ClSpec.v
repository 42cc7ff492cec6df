(** What clipping works on, without the algorithm: polygons subdivided at crossings. *)
From Coq Require Import Arith Bool List.
From Verif Require Import PgModel ClModel.
Import ListNotations.

Section Spec.
Variable F : arith.
(** The vertices of a polygon with [n] corners in the order of its outline: after corner i come the crossings on the edge that starts there. *)
Definition order (n : nat) (segs : nat -> list nat) : list nat := flat_map (fun i => i :: segs i) (seq 0 n).
Definition field {A : Type} (f : vertex F -> A) (d : list (vertex F)) (i : nat) : option A := option_map f (nth_error d i).
(** [v] follows [u] *)
Definition links (d : list (vertex F)) (u v : nat) : Prop := field (next F) d u = Some v /\ field (prev F) d v = Some u.
Fixpoint chain (d : list (vertex F)) (l : list nat) : Prop :=
  match l with
  | u :: ((v :: _) as r) => links d u v /\ chain d r
  | _ => True
  end.
(** not in descending order of alpha *)
Definition not_after (d : list (vertex F)) (u v : nat) : Prop :=
  forall x y, field (alpha F) d u = Some x -> field (alpha F) d v = Some y -> ltb F y x = false.
Fixpoint ascending (d : list (vertex F)) (l : list nat) : Prop :=
  match l with
  | u :: ((v :: _) as r) => not_after d u v /\ ascending d r
  | _ => True
  end.
(** [d] is a closed ring of [n] corners and the crossings [segs], each vertex once *)
Record ring (d : list (vertex F)) (n : nat) (segs : nat -> list nat) : Prop := Ring {
  ring_nodup : NoDup (order n segs);
  ring_all : forall i, In i (order n segs) <-> i < length d;
  ring_chain : chain d (order n segs ++ [0]);
  ring_corners : forall i, i < length d -> field (isect F) d i = Some (n <=? i);
  ring_segs : forall e u, e < n -> In u (segs e) -> n <= u
}.
(** Crossing number m is vertex na + m of a and vertex nb + m of b; it lies on the edges [nth m pairs]. *)
Record crossed (a b : list (vertex F)) (na nb : nat) (sa sb : nat -> list nat) (pairs : list (nat * nat)) : Prop := Crossed {
  crossed_a : length a = na + length pairs;
  crossed_b : length b = nb + length pairs;
  crossed_twice : NoDup pairs;
  crossed_edges : forall m e f, nth_error pairs m = Some (e, f) -> e < na /\ f < nb /\ In (na + m) (sa e) /\ In (nb + m) (sb f);
  crossed_neighbors : forall m, m < length pairs -> field (neighbor F) a (na + m) = Some (nb + m) /\ field (neighbor F) b (nb + m) = Some (na + m);
  crossed_place : forall m, m < length pairs -> field (pos F) a (na + m) = field (pos F) b (nb + m)
}.
(** A corner that came too close to an edge of direction d is pushed along the normal of d, again and again if need be. *)
Inductive moved : vec F -> vec F -> Prop :=
| moved_none p : moved p p
| moved_push p q d : moved p q -> moved p (sub F (fst q) (mul F (snd d) (push F)), add F (snd q) (mul F (fst d) (push F))).
Definition between (p q : vec F) (t : num F) : vec F := (add F (fst p) (mul F t (sub F (fst q) (fst p))), add F (snd p) (mul F t (sub F (snd q) (snd p)))).
(** The corners of [d] are those of [vs] but for pushes, crossing number m lies between the ends of edge [nth m es] of [vs], as they were then
    ([exact]: precisely there; the crossings of b are put where they are on a). *)
Record placed (exact : bool) (vs : list (vec F)) (d : list (vertex F)) (es : list nat) : Prop := Placed {
  placed_corner : forall i v, nth_error vs i = Some v -> exists q, field (pos F) d i = Some q /\ moved v q;
  placed_cross : forall m e, nth_error es m = Some e -> exists v w p q t, nth_error vs e = Some v /\ nth_error vs (if S e =? length vs then 0 else S e) = Some w /\ moved v p /\ moved w q
    /\ field (alpha F) d (length vs + m) = Some t /\ leb F (zero F) t = true /\ leb F t (one F) = true /\ (exact = true -> field (pos F) d (length vs + m) = Some (between p q t))
}.
(** The even-odd rule: a ray to the right of [p] meets an odd number of edges. *)
Definition met (p : vec F) (edge : vec F * vec F) : bool :=
  let (u, v) := edge in
  ((leb F (snd p) (snd u) && ltb F (snd v) (snd p)) || (ltb F (snd u) (snd p) && leb F (snd p) (snd v)))
  && ltb F (fst p) (add F (fst u) (mul F (div F (sub F (snd u) (snd p)) (sub F (snd u) (snd v))) (sub F (fst v) (fst u)))).
Definition inner_point (vs : list (vec F)) (p : vec F) : bool := Nat.odd (length (filter (met p) (combine (last vs (zero F, zero F) :: vs) vs))).
(** Crossings met on the outline before corner [c] *)
Definition passed (segs : nat -> list nat) (c : nat) : nat := length (flat_map segs (seq 0 c)).

(** Places on the two outlines, [true] is polygon a; a crossing is a vertex of both *)
Inductive place : Type := Corner (s : bool) (i : nat) | Cross (m : nat).
Definition vertex_at (n : bool -> nat) (s : bool) (q : place) : option nat :=
  match q with Corner t i => if Bool.eqb s t then Some i else None | Cross m => Some (n s + m) end.
Definition where_ (d : bool -> list (vertex F)) (n : bool -> nat) (q : place) : option (vec F) :=
  match q with Corner s i => field (pos F) (d s) i | Cross m => field (pos F) (d true) (n true + m) end.
(** One of the outlines goes from one place straight to the other. *)
Definition joined (d : bool -> list (vertex F)) (n : bool -> nat) (p q : place) : Prop :=
  exists s u v, vertex_at n s p = Some u /\ vertex_at n s q = Some v /\ (links (d s) u v \/ links (d s) v u).
Fixpoint path {A : Type} (R : A -> A -> Prop) (l : list A) : Prop :=
  match l with
  | u :: ((v :: _) as r) => R u v /\ path R r
  | _ => True
  end.
(** A closed walk along the two outlines *)
Definition closed_walk (d : bool -> list (vertex F)) (n : bool -> nat) (l : list place) : Prop :=
  l <> [] /\ path (joined d n) (last l (Cross 0) :: l).
(** Where polygons of these sizes lie in the vertices written *)
Fixpoint ranges {A : Type} (start : nat) (l : list (list A)) : list (nat * option nat) :=
  match l with [] => [] | x :: l => (start, Some (length x)) :: ranges (start + length x) l end.
(** What is written when there are crossings: the polygons [Es] are closed walks along the two outlines that pass each crossing once and no place twice.
    A corner is passed if the outline is, there, on the side of the other polygon that [ins] names for corner 0: each crossing changes sides. *)
Definition written (ds : bool -> list (vertex F)) (n : bool -> nat) (segs : bool -> nat -> list nat) (ins : bool -> bool) (k : nat) (o : output F) (Es : list (list place)) : Prop :=
  map Some (out F o) = map (where_ ds n) (concat Es) /\ polys F o = ranges 0 Es /\ Forall (closed_walk ds n) Es /\ NoDup (concat Es)
  /\ (forall m, In (Cross m) (concat Es) <-> m < k) /\ (forall s c, In (Corner s c) (concat Es) <-> c < n s /\ xorb (ins s) (Nat.odd (passed (segs s) c)) = true).
End Spec.
