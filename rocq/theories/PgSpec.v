(** Cutting a polygon into triangles: a ring of vertices, of which one is cut off at a time. *)
From Coq Require Import List ZArith.
Import ListNotations.

Definition rot {A : Type} (l l' : list A) : Prop := exists x y, l = x ++ y /\ l' = y ++ x.
(** [clip ear l ts l']: cutting off the triangles [ts] one after the other leaves [l'] of the ring [l]; each is made
    of three successive vertices of what was left before, and the middle one is removed. *)
Inductive clip {A : Type} (ear : A -> A -> A -> Prop) : list A -> list (A * A * A) -> list A -> Prop :=
| clip_none l l' : rot l l' -> clip ear l [] l'
| clip_cut l a b c r ts l' : rot l (a :: b :: c :: r) -> ear a b c -> clip ear (a :: c :: r) ts l' -> clip ear l ((a, b, c) :: ts) l'.
Definition no_ear {A : Type} (ear : A -> A -> A -> Prop) (l : list A) : Prop := forall a b c r, rot l (a :: b :: c :: r) -> ~ ear a b c.

Local Open Scope Z_scope.
(** Twice the signed area. *)
Definition cross (p q : Z * Z) : Z := fst p * snd q - snd p * fst q.
Fixpoint walk (l : list (Z * Z)) : Z :=
  match l with
  | p :: (q :: _) as l' => cross p q + walk l'
  | _ => 0
  end.
Definition area2 (l : list (Z * Z)) : Z := match l with [] => 0 | p :: _ => walk (l ++ [p]) end.
(** Twice the signed area of a triangle, and of triangles. *)
Definition tri2 (p q r : Z * Z) : Z := (fst q - fst p) * (snd r - snd p) - (snd q - snd p) * (fst r - fst p).
Definition total (pt : nat -> Z * Z) (ts : list (nat * nat * nat)) : Z := fold_right (fun '(a, b, c) s => tri2 (pt a) (pt b) (pt c) + s) 0 ts.
(** The indices of a triangle, in the order that makes it clockwise. *)
Definition listed (cw : bool) (begin : nat) (t : nat * nat * nat) : list nat :=
  let '(a, b, c) := t in if cw then [(begin + a)%nat; (begin + b)%nat; (begin + c)%nat] else [(begin + a)%nat; (begin + c)%nat; (begin + b)%nat].
