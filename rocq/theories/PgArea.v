(** Areas: what cutting off triangles does to them. *)
From Coq Require Import ZArith Lia Bool List.
From Verif Require Import PgModel PgSpec PgProofs.
Import ListNotations.
Local Open Scope Z_scope.

Lemma tri_cross : forall p q r, tri2 p q r = cross p q + cross q r + cross r p.
Proof. intros [px py] [qx qy] [rx ry]. unfold tri2, cross. cbn [fst snd]. ring. Qed.
Lemma walk_app : forall x p y, walk (x ++ p :: y) = walk (x ++ [p]) + walk (p :: y).
Proof.
  induction x as [|a x IH]; intros p y; [reflexivity|]. destruct x as [|b x].
  - cbn [app walk]. destruct y; cbn [walk]; lia.
  - change (walk ((a :: b :: x) ++ p :: y)) with (cross a b + walk ((b :: x) ++ p :: y)). change (walk ((a :: b :: x) ++ [p])) with (cross a b + walk ((b :: x) ++ [p])). rewrite IH. lia.
Qed.
Lemma area_rot : forall l l', rot l l' -> area2 l = area2 l'.
Proof.
  intros l l' (x & y & -> & ->). destruct x as [|a x]; [rewrite app_nil_r; reflexivity|]. destruct y as [|b y]; [rewrite app_nil_r; reflexivity|].
  change (area2 ((a :: x) ++ b :: y)) with (walk (((a :: x) ++ b :: y) ++ [a])). change (area2 ((b :: y) ++ a :: x)) with (walk (((b :: y) ++ a :: x) ++ [b])).
  rewrite <- !app_assoc. change ((b :: y) ++ [a]) with (b :: (y ++ [a])). change ((a :: x) ++ [b]) with (a :: (x ++ [b])).
  rewrite (walk_app (a :: x) b (y ++ [a])), (walk_app (b :: y) a (x ++ [b])). cbn [app]. lia.
Qed.
Lemma area_cut : forall a b c r, area2 (a :: b :: c :: r) = tri2 a b c + area2 (a :: c :: r).
Proof. intros a b c r. rewrite tri_cross. cbn [area2 app]. change (walk (a :: b :: c :: r ++ [a])) with (cross a b + (cross b c + walk (c :: r ++ [a]))). change (walk (a :: c :: r ++ [a])) with (cross a c + walk (c :: r ++ [a])). unfold cross. destruct a, b, c. cbn [fst snd]. lia. Qed.
Lemma area_two : forall l, length l = 2%nat -> area2 l = 0.
Proof. intros [|a [|b [|c l]]] H; try discriminate H. cbn [area2 app walk]. unfold cross. lia. Qed.
Lemma rot_map : forall A B (f : A -> B) l l', rot l l' -> rot (map f l) (map f l').
Proof. intros A B f l l' (x & y & -> & ->). exists (map f x), (map f y). rewrite !map_app. split; reflexivity. Qed.
Lemma clip_area : forall ear (pt : nat -> Z * Z) l ts l', clip ear l ts l' -> area2 (map pt l) = total pt ts + area2 (map pt l').
Proof.
  intros ear pt l ts l' H. induction H as [l l' R|l a b c r ts l' R E H IH]; cbn [total fold_right].
  - rewrite (area_rot _ _ (rot_map _ _ pt _ _ R)). lia.
  - rewrite (area_rot _ _ (rot_map _ _ pt _ _ R)). cbn [map] in *. rewrite area_cut. fold (total pt ts). lia.
Qed.
