(** C134-C135: triangulation of polygons (tm_polygon.h). *)
From Coq Require Import Arith ZArith Reals Lia Bool List.
From Flocq Require Import Core IEEE754.BinarySingleNaN.
From Verif Require Import Base UtFloatModel PgModel PgSpec PgProofs PgArea PgFloat.
Import ListNotations.

(** An ear: turns as the polygon does, and no other vertex is inside. *)
Definition is_ear (F : arith) (vs : list (vec F)) (cw : bool) (i j k : nat) : Prop :=
  exists u v w, nth_error vs i = Some u /\ nth_error vs j = Some v /\ nth_error vs k = Some w /\ is_triangle_clockwise F u v w = cw /\
    forall l p, nth_error vs l = Some p -> l <> i -> l <> j -> l <> k -> point_inside_triangle F u v w p = false.
Lemma none_inside_iff : forall F u v w i j k (vs : list (vec F)) s,
  none_inside F s i j k u v w vs = true <-> forall l p, nth_error vs l = Some p -> s + l <> i -> s + l <> j -> s + l <> k -> point_inside_triangle F u v w p = false.
Proof.
  intros F u v w i j k vs. induction vs as [|p vs IH]; intros s; cbn [none_inside].
  - split; [|reflexivity]. intros _ [|l] q H; discriminate H.
  - assert (E : (none_inside F (S s) i j k u v w vs = true) <-> forall l q, nth_error (p :: vs) (S l) = Some q -> s + S l <> i -> s + S l <> j -> s + S l <> k -> point_inside_triangle F u v w q = false).
    { rewrite IH. cbn [nth_error]. split; intros H l q Hq; specialize (H l q Hq); replace (s + S l) with (S s + l) in * by lia; exact H. }
    destruct (Nat.eqb s i || Nat.eqb s j || Nat.eqb s k) eqn:B.
    + rewrite E. split; intros H.
      * intros [|l] q Hq; [|apply H, Hq]. rewrite Nat.add_0_r. intros A1 A2 A3. apply Nat.eqb_neq in A1, A2, A3. rewrite A1, A2, A3 in B. discriminate B.
      * intros l q Hq. apply (H (S l) q Hq).
    + apply orb_false_iff in B. destruct B as [B B3]. apply orb_false_iff in B. destruct B as [B1 B2]. apply Nat.eqb_neq in B1, B2, B3. destruct (point_inside_triangle F u v w p) eqn:I.
      * split; [discriminate|]. intros H. specialize (H 0 p eq_refl). rewrite Nat.add_0_r in H. rewrite (H B1 B2 B3) in I. discriminate I.
      * rewrite E. split; intros H.
        -- intros [|l] q Hq; [injection Hq as <-; intros; exact I|apply H, Hq].
        -- intros l q Hq. apply (H (S l) q Hq).
Qed.
Lemma ear_iff : forall F vs cw i j k, is_triangle_ear F vs cw i j k = Some true <-> is_ear F vs cw i j k.
Proof.
  intros F vs cw i j k. unfold is_triangle_ear, is_ear. split.
  - destruct (nth_error vs i) as [u|] eqn:Eu; [|discriminate]. destruct (nth_error vs j) as [v|] eqn:Ev; [|discriminate]. destruct (nth_error vs k) as [w|] eqn:Ew; [|discriminate]. cbv beta iota.
    destruct (Bool.eqb (is_triangle_clockwise F u v w) cw) eqn:B; cbn [negb]; [|discriminate]. intros H. apply eqb_prop in B. exists u, v, w. repeat split; try reflexivity; [exact B|]. assert (H' : none_inside F 0 i j k u v w vs = true) by congruence. rewrite none_inside_iff in H'. exact H'.
  - intros (u & v & w & -> & -> & -> & B & H). cbv beta iota. rewrite B, eqb_reflx. cbn [negb]. f_equal. apply none_inside_iff. exact H.
Qed.
Lemma clip_iff : forall A (e e' : A -> A -> A -> Prop) l ts l', (forall i j k, e i j k <-> e' i j k) -> clip e l ts l' -> clip e' l ts l'.
Proof. intros A e e' l ts l' Q H. induction H as [l l' R|l x y z r ts l' R E H IH]; [constructor; exact R|]. apply (clip_cut _ _ x y z r); [exact R|apply Q, E|exact IH]. Qed.
Lemma nth_total : forall A (l : list A) i, i < length l -> exists x, nth_error l i = Some x.
Proof. intros A l i H. destruct (nth_error l i) as [x|] eqn:E; [exists x; reflexivity|]. apply nth_error_None in E. lia. Qed.

(** Whatever the coordinates and the arithmetic (rounding, NaN): the triangles are cut off one after the other, three
    successive vertices each, all ears; the end is reached with two vertices left or when no ear is left. *)
Theorem C134_triangulation_partial : forall F vs cw queries begin max_indices,
  3 <= length vs -> begin + length vs <= 2 ^ 16 -> length vs <= length queries -> 3 * (length vs - 2) <= max_indices ->
  exists ts rest, triangulate_polygon_ear_clipping F vs cw queries begin max_indices = Some (flat_map (listed cw begin) ts) /\
    clip (is_ear F vs cw) (seq 0 (length vs)) ts rest /\ length ts + length rest = length vs /\ (length rest = 2 \/ no_ear (is_ear F vs cw) rest).
Proof.
  intros F vs cw queries begin max_indices L3 Lb Lq Lm.
  destruct (triangulate_ok (is_triangle_ear F vs cw) cw begin max_indices (length vs)) with (queries := queries) as (ts & rest & E & C & R); try assumption; try lia.
  { intros i j k Hi Hj Hk. unfold is_triangle_ear. destruct (nth_total _ vs i Hi) as [u ->]. destruct (nth_total _ vs j Hj) as [v ->]. destruct (nth_total _ vs k Hk) as [w ->]. cbv beta iota. destruct (negb _); discriminate. }
  exists ts, rest. split.
  - unfold triangulate_polygon_ear_clipping. rewrite E. f_equal. destruct (clip_in _ _ _ _ _ C) as [_ I].
    clear - I Lb. induction ts as [|[[x y] z] ts IH]; [reflexivity|]. cbn [flat_map]. rewrite IH by (intros u v w H; apply I; right; exact H). destruct (I x y z (or_introl eq_refl)) as (X & Y & Z & _). apply in_seq in X, Y, Z.
    f_equal. unfold emitted, listed, index. rewrite !Nat.mod_small by lia. rewrite (Nat.add_comm x), (Nat.add_comm y), (Nat.add_comm z). reflexivity.
  - split; [apply (clip_iff _ _ _ _ _ _ (ear_iff F vs cw)), C|]. split; [apply clip_length in C; rewrite seq_length in C; lia|]. destruct R as [R|R]; [left; exact R|right]. intros x y z r Hr He. apply (R x y z r Hr), ear_iff, He.
Qed.
(** No vertices, no triangles. *)
Theorem C134_degenerate : forall F vs cw queries begin max_indices, length vs < 3 -> length vs <= length queries -> 0 < max_indices -> triangulate_polygon_ear_clipping F vs cw queries begin max_indices = Some [].
Proof.
  intros F vs cw queries begin max_indices L Lq Lm. unfold triangulate_polygon_ear_clipping, triangulate. rewrite (proj2 (Nat.leb_le _ _) Lq), (proj2 (Nat.eqb_neq max_indices 0)) by lia. cbn [negb andb]. unfold assert_. rewrite (proj2 (Nat.ltb_lt _ 3) L). reflexivity.
Qed.

Definition pt32 (p : Z * Z) : vec floats := (fnum (fst p) 0, fnum (snd p) 0).
(** an arrow head: not convex, counterclockwise in the sense of the code *)
Definition arrow : list (Z * Z) := [(0, 0); (2, 6); (4, 0); (2, 2)]%Z.
Example C134_arrow : triangulate_polygon_ear_clipping floats (map pt32 arrow) false (repeat 0 4) 100 6 = Some [101; 103; 102; 103; 101; 100].
Proof. vm_compute. reflexivity. Qed.
(** The indices wrap around when begin is large. *)
Theorem C134_large_begin_refuted : exists begin, begin < 2 ^ 16 /\
  triangulate_polygon_ear_clipping floats (map pt32 [(0, 0); (4, 0); (0, 4)]%Z) true (repeat 0 3) begin 3 = Some [begin; 0; 1].
Proof.
  assert (E : is_triangle_ear floats (map pt32 [(0, 0); (4, 0); (0, 4)]%Z) true 0 1 2 = Some true) by (vm_compute; reflexivity).
  unfold triangulate_polygon_ear_clipping. revert E. generalize (is_triangle_ear floats (map pt32 [(0, 0); (4, 0); (0, 4)]%Z) true). intros e E.
  assert (I : map index (seq 0 3) = [0; 1; 2]). { cbn [seq map]. unfold index. rewrite !Nat.mod_small; [reflexivity| | |]; (apply Nat.lt_le_trans with (2 ^ 2); [cbn; lia|apply Nat.pow_le_mono_r; lia]). }
  assert (W : forall x, triangulate e true x 3 3 (repeat 0 3) = Some [index (0 + x); index (1 + x); index (2 + x)]).
  { intros x. unfold triangulate. rewrite I. change (3 * (2 * 3 + 4)) with 30. unfold loop at 1. unfold body at 1. cbn [q size a b c current iter out nth_error app repeat skipn length Nat.leb Nat.ltb Nat.eqb negb andb assert_]. rewrite E. cbv beta iota. lazy -[index Nat.add]. reflexivity. }
  cbn [map length]. remember (2 ^ 16) as p eqn:Ep. assert (P : 2 <= p) by (rewrite Ep; change 2 with (2 ^ 1) at 1; apply Nat.pow_le_mono_r; lia). exists (p - 1). split; [lia|]. rewrite W. unfold index. rewrite <- Ep.
  replace (1 + (p - 1)) with (0 + 1 * p) by lia. replace (2 + (p - 1)) with (1 + 1 * p) by lia. rewrite !Nat.mod_add by lia. rewrite !Nat.mod_small by lia. reflexivity.
Qed.
(** Not enough room for the indices: the assertion fails. *)
Theorem C134_no_room_refuted : triangulate_polygon_ear_clipping floats (map pt32 [(0, 0); (4, 0); (4, 4); (0, 4)]%Z) true (repeat 0 4) 0 5 = None.
Proof. vm_compute. reflexivity. Qed.

(** ** Areas *)
Definition small_points (K : Z) (vs : list (vec floats)) (zs : list (Z * Z)) : Prop :=
  Forall2 (fun v z => represents (fst v) (fst z) /\ represents (snd v) (snd z) /\ (Z.abs (fst z) <= K)%Z /\ (Z.abs (snd z) <= K)%Z) vs zs.
Lemma small_nth : forall K vs zs i v, small_points K vs zs -> nth_error vs i = Some v -> let z := nth i zs (0, 0)%Z in represents (fst v) (fst z) /\ represents (snd v) (snd z) /\ (Z.abs (fst z) <= K)%Z /\ (Z.abs (snd z) <= K)%Z.
Proof. intros K vs zs i v H. revert i. induction H as [|a b vs zs R H IH]; intros [|i] E; try discriminate E; cbn [nth_error nth] in *; [injection E as <-; exact R|apply IH, E]. Qed.
Lemma clockwise_exact : forall u v w p q r,
  represents (fst u) (fst p) -> represents (snd u) (snd p) -> represents (fst v) (fst q) -> represents (snd v) (snd q) -> represents (fst w) (fst r) -> represents (snd w) (snd r) ->
  (Z.abs (fst p) <= 1024 -> Z.abs (snd p) <= 1024 -> Z.abs (fst q) <= 1024 -> Z.abs (snd q) <= 1024 -> Z.abs (fst r) <= 1024 -> Z.abs (snd r) <= 1024 ->
  is_triangle_clockwise floats u v w = (0 <=? tri2 p q r))%Z.
Proof.
  intros u v w p q r U1 U2 V1 V2 W1 W2 B1 B2 B3 B4 B5 B6. unfold is_triangle_clockwise, tri2. cbn [floats leb zero sub mul num].
  assert (P : forall x y, (Z.abs x <= 2048 -> Z.abs y <= 2048 -> Z.abs (x * y) <= 2 ^ 22)%Z). { intros x y Hx Hy. rewrite Z.abs_mul. change (2 ^ 22)%Z with (2048 * 2048)%Z. apply Z.mul_le_mono_nonneg; lia. }
  change (2 ^ 22)%Z with 4194304%Z in P.
  assert (P1 : (Z.abs ((fst q - fst p) * (snd r - snd p)) <= 4194304)%Z) by (apply P; lia). assert (P2 : (Z.abs ((snd q - snd p) * (fst r - fst p)) <= 4194304)%Z) by (apply P; lia).
  apply leb_exact; [apply zero_represents|]. apply sub_exact; [apply mul_exact|apply mul_exact|]; try (apply sub_exact; [assumption|assumption|]); change (2 ^ 24)%Z with 16777216%Z; lia.
Qed.

(** Integer coordinates of at most 1024: all triangles are turned as asked for, and the areas of the triangles and of
    what is left add up to that of the polygon; if two vertices are left, the triangles have the polygon's area. *)
Theorem C135_areas : forall vs zs cw queries begin max_indices, small_points 1024 vs zs ->
  3 <= length vs -> begin + length vs <= 2 ^ 16 -> length vs <= length queries -> 3 * (length vs - 2) <= max_indices ->
  let pt i := nth i zs (0, 0)%Z in
  exists ts rest, triangulate_polygon_ear_clipping floats vs cw queries begin max_indices = Some (flat_map (listed cw begin) ts) /\
    clip (is_ear floats vs cw) (seq 0 (length vs)) ts rest /\
    Forall (fun '(i, j, k) => (0 <=? tri2 (pt i) (pt j) (pt k))%Z = cw) ts /\
    (total pt ts + area2 (map pt rest) = area2 zs)%Z /\ (length rest = 2 -> total pt ts = area2 zs).
Proof.
  intros vs zs cw queries begin max_indices S L3 Lb Lq Lm pt. destruct (C134_triangulation_partial floats vs cw queries begin max_indices L3 Lb Lq Lm) as (ts & rest & E & C & _ & _).
  assert (Lz : length vs = length zs) by (clear - S; induction S; cbn [length]; congruence).
  exists ts, rest. split; [exact E|]. split; [exact C|]. split.
  - destruct (clip_in _ _ _ _ _ C) as [_ I]. apply Forall_forall. intros [[i j] k] H. destruct (I i j k H) as (_ & _ & _ & u & v & w & U & V & W & O & _). rewrite <- O. symmetry.
    destruct (small_nth _ _ _ _ _ S U) as (U1 & U2 & U3 & U4). destruct (small_nth _ _ _ _ _ S V) as (V1 & V2 & V3 & V4). destruct (small_nth _ _ _ _ _ S W) as (W1 & W2 & W3 & W4). apply clockwise_exact; assumption.
  - assert (M : map pt (seq 0 (length vs)) = zs).
    { rewrite Lz. unfold pt. clear. apply nth_ext with (d := (0, 0)%Z) (d' := (0, 0)%Z); [rewrite map_length, seq_length; reflexivity|]. intros n H. rewrite map_length, seq_length in H. rewrite (nth_indep _ _ (nth 0 zs (0, 0)%Z)) by (rewrite map_length, seq_length; exact H). rewrite (map_nth (fun i => nth i zs (0, 0)%Z)). rewrite seq_nth by exact H. reflexivity. }
    pose proof (clip_area _ pt _ _ _ C) as A. rewrite M in A. split; [lia|]. intros L2. rewrite (area_two (map pt rest)) in A by (rewrite map_length; exact L2). lia.
Qed.
Lemma last_walk : forall zs, zs <> [] -> area2 zs = walk (last zs (0, 0)%Z :: zs).
Proof.
  intros zs H. destruct (exists_last H) as (l & p & ->). rewrite last_last. transitivity (area2 (p :: l)); [apply area_rot; exists l, [p]; split; reflexivity|reflexivity].
Qed.
Lemma doubled_area_exact : forall K vs zs, small_points K vs zs -> forall v z s k, represents (fst v) (fst z) -> represents (snd v) (snd z) -> (Z.abs (fst z) <= K)%Z -> (Z.abs (snd z) <= K)%Z ->
  represents s k -> (Z.abs k + 2 * K * K * Z.of_nat (length vs) < 2 ^ 24)%Z -> represents (doubled_area floats v vs s) (k + walk (z :: zs)).
Proof.
  intros K vs zs H. change (2 ^ 24)%Z with 16777216%Z. induction H as [|a b vs zs R H IH]; intros v z s k V1 V2 V3 V4 Hs Lk; cbn [doubled_area].
  - cbn [walk]. rewrite Z.add_0_r. exact Hs.
  - destruct R as (R1 & R2 & R3 & R4). change (walk (z :: b :: zs)) with (cross z b + walk (b :: zs))%Z. rewrite Z.add_assoc. cbn [length] in Lk.
    assert (P : forall x y, (Z.abs x <= K -> Z.abs y <= K -> Z.abs (x * y) <= K * K)%Z). { intros x y Hx Hy. rewrite Z.abs_mul. apply Z.mul_le_mono_nonneg; lia. }
    pose proof (P (fst z) (snd b) V3 R4) as P1. pose proof (P (snd z) (fst b) V4 R3) as P2. assert (K0 : (0 <= K * K)%Z) by lia. replace (2 * K * K * Z.of_nat (S (length vs)))%Z with (2 * (K * K) + 2 * (K * K * Z.of_nat (length vs)))%Z in Lk by lia. assert (Q : (0 <= K * K * Z.of_nat (length vs))%Z) by (apply Z.mul_nonneg_nonneg; lia).
    apply IH; try assumption.
    + cbn [floats add sub mul]. unfold cross. apply add_exact; [exact Hs| |change (2 ^ 24)%Z with 16777216%Z; lia]. apply sub_exact; [apply mul_exact; [assumption|assumption|]|apply mul_exact; [assumption|assumption|]|]; change (2 ^ 24)%Z with 16777216%Z; lia.
    + replace (2 * K * K * Z.of_nat (length vs))%Z with (2 * (K * K * Z.of_nat (length vs)))%Z by lia. unfold cross. lia.
Qed.
(** The orientation of a polygon is the sign of its area. *)
Theorem C135_orientation : forall K vs zs, small_points K vs zs -> (2 * K * K * Z.of_nat (length vs) < 2 ^ 24)%Z -> is_polygon_clockwise floats vs = (0 <=? area2 zs)%Z.
Proof.
  intros K vs zs S L. unfold is_polygon_clockwise. cbn [floats leb zero]. apply leb_exact; [apply zero_represents|].
  destruct S as [|a b vs zs R S]; [apply zero_represents|]. rewrite last_walk by discriminate.
  assert (Rl : let v := last (a :: vs) (fzero, fzero) in let z := last (b :: zs) (0, 0)%Z in represents (fst v) (fst z) /\ represents (snd v) (snd z) /\ (Z.abs (fst z) <= K)%Z /\ (Z.abs (snd z) <= K)%Z).
  { clear L. revert a b R. induction S as [|a' b' vs zs R' S IH]; intros a b R; [exact R|]. apply (IH a' b' R'). }
  destruct Rl as (R1 & R2 & R3 & R4). pose proof (doubled_area_exact K (a :: vs) (b :: zs) (Forall2_cons _ _ R S) _ _ fzero 0%Z R1 R2 R3 R4 zero_represents) as D. rewrite Z.add_0_l in D. apply D. exact L.
Qed.
Lemma pt32_small : forall zs, Forall (fun z => (Z.abs (fst z) <= 1024)%Z /\ (Z.abs (snd z) <= 1024)%Z) zs -> small_points 1024 (map pt32 zs) zs.
Proof.
  assert (E : forall k, (Z.abs k <= 1024)%Z -> represents (fnum k 0) k).
  { intros k Hk. pose proof (binary_normalize_correct prec emax prec_gt_0_ prec_lt_emax_ mode_NE k 0 false) as K. cbn [round_mode] in K. replace (F2R (Float radix2 k 0)) with (IZR k) in K by (unfold F2R; cbn [Fnum Fexp bpow]; ring). assert (H : (Z.abs k < 2 ^ 24)%Z) by (change (2 ^ 24)%Z with 16777216%Z; lia).
    rewrite round_generic in K; [|auto with typeclass_instances|apply small_format, H]. rewrite Rlt_bool_true in K by apply small_bound, H. destruct K as (K1 & K2 & _). split; assumption. }
  intros zs H. induction H as [|z zs [H1 H2] H IH]; [constructor|]. cbn [map]. constructor; [|exact IH]. cbn [pt32 fst snd]. repeat split; try assumption; apply E; assumption.
Qed.
Example C135_arrow : small_points 1024 (map pt32 arrow) arrow /\ area2 arrow = (-16)%Z /\ total (fun i => nth i arrow (0, 0)%Z) [(1, 2, 3); (3, 0, 1)] = (-16)%Z /\ is_polygon_clockwise floats (map pt32 arrow) = false.
Proof. split; [apply pt32_small; repeat constructor; cbn; lia|]. vm_compute. repeat split. Qed.
(** Larger coordinates: the sign may be wrong. *)
Theorem C135_large_refuted : exists zs : list (Z * Z), Forall (fun z => (Z.abs (fst z) <= 8192)%Z /\ (Z.abs (snd z) <= 8192)%Z) zs /\ is_polygon_clockwise floats (map pt32 zs) = negb (0 <=? area2 zs)%Z.
Proof. exists [(8174, 8160); (8161, 8167); (8185, 8154)]%Z. split; [repeat constructor; cbn; lia|]. vm_compute. reflexivity. Qed.

Print Assumptions C134_triangulation_partial.
Print Assumptions C134_degenerate.
Print Assumptions C134_large_begin_refuted.
Print Assumptions C134_no_room_refuted.
Print Assumptions C135_areas.
Print Assumptions C135_orientation.
Print Assumptions C135_large_refuted.
