(** Rect arrays as lists; cell counting. *)
From Coq Require Import ZArith List Bool Lia Permutation ZifyBool ZifyNat.
From Verif Require Import Base BinPackModel BinPackSpec.
Import ListNotations.
Local Open Scope Z_scope.

Lemma write_ok : forall A (l : list A) i x, (i < length l)%nat ->
  exists l', write l i x = Some l' /\ l' = firstn i l ++ x :: skipn (S i) l /\ length l' = length l.
Proof.
  induction l as [|a l IH]; intros i x H; [cbn in H; lia|].
  destruct i as [|i]; cbn [write].
  - exists (x :: l). repeat split.
  - cbn in H. destruct (IH i x) as (l' & E & E' & L); [lia|]. rewrite E.
    exists (a :: l'). split; [reflexivity|]. split; [rewrite E'; reflexivity|cbn; lia].
Qed.

Definition arr_ok (a : arr) : Prop := (size a <= capacity a)%nat.

Lemma contents_length : forall a, arr_ok a -> length (contents a) = size a.
Proof. intros a H. unfold contents. rewrite firstn_length. unfold arr_ok, capacity in H. lia. Qed.

Lemma firstn_app_le : forall A (l m : list A) n, (n <= length l)%nat -> firstn n (l ++ m) = firstn n l.
Proof. intros. rewrite firstn_app. replace (n - length l)%nat with 0%nat by lia. cbn. apply app_nil_r. Qed.

Lemma firstn_S_set : forall A (l : list A) n x, (n < length l)%nat ->
  firstn (S n) (firstn n l ++ x :: skipn (S n) l) = firstn n l ++ [x].
Proof.
  intros A l n x H. rewrite firstn_app, firstn_length. rewrite firstn_firstn.
  replace (Nat.min (S n) n) with n by lia. replace (S n - Nat.min n (length l))%nat with 1%nat by lia.
  reflexivity.
Qed.

Lemma push_ok : forall a re r, arr_ok a -> re = true \/ (size a < capacity a)%nat ->
  exists a', tmbp_push a re r = Some a' /\ contents a' = contents a ++ [r] /\ size a' = S (size a) /\
    arr_ok a' /\ (capacity a <= capacity a')%nat /\ ((size a < capacity a)%nat -> capacity a' = capacity a).
Proof.
  intros [d n] re r Ok R. unfold arr_ok, tmbp_push, capacity, contents in *. cbn [data size] in *.
  destruct (Nat.leb_spec (length d) n) as [L|L].
  - destruct R as [->|R]; [|lia].
    set (k := (3 * (length d + 1) / 2 - length d)%nat).
    assert (K : (1 <= k)%nat) by (unfold k; pose proof (Nat.div_le_lower_bound (3 * (length d + 1)) 2 (length d + 1)); lia).
    destruct (write_ok _ (d ++ repeat (Rect 0 0 0 0) k) n r) as (d' & E & E' & L').
    { rewrite app_length, repeat_length. lia. }
    rewrite E. exists (Arr d' (S n)). cbn [data size]. split; [reflexivity|].
    rewrite app_length, repeat_length in L'.
    split; [|repeat split; lia].
    rewrite E'. rewrite firstn_S_set by (rewrite app_length, repeat_length; lia).
    rewrite firstn_app_le by lia. reflexivity.
  - destruct (write_ok _ d n r L) as (d' & E & E' & L'). rewrite E.
    exists (Arr d' (S n)). cbn [data size]. split; [reflexivity|]. split; [|repeat split; lia].
    rewrite E'. apply firstn_S_set. assumption.
Qed.

Lemma nth_contents : forall a i, (i < size a)%nat -> nth_error (contents a) i = nth_error (data a) i.
Proof.
  intros [d n] i H. unfold contents. cbn [data size] in *. revert i d H.
  induction n as [|n IH]; intros i d H; [lia|]. destruct d as [|x d]; [reflexivity|].
  destruct i as [|i]; [reflexivity|]. cbn. apply IH. lia.
Qed.

Lemma nth_split_perm : forall A (l : list A) i x, nth_error l i = Some x ->
  l = firstn i l ++ x :: skipn (S i) l.
Proof.
  induction l as [|a l IH]; intros [|i] x H; cbn in *; try discriminate.
  - congruence.
  - f_equal. now apply IH.
Qed.

Lemma firstn_snoc : forall A (l : list A) n x, nth_error l n = Some x -> firstn (S n) l = firstn n l ++ [x].
Proof.
  induction l as [|a l IH]; intros [|n] x H; cbn in *; try discriminate.
  - congruence.
  - f_equal. now apply IH.
Qed.

Lemma firstn_set : forall A (l : list A) i k x, (i < k)%nat -> (k <= length l)%nat ->
  firstn k (firstn i l ++ x :: skipn (S i) l) = firstn i (firstn k l) ++ x :: skipn (S i) (firstn k l).
Proof.
  induction l as [|a l IH]; intros i k x H1 H2; cbn [length] in H2; [lia|].
  destruct k as [|k]; [lia|]. destruct i as [|i]; [reflexivity|].
  cbn [firstn app skipn]. f_equal. apply IH; lia.
Qed.

Lemma erase_ok : forall a i, arr_ok a -> (i < size a)%nat ->
  exists a' r, tmbp_unstable_erase a i = Some a' /\ nth_error (contents a) i = Some r /\
    nth_error (data a) i = Some r /\
    Permutation (contents a) (r :: contents a') /\ size a' = (size a - 1)%nat /\
    arr_ok a' /\ capacity a' = capacity a.
Proof.
  intros a i Ok Hi. destruct a as [d n].
  unfold arr_ok, tmbp_unstable_erase, assert_, capacity in *. cbn [data size] in *.
  replace ((0 <? n)%nat && (n <=? length d)%nat && (i <? n)%nat) with true by lia.
  destruct n as [|n]; [lia|]. cbn [Nat.sub]. rewrite Nat.sub_0_r.
  destruct (nth_error d i) as [r|] eqn:Er; [|apply nth_error_None in Er; lia].
  destruct (nth_error d n) as [l|] eqn:El; [|apply nth_error_None in El; lia].
  assert (Ec : nth_error (contents (Arr d (S n))) i = Some r).
  { rewrite nth_contents by (cbn; lia). exact Er. }
  assert (Es : contents (Arr d (S n)) = firstn n d ++ [l]) by (unfold contents; apply firstn_snoc; exact El).
  destruct (Nat.eqb_spec i n) as [->|Ne].
  - exists (Arr d n), r. split; [reflexivity|]. split; [exact Ec|]. split; [first [exact Er|reflexivity]|].
    cbn [data size]. split; [|repeat split; lia].
    rewrite Es. replace l with r by congruence. unfold contents. cbn [data size].
    symmetry. apply Permutation_cons_append.
  - destruct (write_ok _ d i l) as (d' & E & E' & L'); [lia|]. rewrite E.
    exists (Arr d' n), r. split; [reflexivity|]. split; [exact Ec|]. split; [first [exact Er|reflexivity]|].
    cbn [data size]. split; [|repeat split; lia].
    rewrite Es. unfold contents. cbn [data size]. rewrite E', firstn_set by lia.
    assert (Ei : nth_error (firstn n d) i = Some r).
    { pose proof (nth_contents (Arr d n) i) as Q. unfold contents in Q. cbn [data size] in Q. rewrite Q by lia. exact Er. }
    rewrite (nth_split_perm _ _ _ _ Ei) at 1. rewrite <- app_assoc. cbn [app].
    etransitivity; [symmetry; apply Permutation_middle|].
    apply perm_skip. apply Permutation_app_head. symmetry. apply Permutation_cons_append.
Qed.

(** ** Counting how often a cell is covered *)
Definition covers_b (r : rect) (x y : Z) : bool :=
  (left r <=? x) && (x <? left r + width r) && (top r <=? y) && (y <? top r + height r).
Definition cnt (r : rect) (x y : Z) : Z := if covers_b r x y then 1 else 0.
Definition cover (l : list rect) (x y : Z) : Z := fold_right (fun r acc => cnt r x y + acc) 0 l.

Lemma covers_b_iff : forall r x y, covers_b r x y = true <-> covers r x y.
Proof. intros. unfold covers_b, covers. lia. Qed.
Lemma cnt_01 : forall r x y, 0 <= cnt r x y <= 1.
Proof. intros. unfold cnt. destruct (covers_b r x y); lia. Qed.
Lemma cnt_1 : forall r x y, covers r x y -> cnt r x y = 1.
Proof. intros r x y H. apply covers_b_iff in H. unfold cnt. rewrite H. reflexivity. Qed.
Lemma cnt_1_inv : forall r x y, cnt r x y = 1 -> covers r x y.
Proof. intros r x y H. apply covers_b_iff. unfold cnt in H. destruct (covers_b r x y); [reflexivity|discriminate]. Qed.
Lemma cover_app : forall a b x y, cover (a ++ b) x y = cover a x y + cover b x y.
Proof. intros. unfold cover. induction a as [|r a IH]; cbn [fold_right app]; [reflexivity|lia]. Qed.
Lemma cover_nonneg : forall l x y, 0 <= cover l x y.
Proof. intros. unfold cover. induction l as [|r l IH]; cbn [fold_right]; [lia|]. pose proof (cnt_01 r x y). lia. Qed.
Lemma cover_perm : forall a b, Permutation a b -> forall x y, cover a x y = cover b x y.
Proof. unfold cover. induction 1; intros; cbn [fold_right]; try congruence; try rewrite IHPermutation; try lia. rewrite IHPermutation1. apply IHPermutation2. Qed.
Lemma cover_in : forall l r x y, In r l -> covers r x y -> 1 <= cover l x y.
Proof.
  intros l r x y Hin C. apply in_split in Hin. destruct Hin as (a & b & ->).
  rewrite cover_app. unfold cover at 2. cbn [fold_right]. fold (cover b x y). rewrite cnt_1 by assumption.
  pose proof (cover_nonneg a x y). pose proof (cover_nonneg b x y). lia.
Qed.
Lemma cover_pos_in : forall l x y, 1 <= cover l x y -> exists r, In r l /\ covers r x y.
Proof.
  intros l x y. unfold cover. induction l as [|r l IH]; cbn [fold_right]; [lia|]. intros H.
  destruct (Z.eq_dec (cnt r x y) 1) as [E|E].
  - exists r. split; [now left|now apply cnt_1_inv].
  - pose proof (cnt_01 r x y). destruct IH as (r' & Hin & C); [lia|]. exists r'. split; [now right|assumption].
Qed.

Lemma cover_le1_disjoint : forall l, (forall x y, cover l x y <= 1) -> pairwise_disjoint l.
Proof.
  intros l H i j a b Ne Ei Ej (x & y & Ca & Cb).
  assert (W : forall i j a b, (i < j)%nat -> nth_error l i = Some a -> nth_error l j = Some b ->
              covers a x y -> covers b x y -> False).
  { clear i j a b Ne Ei Ej Ca Cb. intros i j a b Lt Ei Ej Ca Cb.
    specialize (H x y). rewrite (nth_split_perm _ _ _ _ Ei), cover_app in H.
    change (cover (a :: skipn (S i) l) x y) with (cnt a x y + cover (skipn (S i) l) x y) in H.
    rewrite (cnt_1 a) in H by assumption.
    assert (In b (skipn (S i) l)).
    { apply nth_error_In with (j - S i)%nat. clear - Ej Lt.
      revert i j Ej Lt. induction l as [|z l IH]; intros i j Ej Lt; [destruct j; discriminate|].
      destruct j as [|j]; [lia|]. cbn in Ej. destruct i as [|i].
      - cbn. rewrite Nat.sub_0_r. assumption.
      - cbn. change (S j - S (S i))%nat with (j - S i)%nat. apply IH; [assumption|lia]. }
    pose proof (cover_in _ _ x y H0 Cb). pose proof (cover_nonneg (firstn i l) x y). lia. }
  destruct (Nat.lt_ge_cases i j) as [L|L].
  - exact (W i j a b L Ei Ej Ca Cb).
  - apply (W j i b a); try assumption. lia.
Qed.

(** A rect of positive size all of whose cells lie in [0,W)x[0,H) is within the bin. *)
Lemma within_of_cells : forall W H r, positive r ->
  (forall x y, covers r x y -> covers (Rect 0 0 W H) x y) -> within W H r.
Proof.
  intros W H [l t w h] [P1 P2] C. unfold within, covers, positive in *. cbn [left top width height] in *.
  pose proof (C l t). pose proof (C (l + w - 1) (t + h - 1)). lia.
Qed.

Lemma total_area_app : forall a b, total_area (a ++ b) = total_area a + total_area b.
Proof. intros. unfold total_area. induction a as [|r a IH]; cbn [fold_right app]; [reflexivity|lia]. Qed.
Lemma total_area_perm : forall a b, Permutation a b -> total_area a = total_area b.
Proof. unfold total_area. induction 1; cbn [fold_right]; lia. Qed.
Lemma total_area_nonneg : forall l, Forall positive l -> 0 <= total_area l.
Proof.
  intros l F. unfold total_area. induction F as [|r l [P1 P2] F IH]; cbn [fold_right]; [lia|]. assert (0 <= area r) by (unfold area; nia). lia.
Qed.
Lemma i32_ok : forall z, INT_MIN <= z <= INT_MAX -> i32 z = Some z.
Proof. intros z H. unfold i32. replace ((INT_MIN <=? z) && (z <=? INT_MAX)) with true by lia. reflexivity. Qed.
Lemma i32_some : forall z v, i32 z = Some v -> v = z /\ INT_MIN <= z <= INT_MAX.
Proof. intros z v. unfold i32. destruct ((INT_MIN <=? z) && (z <=? INT_MAX)) eqn:E; [|discriminate]. intros [= <-]. lia. Qed.
