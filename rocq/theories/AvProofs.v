(** Views refine bounded sequences. *)
From Coq Require Import Arith NArith ZArith Lia ZifyBool ZifyNat ZifyN Bool List.
From Verif Require Import Base AvModel AvSpec.
Import ListNotations.
Local Open Scope N_scope.

Section Proofs.
Variable A : Type.
Implicit Types (m pre xs junk post : list A) (v : view).

Lemma overwrite_parts : forall m a b c xs n, m = a ++ b ++ c -> length a = n -> length xs = length b -> overwrite A m n xs = a ++ xs ++ c.
Proof.
  intros m a b c xs n -> <- L. unfold overwrite. rewrite firstn_app, Nat.sub_diag, firstn_all, firstn_O, app_nil_r. do 2 f_equal.
  rewrite L, <- app_length, app_assoc, skipn_app, skipn_all, Nat.sub_diag. reflexivity.
Qed.
Lemma store_parts : forall m a y c x p, m = a ++ [y] ++ c -> N.of_nat (length a) = p -> store A m p x = Some (a ++ [x] ++ c).
Proof.
  intros m a y c x p E L. unfold store. rewrite (proj2 (N.ltb_lt _ _)) by (rewrite E, !app_length; cbn [length]; lia). rewrite (overwrite_parts m a [y] c [x]); [reflexivity|exact E|lia|reflexivity].
Qed.
Lemma move_parts : forall m a b c d e f dst src n, m = a ++ b ++ c -> m = d ++ e ++ f -> N.of_nat (length a) = dst -> N.of_nat (length d) = src ->
  N.of_nat (length b) = n -> N.of_nat (length e) = n -> memmove A m dst src n = Some (a ++ e ++ c).
Proof.
  intros m a b c d e f dst src n E1 E2 L1 L2 L3 L4. unfold memmove.
  rewrite (proj2 (N.leb_le (dst + n) _)) by (rewrite E1, !app_length; lia). rewrite (proj2 (N.leb_le (src + n) _)) by (rewrite E2, !app_length; lia). cbn [andb]. f_equal.
  replace (firstn (N.to_nat n) (skipn (N.to_nat src) m)) with e; [apply (overwrite_parts m a b c); [exact E1|lia|lia]|].
  rewrite E2. replace (N.to_nat src) with (length d) by lia. rewrite skipn_app, skipn_all, Nat.sub_diag. cbn [app skipn]. replace (N.to_nat n) with (length e) by lia. rewrite firstn_app, Nat.sub_diag, firstn_all, firstn_O, app_nil_r. reflexivity.
Qed.
Lemma copy_parts : forall m a b c d e f dst src n, m = a ++ b ++ c -> m = d ++ e ++ f -> N.of_nat (length a) = dst -> N.of_nat (length d) = src ->
  N.of_nat (length b) = n -> N.of_nat (length e) = n -> n = 0 \/ dst + n <= src \/ src + n <= dst -> memcpy A m dst src n = Some (a ++ e ++ c).
Proof.
  intros m a b c d e f dst src n E1 E2 L1 L2 L3 L4 D. unfold memcpy. destruct ((n =? 0) || (dst + n <=? src) || (src + n <=? dst)) eqn:Q; [apply (move_parts m a b c d e f); assumption|lia].
Qed.
Lemma load_parts : forall m a x c p, m = a ++ x :: c -> N.of_nat (length a) = p -> load A m p = Some x.
Proof. intros m a x c p -> <-. unfold load. rewrite Nnat.Nat2N.id, nth_error_app2, Nat.sub_diag by lia. reflexivity. Qed.

(** The parts of the arena: in front of the view, its elements, its unused memory, behind it. *)
Definition holds v pre xs junk post : Prop :=
  base v = N.of_nat (length pre) /\ sz v = N.of_nat (length xs) /\ cap v = N.of_nat (length xs + length junk) /\ base v + cap v < 2 ^ 64.
Definition arena pre xs junk post : list A := pre ++ xs ++ junk ++ post.
(** A view of memory that exists. *)
Definition valid v m : Prop := base v + cap v <= N.of_nat (length m) /\ sz v <= cap v /\ base v + cap v < 2 ^ 64.
Definition contents v m : list A := firstn (N.to_nat (sz v)) (skipn (N.to_nat (base v)) m).
(** Outside of the memory of the view nothing has changed. *)
Definition frame v m m' : Prop :=
  length m' = length m /\ firstn (N.to_nat (base v)) m' = firstn (N.to_nat (base v)) m /\ skipn (N.to_nat (base v + cap v)) m' = skipn (N.to_nat (base v + cap v)) m.

Lemma valid_holds : forall v m, valid v m -> exists pre junk post, m = arena pre (contents v m) junk post /\ holds v pre (contents v m) junk post.
Proof.
  intros v m (H1 & H2 & H3). unfold arena, contents. set (b := N.to_nat (base v)). set (n := N.to_nat (sz v)).
  exists (firstn b m), (firstn (N.to_nat (cap v) - n) (skipn n (skipn b m))), (skipn (N.to_nat (cap v) - n) (skipn n (skipn b m))).
  rewrite !firstn_skipn. split; [reflexivity|]. unfold holds. rewrite !firstn_length, !skipn_length. subst b n. lia.
Qed.
Lemma holds_valid : forall v pre xs junk post, holds v pre xs junk post -> valid v (arena pre xs junk post) /\ contents v (arena pre xs junk post) = xs.
Proof.
  intros v pre xs junk post (H1 & H2 & H3 & H4). unfold valid, contents, arena. rewrite !app_length. split; [lia|].
  replace (N.to_nat (base v)) with (length pre) by lia. rewrite skipn_app, skipn_all, Nat.sub_diag. cbn [app skipn]. replace (N.to_nat (sz v)) with (length xs) by lia. rewrite firstn_app, Nat.sub_diag, firstn_all, firstn_O, app_nil_r. reflexivity.
Qed.
Lemma holds_frame : forall v pre xs junk post xs' junk', holds v pre xs junk post -> (length xs' + length junk' = length xs + length junk)%nat -> frame v (arena pre xs junk post) (arena pre xs' junk' post).
Proof.
  intros v pre xs junk post xs' junk' (H1 & H2 & H3 & H4) L. unfold frame, arena. rewrite !app_length. split; [lia|].
  replace (N.to_nat (base v)) with (length pre) by lia. rewrite !firstn_app, Nat.sub_diag, firstn_all, !firstn_O. split; [reflexivity|].
  assert (E : forall a b, (length a + length b = length xs + length junk)%nat -> skipn (N.to_nat (base v + cap v)) (pre ++ a ++ b ++ post) = post).
  { intros a b Lab. replace (N.to_nat (base v + cap v)) with (length (pre ++ a ++ b)) by (rewrite !app_length; lia). replace (pre ++ a ++ b ++ post) with ((pre ++ a ++ b) ++ post) by (rewrite <- !app_assoc; reflexivity). rewrite skipn_app, skipn_all, Nat.sub_diag. reflexivity. }
  rewrite !E by assumption || reflexivity. reflexivity.
Qed.

Lemma w64_id : forall n, n < 2 ^ 64 -> w64 n = n. Proof. intros n H. unfold w64. apply N.mod_small, H. Qed.
Lemma sub64_id : forall a b, a < 2 ^ 64 -> b <= a -> sub64 a b = a - b.
Proof. intros a b H L. unfold sub64, w64. replace (a + 2 ^ 64 - b) with (a - b + 1 * 2 ^ 64) by lia. rewrite N.mod_add by discriminate. apply N.mod_small. lia. Qed.
Lemma check_true : forall (B : Type) b (k : option B), b = true -> (_ <- check b ;; k) = k. Proof. intros B b k ->. reflexivity. Qed.
Lemma remaining_holds : forall v pre xs junk post, holds v pre xs junk post -> remaining v = N.of_nat (length junk).
Proof. intros v pre xs junk post (H1 & H2 & H3 & H4). unfold remaining. rewrite sub64_id by lia. lia. Qed.

(** ** The operations *)
Lemma push_ok : forall v pre xs junk post x y, holds v pre xs (y :: junk) post ->
  push_back A v (arena pre xs (y :: junk) post) x = Some (resized v (sz v + 1), arena pre (xs ++ [x]) junk post) /\ holds (resized v (sz v + 1)) pre (xs ++ [x]) junk post.
Proof.
  intros v pre xs junk post x y (H1 & H2 & H3 & H4). unfold push_back. cbn [length] in H3. rewrite w64_id by lia. rewrite check_true by lia.
  rewrite (store_parts _ (pre ++ xs) y (junk ++ post)); [|unfold arena; rewrite <- !app_assoc; reflexivity|rewrite app_length; lia]. split.
  - unfold arena. rewrite <- !app_assoc. reflexivity.
  - unfold holds. cbn [resized base sz cap]. rewrite app_length. cbn [length]. lia.
Qed.
Lemma try_push_ok : forall v pre xs junk post x y, holds v pre xs (y :: junk) post ->
  try_push_back A v (arena pre xs (y :: junk) post) x = Some (true, resized v (sz v + 1), arena pre (xs ++ [x]) junk post).
Proof. intros v pre xs junk post x y H. unfold try_push_back. rewrite (remaining_holds _ _ _ _ _ H). rewrite (proj2 (N.eqb_neq _ _)) by (cbn [length]; lia). rewrite (proj1 (push_ok v pre xs junk post x y H)). reflexivity. Qed.
Lemma try_full_ok : forall v pre xs post x, holds v pre xs [] post -> try_push_back A v (arena pre xs [] post) x = Some (false, v, arena pre xs [] post).
Proof. intros v pre xs post x H. unfold try_push_back. rewrite (remaining_holds _ _ _ _ _ H). reflexivity. Qed.
Lemma shrunk : forall v pre xs ys junk post, holds v pre (xs ++ ys) junk post -> arena pre (xs ++ ys) junk post = arena pre xs (ys ++ junk) post /\ holds (resized v (N.of_nat (length xs))) pre xs (ys ++ junk) post.
Proof.
  intros v pre xs ys junk post (H1 & H2 & H3 & H4). rewrite app_length in *. split; [unfold arena; rewrite <- !app_assoc; reflexivity|]. unfold holds. cbn [resized base sz cap]. rewrite app_length. lia.
Qed.
Lemma skip_next : forall k (n : list A) y n', skipn k n = y :: n' -> skipn (S k) n = n'.
Proof. intros k. induction k as [|k IH]; intros [|z n] y n' H; try discriminate; cbn [skipn] in *; [congruence|]. exact (IH _ _ _ H). Qed.
Lemma fill_ok : forall n r m x a c p, (forall k, (k <= length n)%nat -> deref A (a ++ repeat x k ++ skipn k n ++ c) r = Some x) ->
  m = a ++ n ++ c -> N.of_nat (length a) = p -> fill A (length n) m p r = Some (a ++ repeat x (length n) ++ c).
Proof.
  intros n r m x a c p D E L.
  assert (G : forall j k, (k + j = length n)%nat -> fill A j (a ++ repeat x k ++ skipn k n ++ c) (p + N.of_nat k) r = Some (a ++ repeat x (length n) ++ c)).
  { induction j as [|j IH]; intros k K; cbn [fill].
    - rewrite Nat.add_0_r in K. subst k. rewrite skipn_all. reflexivity.
    - rewrite (D k) by (lia || assumption). cbv beta iota. destruct (skipn k n) as [|y n'] eqn:Sk; [apply (f_equal (@length A)) in Sk; rewrite skipn_length in Sk; cbn [length] in Sk; lia|].
      rewrite (store_parts _ (a ++ repeat x k) y (n' ++ c)); [|rewrite <- !app_assoc; reflexivity|rewrite app_length, repeat_length; lia]. cbv beta iota.
      replace (p + N.of_nat k + 1) with (p + N.of_nat (S k)) by lia. rewrite <- (IH (S k)) by lia. f_equal. rewrite <- app_assoc. f_equal. replace (S k) with (k + 1)%nat at 1 by lia. rewrite repeat_app. cbn [repeat]. rewrite <- app_assoc. do 3 f_equal.
      rewrite (skip_next _ _ _ _ Sk). reflexivity. }
  rewrite E. specialize (G (length n) 0%nat eq_refl). cbn [repeat skipn app N.of_nat] in G. rewrite N.add_0_r in G. exact G.
Qed.
Lemma fill_temp : forall n m x a c p, m = a ++ n ++ c -> N.of_nat (length a) = p -> fill A (length n) m p (Temp A x) = Some (a ++ repeat x (length n) ++ c).
Proof. intros n m x a c p E L. apply (fill_ok n (Temp A x) m x); [reflexivity|exact E|exact L]. Qed.

(** The memory of the view from the start, [n] elements of it and the rest. *)
Lemma split_at : forall (l : list A) n, (n <= length l)%nat -> l = firstn n l ++ skipn n l /\ length (firstn n l) = n.
Proof. intros l n H. rewrite firstn_skipn, firstn_length. split; [reflexivity|lia]. Qed.
Lemma replaced : forall v pre xs junk post ys, holds v pre xs junk post -> (length ys <= length xs + length junk)%nat ->
  exists old rest, arena pre xs junk post = pre ++ old ++ rest ++ post /\ length old = length ys /\ holds (resized v (N.of_nat (length ys))) pre ys rest post /\ xs ++ junk = old ++ rest.
Proof.
  intros v pre xs junk post ys (H1 & H2 & H3 & H4) L. destruct (split_at (xs ++ junk) (length ys)) as [E1 E2]; [rewrite app_length; lia|].
  exists (firstn (length ys) (xs ++ junk)), (skipn (length ys) (xs ++ junk)). split; [unfold arena; rewrite (app_assoc xs), E1 at 1; rewrite <- !app_assoc; reflexivity|]. split; [exact E2|]. split; [|exact E1].
  unfold holds. cbn [resized base sz cap]. rewrite skipn_length, app_length. lia.
Qed.
Lemma assign_value_ok : forall v pre xs junk post n r x, holds v pre xs junk post -> r = Temp A x \/ (exists i, nth_error xs i = Some x /\ r = At A (base v + N.of_nat i)) ->
  exists junk', assign_value A v (arena pre xs junk post) (N.of_nat n) r = Some (resized v (N.of_nat (min n (length xs + length junk))), arena pre (repeat x (min n (length xs + length junk))) junk' post)
    /\ holds (resized v (N.of_nat (min n (length xs + length junk)))) pre (repeat x (min n (length xs + length junk))) junk' post.
Proof.
  intros v pre xs junk post n r x H R. pose proof H as (H1 & H2 & H3 & H4). set (k := min n (length xs + length junk)). destruct (replaced v pre xs junk post (repeat x k) H) as (old & rest & E & L & Hd & X); [rewrite repeat_length; lia|]. rewrite repeat_length in *.
  exists rest. split; [|exact Hd]. unfold assign_value. replace (N.min (N.of_nat n) (cap v)) with (N.of_nat k) by lia. rewrite Nnat.Nat2N.id, <- L. rewrite (fill_ok old r (arena pre xs junk post) x) with (a := pre) (c := rest ++ post); [cbv beta iota; unfold arena; rewrite L; reflexivity| |exact E|congruence].
  intros j Hj. destruct R as [-> |(i & Hi & ->)]; [reflexivity|]. cbn [deref].
  assert (Li : (i < length xs)%nat) by (apply nth_error_Some; congruence). unfold load. rewrite nth_error_app2 by lia. replace (N.to_nat (base v + N.of_nat i) - length pre)%nat with i by lia.
  destruct (Nat.lt_ge_cases i j) as [Q|Q].
  - rewrite nth_error_app1 by (rewrite repeat_length; lia). rewrite (nth_error_nth' _ x) by (rewrite repeat_length; lia). f_equal. apply nth_repeat.
  - rewrite nth_error_app2 by (rewrite repeat_length; lia). rewrite repeat_length. rewrite <- (firstn_skipn j old) in X. rewrite <- app_assoc in X.
    assert (Y : nth_error (xs ++ junk) i = Some x) by (rewrite nth_error_app1 by lia; exact Hi). rewrite X, nth_error_app2 in Y by (rewrite firstn_length; lia). rewrite firstn_length in Y. replace (i - min j (length old))%nat with (i - j)%nat in Y by lia.
    rewrite app_assoc. rewrite nth_error_app1; [exact Y|]. apply nth_error_Some. congruence.
Qed.
Lemma assign_list_ok : forall v pre xs junk post ys, holds v pre xs junk post -> (length ys <= length xs + length junk)%nat ->
  exists junk', assign_list A v (arena pre xs junk post) ys = Some (resized v (N.of_nat (length ys)), arena pre ys junk' post) /\ holds (resized v (N.of_nat (length ys))) pre ys junk' post.
Proof.
  intros v pre xs junk post ys H L. destruct (replaced v pre xs junk post ys H L) as (old & rest & E & Lo & Hd & X). pose proof H as (H1 & H2 & H3 & H4). exists rest. split; [|exact Hd]. unfold assign_list.
  rewrite check_true by lia. rewrite check_true by (unfold arena; rewrite !app_length; lia). rewrite (overwrite_parts _ pre old (rest ++ post)); [reflexivity|exact E|lia|lia].
Qed.
(** [ys] stands at [src], outside of the memory of the view. *)
Definition source v m (src : N) (ys : list A) : Prop :=
  (exists d f, m = d ++ ys ++ f /\ N.of_nat (length d) = src) /\ (src + N.of_nat (length ys) <= base v \/ base v + cap v <= src).
Lemma source_moved : forall v pre xs junk post xs' junk' src ys, holds v pre xs junk post -> (length xs' + length junk' = length xs + length junk)%nat -> ys <> [] ->
  source v (arena pre xs junk post) src ys -> source v (arena pre xs' junk' post) src ys.
Proof.
  intros v pre xs junk post xs' junk' src ys (H1 & H2 & H3 & H4) L N0 [(d & f & E & Ld) O]. split; [|exact O]. unfold arena in *. destruct O as [O|O].
  - assert (Q : exists l, pre = d ++ ys ++ l /\ f = l ++ xs ++ junk ++ post).
    { rewrite (app_assoc d) in E. apply app_eq_app in E. destruct E as (l & [[E1 E2]|[E1 E2]]).
      - exists l. rewrite <- app_assoc in E1. split; assumption.
      - assert (Z : length l = 0%nat) by (apply (f_equal (@length A)) in E1; rewrite !app_length in E1; lia). destruct l; [|discriminate]. exists []. rewrite app_nil_r in *. cbn [app] in *. split; [symmetry; rewrite E1; reflexivity|congruence]. }
    destruct Q as (l & -> & _). exists d, (l ++ xs' ++ junk' ++ post). split; [rewrite <- !app_assoc; reflexivity|exact Ld].
  - assert (Q : exists l, post = l ++ ys ++ f /\ d = pre ++ xs ++ junk ++ l).
    { replace (pre ++ xs ++ junk ++ post) with ((pre ++ xs ++ junk) ++ post) in E by (rewrite <- !app_assoc; reflexivity). apply app_eq_app in E. destruct E as (l & [[E1 E2]|[E1 E2]]).
      - assert (Z : length l = 0%nat) by (apply (f_equal (@length A)) in E1; rewrite !app_length in E1; lia). destruct l; [|discriminate]. exists []. cbn [app] in *. rewrite !app_nil_r in *. split; congruence.
      - exists l. rewrite <- !app_assoc in E1. split; assumption. }
    destruct Q as (l & -> & ->). exists (pre ++ xs' ++ junk' ++ l), f. split; [rewrite <- !app_assoc; reflexivity|]. rewrite !app_length in *. lia.
Qed.
Lemma assign_range_ok : forall v pre xs junk post src ys, holds v pre xs junk post -> (length ys <= length xs + length junk)%nat -> source v (arena pre xs junk post) src ys -> src + N.of_nat (length ys) <> base v ->
  exists junk', assign_range A v (arena pre xs junk post) src (src + N.of_nat (length ys)) = Some (resized v (N.of_nat (length ys)), arena pre ys junk' post)
    /\ assign_n A v (arena pre xs junk post) src (N.of_nat (length ys)) = Some (resized v (N.of_nat (length ys)), arena pre ys junk' post)
    /\ holds (resized v (N.of_nat (length ys))) pre ys junk' post.
Proof.
  intros v pre xs junk post src ys H L [(d & f & E1 & Ld) O] Nb. destruct (replaced v pre xs junk post ys H L) as (old & rest & E & Lo & Hd & X). pose proof H as (H1 & H2 & H3 & H4). exists rest.
  assert (Ap : apart v src && apart v (src + N.of_nat (length ys)) = true) by (unfold apart, view_begin, view_end; lia).
  assert (C : memcpy A (arena pre xs junk post) (base v) src (N.of_nat (length ys)) = Some (arena pre ys rest post)) by (apply (copy_parts _ pre old (rest ++ post) d ys f); try assumption; lia).
  split; [|split; [|exact Hd]].
  - unfold assign_range. rewrite check_true by exact Ap. replace (distance src (src + N.of_nat (length ys))) with (N.of_nat (length ys)) by (unfold distance; rewrite (proj2 (N.leb_le _ _)) by lia; lia). cbv zeta. rewrite check_true by lia. rewrite C. reflexivity.
  - unfold assign_n. rewrite check_true by lia. rewrite check_true by exact Ap. rewrite C. reflexivity.
Qed.
Lemma room_moved : forall v pre a b junk post count, holds v pre (a ++ b) junk post -> (count <= length junk)%nat ->
  exists hole rest, length hole = count /\ (length rest + count = length junk)%nat /\ memmove A (arena pre (a ++ b) junk post) (base v + N.of_nat (length a) + N.of_nat count) (base v + N.of_nat (length a)) (view_end v - (base v + N.of_nat (length a))) = Some (pre ++ a ++ hole ++ b ++ rest ++ post).
Proof.
  intros v pre a b junk post count (H1 & H2 & H3 & H4) L. rewrite app_length in *. destruct (split_at (b ++ junk) count) as [E1 E2]; [rewrite app_length; lia|].
  destruct (split_at (skipn count (b ++ junk)) (length b)) as [E3 E4]; [rewrite skipn_length, app_length; lia|]. set (hole := firstn count (b ++ junk)) in *. set (old := firstn (length b) (skipn count (b ++ junk))) in *. set (rest := skipn (length b) (skipn count (b ++ junk))) in *.
  exists hole, rest. split; [exact E2|]. split; [subst rest; rewrite !skipn_length, app_length; lia|].
  assert (Em : arena pre (a ++ b) junk post = (pre ++ a ++ hole) ++ old ++ (rest ++ post)).
  { unfold arena. rewrite <- !app_assoc. do 2 f_equal. rewrite app_assoc, E1, E3 at 1. rewrite <- !app_assoc. reflexivity. }
  rewrite (move_parts _ (pre ++ a ++ hole) old (rest ++ post) (pre ++ a) b (junk ++ post)); [rewrite <- !app_assoc; reflexivity|exact Em|unfold arena; rewrite <- !app_assoc; reflexivity|rewrite !app_length; lia|rewrite app_length; lia|unfold view_end; lia|unfold view_end; lia].
Qed.
Lemma inside_ok : forall v pre a b junk post, holds v pre (a ++ b) junk post -> inside v (base v + N.of_nat (length a)) = true.
Proof. intros v pre a b junk post (H1 & H2 & H3 & H4). rewrite app_length in *. unfold inside, view_begin, view_end. lia. Qed.
Lemma insert_value_ok : forall v pre a b junk post n r x, holds v pre (a ++ b) junk post -> r = Temp A x \/ (exists i, nth_error (a ++ b) i = Some x /\ r = At A (base v + N.of_nat i)) -> N.of_nat (min n (length junk)) < 2 ^ 31 ->
  exists junk', insert_value A v (arena pre (a ++ b) junk post) (base v + N.of_nat (length a)) (N.of_nat n) r = Some (resized v (N.of_nat (length (a ++ b) + min n (length junk))), arena pre (a ++ repeat x (min n (length junk)) ++ b) junk' post)
    /\ holds (resized v (N.of_nat (length (a ++ b) + min n (length junk)))) pre (a ++ repeat x (min n (length junk)) ++ b) junk' post.
Proof.
  intros v pre a b junk post n r x H R Lim. pose proof H as (H1 & H2 & H3 & H4). unfold insert_value. rewrite check_true by exact (inside_ok _ _ _ _ _ _ H). rewrite (remaining_holds _ _ _ _ _ H). set (k := min n (length junk)) in *. replace (N.min (N.of_nat n) (N.of_nat (length junk))) with (N.of_nat k) by lia. cbv zeta.
  destruct (room_moved v pre a b junk post k H ltac:(lia)) as (hole & rest & Lh & Lr & M).
  assert (Hd : holds (resized v (N.of_nat (length (a ++ b) + k))) pre (a ++ repeat x k ++ b) rest post) by (unfold holds; cbn [resized base sz cap]; rewrite !app_length, repeat_length in *; lia).
  destruct (N.ltb_spec 0 (N.of_nat k)) as [P|P].
  - exists rest. split; [|exact Hd]. assert (D : deref A (arena pre (a ++ b) junk post) r = Some x).
    { destruct R as [-> |(i & Hi & ->)]; [reflexivity|]. cbn [deref]. unfold load, arena. assert (Li : (i < length (a ++ b))%nat) by (apply nth_error_Some; congruence). rewrite nth_error_app2 by lia. rewrite nth_error_app1 by lia. replace (N.to_nat (base v + N.of_nat i) - length pre)%nat with i by lia. exact Hi. }
    rewrite D. cbv beta iota. rewrite M. cbv beta iota. rewrite check_true by lia. rewrite <- Lh, Nnat.Nat2N.id. rewrite (fill_temp hole _ x (pre ++ a) (b ++ rest ++ post)); [|rewrite <- !app_assoc; reflexivity|rewrite app_length; lia].
    rewrite w64_id by (rewrite app_length in *; lia). unfold arena. rewrite <- !app_assoc. do 3 f_equal. lia.
  - exists junk. assert (k = 0%nat) as -> by lia. cbn [repeat app] in *. rewrite Nat.add_0_r in *. replace (resized v (N.of_nat (length (a ++ b)))) with v by (destruct v; unfold resized; cbn in *; f_equal; lia). split; [reflexivity|exact H].
Qed.
Lemma insert_range_ok : forall v pre a b junk post src ys, holds v pre (a ++ b) junk post -> (length ys <= length junk)%nat -> source v (arena pre (a ++ b) junk post) src ys ->
  exists junk', insert_range A v (arena pre (a ++ b) junk post) (base v + N.of_nat (length a)) src (src + N.of_nat (length ys)) = Some (resized v (N.of_nat (length (a ++ ys ++ b))), arena pre (a ++ ys ++ b) junk' post)
    /\ holds (resized v (N.of_nat (length (a ++ ys ++ b)))) pre (a ++ ys ++ b) junk' post.
Proof.
  intros v pre a b junk post src ys H L Sr. pose proof H as (H1 & H2 & H3 & H4). destruct (room_moved v pre a b junk post (length ys) H L) as (hole & rest & Lh & Lr & M).
  unfold insert_range. rewrite check_true by lia. rewrite check_true by exact (inside_ok _ _ _ _ _ _ H). rewrite (remaining_holds _ _ _ _ _ H).
  replace (distance src (src + N.of_nat (length ys))) with (N.of_nat (length ys)) by (unfold distance; rewrite (proj2 (N.leb_le _ _)) by lia; lia). cbv zeta. rewrite check_true by lia.
  assert (Hd : holds (resized v (N.of_nat (length (a ++ ys ++ b)))) pre (a ++ ys ++ b) rest post) by (unfold holds; cbn [resized base sz cap]; rewrite !app_length in *; lia).
  destruct ys as [|y ys].
  - exists junk. cbn [length app N.of_nat]. change ((0 <? 0) && (0 <=? N.of_nat (length junk))) with false. cbv iota. replace (resized v (N.of_nat (length (a ++ b)))) with v by (destruct v; unfold resized; cbn in *; f_equal; lia). split; [reflexivity|exact H].
  - exists rest. split; [|exact Hd]. rewrite (proj2 (N.ltb_lt _ _)) by (cbn [length]; lia). rewrite (proj2 (N.leb_le (N.of_nat (length (y :: ys))) _)) by lia. cbn [andb]. rewrite M. cbv beta iota.
    assert (Sr' : source v (arena pre (a ++ hole ++ b) rest post) src (y :: ys)) by (apply (source_moved v pre (a ++ b) junk post); try assumption; [rewrite !app_length in *; lia|discriminate]).
    destruct Sr' as [(d & f & E & Ld) O]. rewrite (copy_parts _ (pre ++ a) hole (b ++ rest ++ post) d (y :: ys) f); [| |unfold arena in E; rewrite <- E, <- !app_assoc; reflexivity|rewrite app_length; lia|exact Ld|lia|reflexivity|].
    + rewrite w64_id by (rewrite !app_length in *; lia). unfold arena. rewrite <- !app_assoc. do 3 f_equal. rewrite !app_length in *. lia.
    + rewrite <- !app_assoc. reflexivity.
    + right. rewrite !app_length in *. lia.
Qed.
Lemma erase_ok : forall v pre a x b junk post, holds v pre (a ++ x :: b) junk post ->
  exists junk', erase A v (arena pre (a ++ x :: b) junk post) (base v + N.of_nat (length a)) = Some (resized v (N.of_nat (length (a ++ b))), arena pre (a ++ b) junk' post) /\ holds (resized v (N.of_nat (length (a ++ b)))) pre (a ++ b) junk' post.
Proof.
  intros v pre a x b junk post H. pose proof H as (H1 & H2 & H3 & H4). unfold erase. rewrite check_true by exact (inside_ok _ _ _ _ _ _ H). rewrite app_length in *. cbn [length] in *. unfold view_end. rewrite sub64_id by lia. rewrite sub64_id by lia.
  destruct (split_at (x :: b) (length b)) as [E1 E2]; [cbn [length]; lia|]. set (old := firstn (length b) (x :: b)) in *. set (last := skipn (length b) (x :: b)) in *. assert (Ll : length last = 1%nat) by (subst last; rewrite skipn_length; cbn [length]; lia). clearbody old last.
  exists (last ++ junk). rewrite (move_parts _ (pre ++ a) old (last ++ junk ++ post) (pre ++ a ++ [x]) b (junk ++ post)).
  - cbv beta iota. unfold arena. rewrite <- !app_assoc. split; [do 3 f_equal; lia|]. unfold holds. cbn [resized base sz cap]. rewrite !app_length. lia.
  - unfold arena. rewrite E1. rewrite <- !app_assoc. reflexivity.
  - unfold arena. rewrite <- !app_assoc. reflexivity.
  - rewrite app_length. lia.
  - rewrite !app_length. cbn [length]. lia.
  - lia.
  - lia.
Qed.
Lemma erase_range_ok : forall v pre a xs b junk post, holds v pre (a ++ xs ++ b) junk post ->
  exists junk', erase_range A v (arena pre (a ++ xs ++ b) junk post) (base v + N.of_nat (length a)) (base v + N.of_nat (length a) + N.of_nat (length xs)) = Some (resized v (N.of_nat (length (a ++ b))), arena pre (a ++ b) junk' post)
    /\ holds (resized v (N.of_nat (length (a ++ b)))) pre (a ++ b) junk' post.
Proof.
  intros v pre a xs b junk post H. pose proof H as (H1 & H2 & H3 & H4). unfold erase_range. rewrite check_true by lia. unfold view_begin, view_end. rewrite !app_length in *.
  destruct ((base v + N.of_nat (length a) =? base v) && (base v + N.of_nat (length a) + N.of_nat (length xs) =? base v + sz v)) eqn:Q.
  { assert (a = []) as -> by (destruct a; [reflexivity|cbn [length] in *; lia]). assert (b = []) as -> by (destruct b; [reflexivity|cbn [length] in *; lia]). exists (xs ++ junk). cbn [app length Nat.add N.of_nat]. rewrite !app_nil_r in *. unfold clear. split; [unfold arena; cbn [app]; rewrite <- app_assoc; reflexivity|]. unfold holds. cbn [resized base sz cap length]. rewrite app_length. cbn [length] in *. lia. }
  destruct (N.ltb_spec (base v + N.of_nat (length a)) (base v + N.of_nat (length a) + N.of_nat (length xs))) as [P|P].
  - rewrite check_true by lia. rewrite sub64_id by lia. destruct (split_at (xs ++ b) (length b)) as [E1 E2]; [rewrite app_length; lia|]. set (old := firstn (length b) (xs ++ b)) in *. set (last := skipn (length b) (xs ++ b)) in *. assert (Ll : length last = length xs) by (subst last; rewrite skipn_length, app_length; lia). clearbody old last.
    exists (last ++ junk). rewrite (move_parts _ (pre ++ a) old (last ++ junk ++ post) (pre ++ a ++ xs) b (junk ++ post)).
    + cbv beta iota. unfold arena. rewrite <- !app_assoc. split; [do 3 f_equal; lia|]. unfold holds. cbn [resized base sz cap]. rewrite !app_length. lia.
    + unfold arena. rewrite E1. rewrite <- !app_assoc. reflexivity.
    + unfold arena. rewrite <- !app_assoc. reflexivity.
    + rewrite app_length. lia.
    + rewrite !app_length. lia.
    + lia.
    + lia.
  - assert (xs = []) as -> by (destruct xs; [reflexivity|cbn [length] in *; lia]). exists junk. cbn [app length Nat.add] in *. replace (resized v (N.of_nat (length a + length b))) with v by (destruct v; unfold resized; cbn in *; f_equal; lia). split; [reflexivity|exact H].
Qed.
End Proofs.
