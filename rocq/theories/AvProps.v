(** C121-C124: the views of tm_arrayview.h. *)
From Coq Require Import Arith NArith ZArith Lia ZifyBool ZifyNat ZifyN Bool List.
From Verif Require Import Base AvModel AvSpec AvProofs.
Import ListNotations.
Local Open Scope N_scope.

Section Histories.
Variable A : Type.

(** The call for an operation; [src]: where the elements to be copied are. *)
Definition perform (v : view) (m : list A) (o : op A) (src : N) : option (view * list A) :=
  match o with
  | Push _ x => push_back A v m x
  | TryPush _ x => ' (b, v, m) <- try_push_back A v m x ;; Some (v, m)
  | Pop _ => Some (pop_back v, m)
  | TryPop _ => Some (snd (try_pop_back v), m)
  | Clear _ => Some (clear v, m)
  | Shrink _ n => v <- resize v (N.of_nat n) ;; Some (v, m)
  | AssignValue _ n x => assign_value A v m (N.of_nat n) (Temp A x)
  | AssignOwn _ n i => assign_value A v m (N.of_nat n) (At A (base v + N.of_nat i))
  | AssignList _ xs => assign_list A v m xs
  | AssignFrom _ xs => assign_range A v m src (src + N.of_nat (length xs))
  | InsertValue _ k n x => insert_value A v m (base v + N.of_nat k) (N.of_nat n) (Temp A x)
  | InsertOwn _ k n i => insert_value A v m (base v + N.of_nat k) (N.of_nat n) (At A (base v + N.of_nat i))
  | InsertFrom _ k xs => insert_range A v m (base v + N.of_nat k) src (src + N.of_nat (length xs))
  | Erase _ k => erase A v m (base v + N.of_nat k)
  | EraseRange _ k n => erase_range A v m (base v + N.of_nat k) (base v + N.of_nat k + N.of_nat n)
  end.
Definition placed (v : view) (m : list A) (o : op A) (src : N) : Prop :=
  match o with
  | AssignFrom _ xs => source A v m src xs /\ src + N.of_nat (length xs) <> base v
  | InsertFrom _ _ xs => source A v m src xs
  | _ => True
  end.
Definition capacity (v : view) : nat := N.to_nat (cap v).
Definition result (v : view) (m : list A) (ys : list A) (x : option (view * list A)) : Prop :=
  exists v' m', x = Some (v', m') /\ valid A v' m' /\ contents A v' m' = ys /\ frame A v m m' /\ base v' = base v /\ cap v' = cap v.

Lemma holds_result : forall v pre xs junk post ys junk' x n, holds A v pre xs junk post -> x = Some (resized v n, arena A pre ys junk' post) -> holds A (resized v n) pre ys junk' post -> result v (arena A pre xs junk post) ys x.
Proof.
  intros v pre xs junk post ys junk' x n H -> H'. destruct (holds_valid A _ _ _ _ _ H') as [V C]. do 2 eexists. split; [reflexivity|]. split; [exact V|]. split; [exact C|]. split; [|split; reflexivity].
  apply (holds_frame A v pre xs junk post ys junk' H). destruct H as (_ & _ & H & _). destruct H' as (_ & _ & H' & _). cbn [resized cap] in H'. lia.
Qed.
Lemma same_result : forall v pre xs junk post, holds A v pre xs junk post -> forall v', v' = v -> result v (arena A pre xs junk post) xs (Some (v', arena A pre xs junk post)).
Proof. intros v pre xs junk post H v' ->. destruct (holds_valid A _ _ _ _ _ H) as [V C]. do 2 eexists. split; [reflexivity|]. split; [exact V|]. split; [exact C|]. split; [|split; reflexivity]. repeat split. Qed.
Lemma shrink_result : forall v pre xs ys junk post n, holds A v pre (xs ++ ys) junk post -> n = N.of_nat (length xs) -> result v (arena A pre (xs ++ ys) junk post) xs (Some (resized v n, arena A pre (xs ++ ys) junk post)).
Proof. intros v pre xs ys junk post n H ->. destruct (shrunk A v pre xs ys junk post H) as [E H']. eapply holds_result; [exact H|f_equal; f_equal; exact E|exact H']. Qed.

(** Every operation allowed for a bounded sequence has its effect on the view, and only on its memory. *)
Theorem C121_step_partial : forall v m o src ys, valid A v m -> bounded A (capacity v) (contents A v m) o ys -> placed v m o src -> result v m ys (perform v m o src).
Proof.
  intros v m o src ys V B P. destruct (valid_holds A v m V) as (pre & junk & post & E & H). remember (contents A v m) as xs eqn:Ex. clear Ex V. subst m.
  assert (Cv : capacity v = (length xs + length junk)%nat) by (destruct H as (_ & _ & H & _); unfold capacity; lia).
  destruct B as [xs x L|xs x L|xs x L|xs x|xs x| |xs|xs n L|xs n x|xs n i x Hi|xs ys L|xs ys L|a b n x L|a b n i x L Hi|a b ys L|a x b|a xs b]; cbn [perform placed] in *.
  - destruct junk as [|y junk]; [cbn [length] in *; lia|]. destruct (push_ok A v pre xs junk post x y H) as [Q K]. eapply holds_result; [exact H|exact Q|exact K].
  - destruct junk as [|y junk]; [cbn [length] in *; lia|]. destruct (push_ok A v pre xs junk post x y H) as [_ K]. rewrite (try_push_ok A v pre xs junk post x y H). eapply holds_result; [exact H|reflexivity|exact K].
  - assert (junk = []) as -> by (destruct junk; [reflexivity|cbn [length] in *; lia]). rewrite (try_full_ok A v pre xs post x H). apply same_result; [exact H|reflexivity].
  - unfold pop_back. apply shrink_result; [exact H|]. destruct H as (H1 & H2 & H3 & H4). rewrite app_length in *. cbn [length] in *. rewrite sub64_id by lia. lia.
  - unfold try_pop_back. destruct H as (H1 & H2 & H3 & H4) eqn:EH. clear EH. rewrite app_length in *. cbn [length] in *. rewrite (proj2 (N.ltb_lt 0 _)) by lia. cbn [snd]. apply shrink_result; [|lia]. unfold holds. rewrite app_length. cbn [length]. lia.
  - unfold try_pop_back. assert (sz v = 0) as -> by (destruct H as (H1 & H2 & _); cbn [length] in H2; exact H2). cbn [snd]. apply same_result; [exact H|reflexivity].
  - apply (shrink_result v pre [] xs); [exact H|reflexivity].
  - unfold resize. rewrite check_true by (destruct H as (_ & _ & H & _); lia). cbv beta iota.
    pose proof (shrink_result v pre (firstn n xs) (skipn n xs) junk post (N.of_nat n)) as Q. rewrite firstn_skipn in Q. apply Q; [exact H|rewrite firstn_length; lia].
  - rewrite Cv. destruct (assign_value_ok A v pre xs junk post n (Temp A x) x H (or_introl eq_refl)) as (junk' & Q & K). eapply holds_result; [exact H|exact Q|exact K].
  - rewrite Cv. destruct (assign_value_ok A v pre xs junk post n _ x H (or_intror (ex_intro _ i (conj Hi eq_refl)))) as (junk' & Q & K). eapply holds_result; [exact H|exact Q|exact K].
  - destruct (assign_list_ok A v pre xs junk post ys H ltac:(lia)) as (junk' & Q & K). eapply holds_result; [exact H|exact Q|exact K].
  - destruct P as [P1 P2]. destruct (assign_range_ok A v pre xs junk post src ys H ltac:(lia) P1 P2) as (junk' & Q & _ & K). eapply holds_result; [exact H|exact Q|exact K].
  - rewrite Cv in *. replace (length (a ++ b) + length junk - length (a ++ b))%nat with (length junk) in * by lia. destruct (insert_value_ok A v pre a b junk post n (Temp A x) x H (or_introl eq_refl) L) as (junk' & Q & K). eapply holds_result; [exact H|exact Q|exact K].
  - rewrite Cv in *. replace (length (a ++ b) + length junk - length (a ++ b))%nat with (length junk) in * by lia. destruct (insert_value_ok A v pre a b junk post n _ x H (or_intror (ex_intro _ i (conj Hi eq_refl))) L) as (junk' & Q & K). eapply holds_result; [exact H|exact Q|exact K].
  - rewrite Cv, !app_length in L. destruct (insert_range_ok A v pre a b junk post src ys H) as (junk' & Q & K); [rewrite ?app_length in L; lia|exact P|]. eapply holds_result; [exact H|exact Q|exact K].
  - destruct (erase_ok A v pre a x b junk post H) as (junk' & Q & K). eapply holds_result; [exact H|exact Q|exact K].
  - destruct (erase_range_ok A v pre a xs b junk post H) as (junk' & Q & K). eapply holds_result; [exact H|exact Q|exact K].
Qed.

(** Sequences of operations. *)
Fixpoint perform_all (v : view) (m : list A) (os : list (op A * N)) : option (view * list A) :=
  match os with
  | [] => Some (v, m)
  | (o, src) :: os => ' (v, m) <- perform v m o src ;; perform_all v m os
  end.
Inductive bounded_all (c : nat) : list A -> list (op A) -> list A -> Prop :=
| BA_nil xs : bounded_all c xs [] xs
| BA_cons xs o ys os zs : bounded A c xs o ys -> bounded_all c ys os zs -> bounded_all c xs (o :: os) zs.

Lemma frame_trans : forall v v' m m' m'', base v' = base v -> cap v' = cap v -> frame A v m m' -> frame A v' m' m'' -> frame A v m m''.
Proof. intros v v' m m' m'' B C (A1 & A2 & A3) (B1 & B2 & B3). rewrite B, C in *. split; [congruence|]. split; congruence. Qed.
Lemma arena_frame : forall v v' pre xs junk post pre' xs' junk' post', holds A v pre xs junk post -> holds A v' pre' xs' junk' post' -> base v' = base v -> cap v' = cap v ->
  frame A v (arena A pre xs junk post) (arena A pre' xs' junk' post') -> pre' = pre /\ post' = post /\ (length xs' + length junk' = length xs + length junk)%nat.
Proof.
  intros v v' pre xs junk post pre' xs' junk' post' (H1 & H2 & H3 & H4) (K1 & K2 & K3 & K4) Eb Ec (L & F & G). unfold arena in *. rewrite Eb in K1. rewrite Ec in K3.
  assert (Q : forall p a j q : list A, length p = N.to_nat (base v) -> (length a + length j)%nat = N.to_nat (cap v) -> firstn (N.to_nat (base v)) (p ++ a ++ j ++ q) = p /\ skipn (N.to_nat (base v + cap v)) (p ++ a ++ j ++ q) = q).
  { intros p a j q Lp La. split; [rewrite <- Lp, firstn_app, Nat.sub_diag, firstn_all, firstn_O, app_nil_r; reflexivity|]. replace (N.to_nat (base v + cap v)) with (length (p ++ a ++ j)) by (rewrite !app_length; lia). replace (p ++ a ++ j ++ q) with ((p ++ a ++ j) ++ q) by (rewrite <- !app_assoc; reflexivity). rewrite skipn_app, skipn_all, Nat.sub_diag. reflexivity. }
  destruct (Q pre xs junk post) as [Q1 Q2]; [lia|lia|]. destruct (Q pre' xs' junk' post') as [Q3 Q4]; [lia|lia|]. split; [congruence|]. split; [congruence|lia].
Qed.
Lemma placed_frame : forall v v' m m' o src, valid A v m -> valid A v' m' -> base v' = base v -> cap v' = cap v -> frame A v m m' -> placed v m o src -> placed v' m' o src.
Proof.
  intros v v' m m' o src V V' Eb Ec F P.
  assert (G : forall ys, source A v m src ys -> source A v' m' src ys).
  { intros ys Sr. destruct ys as [|y ys].
    - destruct Sr as [(d & f & -> & L) O]. rewrite <- Eb, <- Ec in O. split; [|exact O]. destruct F as (Lm & _). rewrite !app_length in Lm. cbn [length app] in Lm. exists (firstn (length d) m'), (skipn (length d) m'). cbn [app]. rewrite firstn_skipn. split; [reflexivity|]. rewrite firstn_length. lia.
    - destruct (valid_holds A v m V) as (pre & junk & post & E & H). destruct (valid_holds A v' m' V') as (pre' & junk' & post' & E' & H'). rewrite E in F, Sr. rewrite E' in F |- *. destruct (arena_frame _ _ _ _ _ _ _ _ _ _ H H' Eb Ec F) as (-> & -> & L).
      destruct (source_moved A v pre _ junk post _ junk' src (y :: ys) H L ltac:(discriminate) Sr) as [S1 S2]. rewrite <- Eb, <- Ec in S2. split; assumption. }
  destruct o; cbn [placed] in *; auto. destruct P as [P1 P2]. rewrite Eb. split; auto.
Qed.
Theorem C121_history_partial : forall os v m zs, valid A v m -> bounded_all (capacity v) (contents A v m) (map fst os) zs -> Forall (fun os => placed v m (fst os) (snd os)) os -> result v m zs (perform_all v m os).
Proof.
  intros os. induction os as [|[o src] os IH]; intros v m zs V B P; cbn [map fst perform_all] in *.
  - inversion B; subst. do 2 eexists. split; [reflexivity|]. split; [exact V|]. split; [reflexivity|]. split; [repeat split|split; reflexivity].
  - inversion B as [|xs o' ys os' zs' B1 B2]; subst. inversion P as [|? ? P1 P2]; subst. destruct (C121_step_partial v m o src ys V B1 P1) as (v1 & m1 & E & V1 & C1 & F1 & Eb & Ec). rewrite E.
    assert (Cc : capacity v1 = capacity v) by (unfold capacity; rewrite Ec; reflexivity). rewrite <- C1, <- Cc in B2.
    assert (P3 : Forall (fun os => placed v1 m1 (fst os) (snd os)) os) by (eapply Forall_impl; [|exact P2]; intros os' Q; apply (placed_frame v v1 m m1); assumption).
    destruct (IH v1 m1 zs V1 B2 P3) as (v2 & m2 & E2 & V2 & C2 & F2 & Eb2 & Ec2). exists v2, m2. split; [exact E2|]. split; [exact V2|]. split; [exact C2|]. split; [exact (frame_trans v v1 m m1 m2 Eb Ec F1 F2)|]. split; congruence.
Qed.
(** What is read: elements of the sequence. *)
Theorem C121_read : forall v m i x, valid A v m -> at_ A v m i = Some x <-> nth_error (contents A v m) (N.to_nat i) = Some x.
Proof.
  intros v m i x (V1 & V2 & V3). unfold at_, check. destruct (N.ltb_spec i (sz v)) as [L|L].
  - unfold load, contents. rewrite <- (firstn_skipn (N.to_nat (base v)) m) at 1. rewrite nth_error_app2 by (rewrite firstn_length; lia). rewrite firstn_length. replace (N.to_nat (base v + i) - min (N.to_nat (base v)) (length m))%nat with (N.to_nat i) by lia.
    rewrite <- (firstn_skipn (N.to_nat (sz v)) (skipn (N.to_nat (base v)) m)) at 1. rewrite nth_error_app1; [tauto|]. rewrite firstn_length, skipn_length. lia.
  - split; [discriminate|]. intros Q. exfalso. assert (K : (N.to_nat i < length (contents A v m))%nat) by (apply nth_error_Some; congruence). unfold contents in K. rewrite firstn_length in K. lia.
Qed.
Theorem C121_try_push : forall v m x, valid A v m -> option_map (fun r => fst (fst r)) (try_push_back A v m x) = Some (sz v <? cap v).
Proof.
  intros v m x V. destruct (valid_holds A v m V) as (pre & junk & post & E & H). rewrite E. destruct junk as [|y junk].
  - rewrite (try_full_ok A v pre _ post x H). destruct H as (_ & H2 & H3 & _). cbn [length] in H3. cbn [option_map fst]. f_equal. lia.
  - rewrite (try_push_ok A v pre _ junk post x y H). destruct H as (_ & H2 & H3 & _). cbn [length] in H3. cbn [option_map fst]. f_equal. lia.
Qed.
End Histories.

Example C121_example : perform_all N (View 2 0 6) (repeat 0 10 ++ [7; 8; 9]) [(AssignFrom N [7; 8; 9], 10); (InsertOwn N 1 2 2, 0); (Erase N 0, 0); (TryPush N 5, 0); (TryPush N 6, 0); (TryPush N 4, 0); (EraseRange N 1 2, 0); (Pop N, 0)]
  = Some (View 2 3 6, [0; 0; 9; 9; 5; 6; 5; 6; 0; 0; 7; 8; 9]).
Proof. vm_compute. reflexivity. Qed.
Example C121_example_hypotheses : valid N (View 2 0 6) (repeat 0 10 ++ [7; 8; 9]) /\ bounded N 6 (contents N (View 2 0 6) (repeat 0 10 ++ [7; 8; 9])) (AssignFrom N [7; 8; 9]) [7; 8; 9] /\ placed N (View 2 0 6) (repeat 0 10 ++ [7; 8; 9]) (AssignFrom N [7; 8; 9]) 10.
Proof.
  split; [split; [vm_compute; discriminate|split; vm_compute; [discriminate|reflexivity]]|]. split; [apply B_assign_from; cbn; lia|]. split; [|vm_compute; discriminate]. split; [exists (repeat 0 10), []; split; reflexivity|right; vm_compute; discriminate].
Qed.
(** An array that ends where the view begins cannot be assigned. *)
Theorem C121_adjacent_refuted : exists v m src ys, valid N v m /\ bounded N (capacity v) (contents N v m) (AssignFrom N ys) ys /\ source N v m src ys /\ perform N v m (AssignFrom N ys) src = None.
Proof.
  exists (View 2 1 2), [7; 8; 1; 2], 0, [7; 8]. split; [split; [vm_compute; discriminate|split; vm_compute; [discriminate|reflexivity]]|]. split; [apply B_assign_from; vm_compute; lia|]. split; [|vm_compute; reflexivity].
  split; [exists [], [1; 2]; split; reflexivity|left; vm_compute; discriminate].
Qed.
(** More than 2^31-1 values at once: the counter overflows. *)
Theorem C121_counter_refuted : forall A v m p r, inside v p = true -> 2 ^ 31 <= remaining v -> insert_value A v m p (2 ^ 31) r = None.
Proof.
  intros A v m p r I R. unfold insert_value. rewrite I. unfold check at 1. replace (N.min (2 ^ 31) (remaining v)) with (2 ^ 31) by lia. cbv zeta. change (0 <? 2 ^ 31) with true. cbv iota. destruct (deref A m r); [|reflexivity]. destruct (memmove A m _ _ _); [|reflexivity]. reflexivity.
Qed.

(** ** C122 *)
(** Allowed or not: a call of these operations either fails an assertion or leaves a view of the same memory. *)
Inductive guarded (A : Type) : op A -> Prop :=
| G_push x : guarded A (Push A x)
| G_try_push x : guarded A (TryPush A x)
| G_try_pop : guarded A (TryPop A)
| G_clear : guarded A (Clear A)
| G_shrink n : guarded A (Shrink A n)
| G_assign_value n x : guarded A (AssignValue A n x)
| G_assign_list xs : guarded A (AssignList A xs).
Theorem C122_guarded_partial : forall A v m o src, valid A v m -> cap v < 2 ^ 64 - 1 -> guarded A o -> perform A v m o src = None \/ exists v' m', perform A v m o src = Some (v', m') /\ valid A v' m' /\ frame A v m m' /\ base v' = base v /\ cap v' = cap v.
Proof.
  intros A v m o src V Lm G. assert (Done : forall ys, bounded A (capacity v) (contents A v m) o ys -> placed A v m o src -> perform A v m o src = None \/ exists v' m', perform A v m o src = Some (v', m') /\ valid A v' m' /\ frame A v m m' /\ base v' = base v /\ cap v' = cap v).
  { intros ys B P. right. destruct (C121_step_partial A v m o src ys V B P) as (v' & m' & E & V' & _ & F & Eb & Ec). exists v', m'. split; [exact E|]. split; [exact V'|]. split; [exact F|]. split; assumption. }
  pose proof V as (V1 & V2 & V3). assert (Lc : length (contents A v m) = N.to_nat (sz v)) by (unfold contents; rewrite firstn_length, skipn_length; lia).
  destruct G as [x|x| | |n|n x|xs].
  - destruct (N.ltb_spec (sz v) (cap v)) as [L|L]; [eapply Done; [apply B_push; unfold capacity; lia|exact I]|]. left. cbn [perform]. unfold push_back, check. rewrite w64_id by lia. rewrite (proj2 (N.leb_gt _ _)) by lia. reflexivity.
  - destruct (N.ltb_spec (sz v) (cap v)) as [L|L]; eapply Done; [apply B_try_push; unfold capacity; lia|exact I|apply B_try_full; unfold capacity; lia|exact I].
  - destruct (contents A v m) as [|y ys _] using rev_ind; [apply (Done []); [constructor|exact I]|]. eapply Done; [apply B_try_pop|exact I].
  - eapply Done; [apply B_clear|exact I].
  - destruct (N.leb_spec (N.of_nat n) (cap v)) as [L|L].
    + right. cbn [perform]. unfold resize, check. rewrite (proj2 (N.leb_le _ _)) by lia. do 2 eexists. split; [reflexivity|]. split; [|repeat split]. unfold valid. cbn [resized base sz cap]. lia.
    + left. cbn [perform]. unfold resize, check. rewrite (proj2 (N.leb_gt _ _)) by lia. reflexivity.
  - eapply Done; [apply B_assign_value|exact I].
  - destruct (N.leb_spec (N.of_nat (length xs)) (cap v)) as [L|L]; [eapply Done; [apply B_assign_list; unfold capacity; lia|exact I]|]. left. cbn [perform]. unfold assign_list, check. rewrite (proj2 (N.leb_gt _ _)) by lia. reflexivity.
Qed.
Example C122_example : perform N (View 0 2 2) [1; 2; 3] (Push N 9) 0 = None /\ perform N (View 0 1 2) [1; 2; 3] (Push N 9) 0 = Some (View 0 2 2, [1; 9; 3]).
Proof. split; vm_compute; reflexivity. Qed.
(** The last element of an empty view can be removed: its size is then 2^64-1. *)
Theorem C122_pop_refuted : exists v, sz v <= cap v /\ sz (pop_back v) = 2 ^ 64 - 1 /\ cap (pop_back v) = 4.
Proof. exists (View 0 0 4). repeat split; vm_compute; reflexivity || discriminate. Qed.
(** Growing by a large number shrinks. *)
Theorem C122_grow_refuted : exists v n v', grow v n = Some v' /\ sz v' < sz v.
Proof. exists (View 0 2 4), (2 ^ 64 - 1), (View 0 1 4). split; vm_compute; reflexivity. Qed.
(** The assertion of erase accepts the end; 2^64-1 elements are moved. *)
Theorem C122_erase_refuted : forall A v m, valid A v m -> N.of_nat (length m) < 2 ^ 64 -> inside v (view_end v) = true /\ erase A v m (view_end v) = None.
Proof.
  intros A v m (V1 & V2 & V3) L. split; [unfold inside, view_begin, view_end; lia|]. unfold erase. rewrite check_true by (unfold inside, view_begin, view_end; lia). rewrite N.sub_diag. change (sub64 0 1) with (2 ^ 64 - 1). unfold memmove.
  assert ((view_end v + (2 ^ 64 - 1) <=? N.of_nat (length m)) && (view_end v + 1 + (2 ^ 64 - 1) <=? N.of_nat (length m)) = false) as -> by lia. reflexivity.
Qed.
(** A source that contains the view passes the assertions of assign; the ranges overlap. *)
Theorem C122_assign_refuted : exists v m first last, valid N v m /\ last <= N.of_nat (length m) /\ apart v first && apart v last = true /\ distance first last <= cap v /\ assign_range N v m first last = None.
Proof. exists (View 1 1 3), [1; 2; 3; 4], 0, 3. split; [split; [vm_compute; discriminate|split; vm_compute; [discriminate|reflexivity]]|]. repeat split; vm_compute; reflexivity || discriminate. Qed.
(** Elements of the view itself: the wrong ones are inserted. *)
Theorem C122_insert_own_range_refuted : insert_range N (View 0 3 6) [1; 2; 3; 0; 0; 0] 0 1 2 = Some (View 0 4 6, [1; 1; 2; 3; 0; 0]).
Proof. vm_compute. reflexivity. Qed.

(** ** C123 *)
(** The elements from [start] to [end]. *)
Definition part_of (A : Type) (l : list A) (r : N * N) : list A := firstn (N.to_nat (snd r)) (skipn (N.to_nat (fst r)) l).
Theorem C123_from : forall (A : Type) (l : list A) start, N.of_nat (length l) < 2 ^ 64 -> part_of A l (range_from (N.of_nat (length l)) start) = skipn (N.to_nat start) l.
Proof.
  intros A l start L. unfold range_from, part_of. destruct (N.leb_spec (N.of_nat (length l)) start) as [H|H]; cbv zeta; rewrite sub64_id by lia; cbn [fst snd].
  - rewrite !skipn_all2 by lia. apply firstn_nil.
  - apply firstn_all2. rewrite skipn_length. lia.
Qed.
Theorem C123_range : forall (A : Type) (l : list A) start end_, N.of_nat (length l) < 2 ^ 64 -> start <= end_ \/ N.of_nat (length l) <= end_ ->
  exists r, range_view (N.of_nat (length l)) start end_ = Some r /\ part_of A l r = skipn (N.to_nat start) (firstn (N.to_nat end_) l) /\ fst r + snd r <= N.of_nat (length l).
Proof.
  intros A l start end_ L H. unfold range_view, part_of, check. set (s := if N.of_nat (length l) <=? start then N.of_nat (length l) else start). set (e := if N.of_nat (length l) <=? end_ then N.of_nat (length l) else end_). cbv zeta.
  assert (Hs : s = N.min (N.of_nat (length l)) start) by (subst s; destruct (N.leb_spec (N.of_nat (length l)) start); lia). assert (He : e = N.min (N.of_nat (length l)) end_) by (subst e; destruct (N.leb_spec (N.of_nat (length l)) end_); lia). clearbody s e.
  rewrite (proj2 (N.leb_le s e)) by lia. eexists. split; [reflexivity|]. cbn [fst snd]. rewrite sub64_id by lia. split; [|lia].
  replace (N.to_nat (e - s)) with (N.to_nat e - N.to_nat s)%nat by lia. rewrite <- skipn_firstn_comm.
  assert (firstn (N.to_nat e) l = firstn (N.to_nat end_) l) as ->. { destruct (N.le_gt_cases (N.of_nat (length l)) end_); [rewrite !firstn_all2 by lia; reflexivity|f_equal; lia]. }
  destruct (N.le_gt_cases (N.of_nat (length l)) start) as [Q|Q]; [|f_equal; lia]. rewrite !skipn_all2; [reflexivity| |]; rewrite firstn_length; lia.
Qed.
Example C123_example : part_of N [1; 2; 3; 4] (range_from 4 2) = [3; 4] /\ range_view 4 1 9 = Some (1, 3) /\ range_view 4 9 5 = Some (4, 0) /\ range_view 4 3 2 = None.
Proof. repeat split; vm_compute; reflexivity. Qed.

(** ** C124 *)
(** A grid that fits into memory: cells and indices correspond to each other. *)
Theorem C124_index : forall g x y, width g * height g < 2 ^ 64 -> x < width g -> y < height g ->
  grid_at g x y = Some (grid_index g x y) /\ grid_index g x y < grid_size g /\ grid_query g x y = Some (grid_index g x y) /\ grid_coordinates g (grid_index g x y) = Some (x, y).
Proof.
  intros g x y S Hx Hy. assert (M : y * width g + x < width g * height g) by nia. assert (M' : y * width g < width g * height g) by lia.
  assert (I : grid_index g x y = x + y * width g) by (unfold grid_index; rewrite (w64_id (y * width g)) by lia; rewrite w64_id by lia; reflexivity). assert (Z : grid_size g = width g * height g) by (apply w64_id, S).
  unfold grid_at, grid_query, grid_coordinates, in_bounds. rewrite (proj2 (N.ltb_lt x _) Hx), (proj2 (N.ltb_lt y _) Hy). cbn [andb check]. rewrite (w64_id (y * width g)) by lia. cbv zeta. rewrite I, Z. rewrite (proj2 (N.ltb_lt (x + y * width g) _)) by lia. cbn [check].
  split; [reflexivity|]. split; [lia|]. split; [reflexivity|]. f_equal. f_equal; [rewrite N.mod_add by lia; apply N.mod_small, Hx|rewrite N.div_add by lia; rewrite (N.div_small _ _ Hx); lia].
Qed.
Theorem C124_coordinates : forall g i x y, width g * height g < 2 ^ 64 -> grid_coordinates g i = Some (x, y) -> x < width g /\ y < height g /\ grid_index g x y = i.
Proof.
  intros g i x y S H. unfold grid_coordinates, check in H. rewrite (w64_id _ S : grid_size g = _) in H. destruct (N.ltb_spec i (width g * height g)) as [L|L]; [|discriminate]. assert (x = i mod width g /\ y = i / width g) as [-> ->] by (split; congruence).
  assert (W : width g <> 0) by (intros Q; rewrite Q in L; lia). assert (X : i mod width g < width g) by (apply N.mod_lt, W). assert (Y : i / width g < height g) by (apply N.div_lt_upper_bound; [exact W|exact L]). split; [exact X|]. split; [exact Y|].
  destruct (C124_index g (i mod width g) (i / width g) S X Y) as (_ & B & _). assert (M : i / width g * width g + i mod width g = i) by (rewrite (N.mul_comm (i / width g)); symmetry; apply N.div_mod, W). unfold grid_index. rewrite (w64_id (i / width g * width g)) by lia. rewrite w64_id by lia. lia.
Qed.
Theorem C124_outside : forall g x y, ~ (x < width g /\ y < height g) -> grid_at g x y = None /\ grid_query g x y = None.
Proof. intros g x y H. unfold grid_at, grid_query, in_bounds. assert ((x <? width g) && (y <? height g) = false) as -> by lia. split; reflexivity. Qed.
Example C124_example : grid_index (Grid 5 3) 4 2 = 14 /\ grid_coordinates (Grid 5 3) 14 = Some (4, 2) /\ grid_query (Grid 5 3) 5 0 = None.
Proof. repeat split; vm_compute; reflexivity. Qed.

Print Assumptions C121_step_partial.
Print Assumptions C121_history_partial.
Print Assumptions C121_read.
Print Assumptions C121_try_push.
Print Assumptions C121_adjacent_refuted.
Print Assumptions C121_counter_refuted.
Print Assumptions C122_guarded_partial.
Print Assumptions C122_pop_refuted.
Print Assumptions C122_grow_refuted.
Print Assumptions C122_erase_refuted.
Print Assumptions C122_assign_refuted.
Print Assumptions C122_insert_own_range_refuted.
Print Assumptions C123_from.
Print Assumptions C123_range.
Print Assumptions C124_index.
Print Assumptions C124_coordinates.
Print Assumptions C124_outside.
