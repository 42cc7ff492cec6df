(** Properties of small_vector (tm_small_vector.h). *)
From Coq Require Import Arith NArith ZArith List Bool Lia ZifyBool ZifyNat.
From Verif Require Import Base SvModel SvSpec SvCells SvProofs SvInsert SvAssign SvWhole SvHist.
Import ListNotations.

(** What data() and size() show. *)
Definition contents {A} (v : vec A) : option (list (elt A)) := read_all (stor v) 0 (sz v).
(** The capacity is that of the storage. *)
Definition truthful {A} (v : vec A) : Prop := cap v = length (stor v).
(** Exactly the first size() slots of the storage hold objects, and the inline buffer holds none when it is not in use. *)
Definition lifetimes {A} (v : vec A) : Prop :=
  (forall i, nth i (stor v) Dead <> Dead <-> i < sz v) /\ (ptr v <> Inline -> forall i, nth i (inl v) Dead = Dead).
(** The number of blocks of the allocator in use by the vector. *)
Definition uses {A} (v : vec A) : Z := match ptr v with Heap => 1 | _ => 0 end.

Section Facts.
  Context {A : Type}.
  Variables triv alloc : bool.
  Variable esize : N.

  Lemma inv_contents : forall (v : vec A) xs, inv triv alloc v xs -> contents v = Some xs.
  Proof. intros v xs I. exact (read_whole triv alloc v xs I). Qed.
  Lemma inv_lifetimes : forall (v : vec A) xs, triv = false -> inv triv alloc v xs -> lifetimes v.
  Proof.
    intros v xs T I. split; [|exact (v_inl _ _ _ _ I T)]. intros i. split; intros H.
    - destruct (Nat.lt_ge_cases i (sz v)) as [G|G]; [exact G|]. elim H. rewrite (v_sz _ _ _ _ I) in G. destruct (v_holds _ _ _ _ I) as (_ & _ & H3). now apply (H3 T).
    - exact (inv_live triv alloc v xs i I H).
  Qed.
  Lemma reached : forall n w ops, (1 <= esize)%N -> permitted triv alloc esize w (new_vec (A:=A) n) [] ops ->
    exists oks v w', run triv alloc esize w (new_vec n) ops = Some (oks, v, w') /\ length oks = length ops /\ inv triv alloc v (meanings triv [] ops oks) /\
      (blocks w' - uses v = blocks w)%Z /\ length (inl v) = n.
  Proof.
    intros n w ops He P. destruct (new_vec_ok (A:=A) triv alloc n) as (In & Cn & Ln & Pn & _).
    destruct (run_ok triv alloc esize He ops w (new_vec n) [] In P) as (oks & v & w' & E & L & I & B & Li).
    exists oks, v, w'. split; [exact E|]. split; [exact L|]. split; [exact I|]. split; [|congruence]. unfold balanced in B. change (uses v) with (owned v).
    replace (owned (new_vec (A:=A) n)) with 0%Z in B by (unfold owned; destruct (ptr (new_vec n)); congruence). lia.
  Qed.
End Facts.

Ltac conj := repeat match goal with |- _ /\ _ => split end; [> (vm_compute; reflexivity) ..].

(** ** C56 *)
Theorem C56_histories_partial : forall A triv alloc esize n w (ops : list (op A)), (1 <= esize)%N ->
  permitted triv alloc esize w (new_vec n) [] ops ->
  exists oks v w', run triv alloc esize w (new_vec n) ops = Some (oks, v, w') /\ length oks = length ops /\ contents v = Some (meanings triv [] ops oks) /\ truthful v.
Proof.
  intros A triv alloc esize n w ops He P. destruct (reached triv alloc esize n w ops He P) as (oks & v & w' & E & L & I & _ & _).
  exists oks, v, w'. split; [exact E|]. split; [exact L|]. split; [now apply (inv_contents triv alloc)|exact (v_cap _ _ _ _ I)].
Qed.
(** An operation succeeds when the capacity suffices or the allocator grants the next request. *)
Theorem C56_success_partial : forall A triv alloc esize n w (ops : list (op A)) o oks v w', (1 <= esize)%N ->
  permitted triv alloc esize w (new_vec n) [] ops -> run triv alloc esize w (new_vec n) ops = Some (oks, v, w') ->
  allowed triv esize v (meanings triv [] ops oks) o ->
  alloc = true /\ hd_error (oracle w') = Some true \/ required triv (meanings triv [] ops oks) o <= cap v /\ null v = false ->
  exists v2 w2, step triv alloc esize w' v o = Some (true, v2, w2) /\ contents v2 = Some (meaning triv (meanings triv [] ops oks) o true).
Proof.
  intros A triv alloc esize n w ops o oks v w' He P R Al H. destruct (reached triv alloc esize n w ops He P) as (oks' & v' & w1 & E & _ & I & _ & _).
  assert (oks' = oks /\ v' = v /\ w1 = w') as (-> & -> & ->) by (repeat split; congruence).
  destruct (step_ok triv alloc esize He w' v _ o I Al) as (ok & v2 & w2 & E2 & I2 & _ & _ & G1 & G2).
  assert (ok = true) as -> by (destruct H as [[H1 H2]|[H1 H2]]; auto). exists v2, w2. split; [exact E2|now apply (inv_contents triv alloc)].
Qed.

Definition grants (k : nat) : world := World (repeat true k) 0.
Example C56_ops : list (op nat) :=
  [PushBack (Ext 1); PushBack (Ext 2); PushBack (Own 0); InsertRange 1 [7; 8]; Erase 0 1; Resize 6 (Ext 9); InsertMove 0 (Own 3); Insert 2 (Own 1); PopBack].
Definition shown {A} (r : option (list bool * vec A * world)) : option (list bool * option (list (elt A)) * nat * Z) :=
  match r with Some (oks, v, w) => Some (oks, contents v, cap v, blocks w) | None => None end.
Example C56_histories_case : shown (run false true 8 (grants 2) (new_vec 2) C56_ops) =
  Some ([true; true; true; true; true; true; true; false; true], Some [Val 1; Val 7; Val 8; Val 2; Moved; Val 9], 7, 1%Z).
Proof. vm_compute. reflexivity. Qed.
Ltac permit :=
  repeat first [exact I
    | match goal with
      | |- permitted _ _ _ _ _ _ (_ :: _) => split; [|intros ? ? ? Estep; vm_compute in Estep; injection Estep as <- <- <-]
      | |- permitted _ _ _ _ _ _ [] => exact I
      | |- allowed _ _ _ _ _ => split; [vm_compute; reflexivity|cbn; repeat split; try discriminate; try lia; auto]
      end].
Example C56_histories_allowed : permitted false true 8 (grants 2) (new_vec 2) [] C56_ops.
Proof. unfold C56_ops. permit. Qed.

(** A failing assignment loses the contents. *)
Theorem C56_failed_assign_refuted : exists (v v' : vec nat) w', run true true 8 (grants 0) (new_vec 2) [PushBack (Ext 1); PushBack (Ext 2)] = Some ([true; true], v, grants 0) /\
  step true true 8 (grants 0) v (AssignN 3 (Ext 5)) = Some (false, v', w') /\ contents v = Some [Val 1; Val 2] /\ contents v' = Some [] /\ cap v' = 0.
Proof. eexists _, _, _. conj. Qed.
(** Inserting no elements in front of others moves each of these onto itself. *)
Theorem C56_insert_nothing_refuted : exists (v v' : vec nat) w', run false true 8 (grants 0) (new_vec 2) [PushBack (Ext 1); PushBack (Ext 2)] = Some ([true; true], v, grants 0) /\
  step false true 8 (grants 0) v (InsertN 0 0 (Ext 5)) = Some (true, v', w') /\ contents v = Some [Val 1; Val 2] /\ contents v' = Some [Moved; Moved].
Proof. eexists _, _, _. conj. Qed.
(** Assigning no elements to a vector without storage fails an assertion, and so does inserting an empty range of null pointers. *)
Theorem C56_assign_nothing_refuted : step true true 8 (grants 9) (new_vec 0) (AssignN 0 (Ext 5)) = None.
Proof. vm_compute. reflexivity. Qed.
Theorem C56_insert_null_range_refuted : insert_range true true 8 (grants 9) (new_vec (A:=nat) 0) 0 true [] = None.
Proof. vm_compute. reflexivity. Qed.
(** emplace with an element of the vector as argument: after a reallocation it is gone, otherwise it has been moved. *)
Theorem C56_emplace_own_refuted :
  (exists (v : vec nat) w, run true true 8 (grants 9) (new_vec 1) [PushBack (Ext 1)] = Some ([true], v, w) /\ emplace_back true true 8 w v (Own 0) = None) /\
  (exists (v v' : vec nat) w w', run false true 8 (grants 9) (new_vec 3) [PushBack (Ext 1); PushBack (Ext 2)] = Some ([true; true], v, w) /\
     emplace false true 8 w v 0 (Own 1) = Some (true, v', w') /\ contents v' = Some [Val 1; Val 1; Val 2]).
Proof. split; eexists _, _; [|eexists _, _]; conj. Qed.
(** A failing push_back of a moved element leaves the element moved from. *)
Theorem C56_failed_move_refuted : exists (v v' : vec nat) w', run false true 8 (grants 0) (new_vec 2) [PushBack (Ext 1); PushBack (Ext 2)] = Some ([true; true], v, grants 0) /\
  step false true 8 (grants 0) v (PushBackMove (Own 0)) = Some (false, v', w') /\ contents v' = Some [Moved; Val 2].
Proof. eexists _, _, _. conj. Qed.

(** ** C57 *)
Theorem C57_lifetimes_partial : forall A alloc esize n w (ops : list (op A)), (1 <= esize)%N ->
  permitted false alloc esize w (new_vec n) [] ops ->
  exists oks v w', run false alloc esize w (new_vec n) ops = Some (oks, v, w') /\ lifetimes v /\ (blocks w' - uses v = blocks w)%Z /\
    exists v'' w'', destroy false alloc w' v = Some (v'', w'') /\ blocks w'' = blocks w /\ (forall i, nth i (stor v'') Dead = Dead) /\ (forall i, nth i (inl v'') Dead = Dead).
Proof.
  intros A alloc esize n w ops He P. destruct (reached false alloc esize n w ops He P) as (oks & v & w' & E & L & I & B & _).
  exists oks, v, w'. split; [exact E|]. split; [now apply (inv_lifetimes false alloc v (meanings false [] ops oks))|]. split; [exact B|].
  destruct (destroy_ok false alloc w' v _ I) as (v2 & w2 & E2 & I2 & B2 & _ & _ & P2 & _). exists v2, w2. split; [exact E2|].
  split; [|split].
  - unfold balanced in B2. change (owned v) with (uses v) in B2. replace (owned v2) with 0%Z in B2 by (unfold owned; destruct (ptr v2); congruence). lia.
  - intros i. pose proof (v_holds _ _ _ _ I2) as (_ & _ & H). apply (H eq_refl). cbn. lia.
  - intros i. exact (inl_dead false alloc v2 I2 eq_refl i).
Qed.
Example C57_case : exists v w, run false true 8 (grants 9) (new_vec 2) C56_ops = Some (repeat true 9, v, w) /\ ptr v = Heap /\ sz v = 7 /\ cap v = 11 /\
  map (fun s => match s with Dead => false | Live _ => true end) (stor v) = repeat true 7 ++ repeat false 4 /\ blocks w = 1%Z.
Proof. eexists _, _. conj. Qed.
(** shrink_to_fit destroys every element twice. *)
Theorem C57_shrink_to_fit_refuted : exists v w, run false true 8 (grants 9) (new_vec 2) [PushBack (Ext 1); PushBack (Ext 2); PushBack (Ext 3)] = Some ([true; true; true], v, w) /\
  contents v = Some [Val 1; Val 2; Val 3] /\ shrink_to_fit false true 8 w v = None.
Proof. eexists _, _. conj. Qed.

(** ** C58 *)
Theorem C58_reserve_partial : forall A triv alloc esize n w (ops : list (op A)) oks v w' c v2 w2, (1 <= esize)%N ->
  permitted triv alloc esize w (new_vec n) [] ops -> run triv alloc esize w (new_vec n) ops = Some (oks, v, w') ->
  (esize * N.of_nat (2 * cap v + c + 1) < 2 ^ 63)%N ->
  reserve triv alloc esize w' v c = Some (true, v2, w2) ->
  c <= cap v \/ cap v < sz v + (c - cap v) -> c <= cap v2 /\ truthful v2 /\ contents v2 = contents v.
Proof.
  intros A triv alloc esize n w ops oks v w' c v2 w2 He P R F E H. destruct (reached triv alloc esize n w ops He P) as (oks' & v' & w1 & E' & _ & I & _ & _).
  assert (oks' = oks /\ v' = v /\ w1 = w') as (-> & -> & ->) by (repeat split; congruence).
  destruct (reserve_ok triv alloc esize He w' v _ c I F) as ((ok & v3 & w3 & E3 & I3 & _) & G). rewrite E in E3. assert (v3 = v2) as -> by congruence.
  split; [|split; [exact (v_cap _ _ _ _ I3)|now rewrite (inv_contents triv alloc _ _ I3), (inv_contents triv alloc _ _ I)]].
  destruct (Nat.le_gt_cases c (cap v)) as [Q0|Q0].
  - unfold reserve in E. destruct (Nat.leb_spec c (cap v)); [|lia]. congruence.
  - destruct (G true v2 w2 E eq_refl) as [Q|[Q|Q]]; [lia|lia|exact Q].
Qed.
Example C58_case : exists v w v2 w2, run true true 8 (grants 9) (new_vec 2) [PushBack (Ext 1); PushBack (Ext 2); PushBack (Ext 3)] = Some ([true; true; true], v, w) /\
  cap v = 4 /\ cap v < sz v + (7 - cap v) /\ reserve true true 8 w v 7 = Some (true, v2, w2) /\ cap v2 = 7.
Proof. eexists _, _, _, _. split; [vm_compute; reflexivity|]. split; [reflexivity|]. split; [apply Nat.ltb_lt; vm_compute; reflexivity|]. split; [vm_compute; reflexivity|]; vm_compute; reflexivity. Qed.
(** With unused capacity the request is answered with true and ignored. *)
Theorem C58_reserve_refuted : exists v w v2 w2, run true true 8 (grants 9) (new_vec 0) [Reserve 10; PushBack (Ext 1)] = Some ([true; true], v, w) /\
  cap v = 10 /\ reserve true true 8 w v 15 = Some (true, v2, w2) /\ cap v2 = 10.
Proof. eexists _, _, _, _. conj. Qed.
(** The byte count wraps: reserve(2^61) of 8 byte elements allocates nothing and reports the capacity. *)
Theorem C58_reserve_wrap_refuted : exists c (v : vec nat) w, N.of_nat c = (2 ^ 61)%N /\ reserve true true 8 (grants 1) (new_vec 0) c = Some (true, v, w) /\ cap v = c /\ stor v = [].
Proof.
  assert (H : forall c, N.of_nat c = (2 ^ 61)%N -> exists (v : vec nat) w, reserve true true 8 (grants 1) (new_vec 0) c = Some (true, v, w) /\ cap v = c /\ stor v = []).
  { intros c Hc. unfold reserve. change (cap (new_vec (A:=nat) 0)) with 0. destruct (Nat.leb_spec c 0); [exfalso; assert (N.of_nat c = 0%N) by lia; rewrite Hc in *; discriminate|].
    rewrite Nat.sub_0_r. unfold grow_by, in_range. change (sz (new_vec (A:=nat) 0) + c) with c. rewrite Hc. change ((2 ^ 61 <=? max_count)%N) with true. cbn [assert_ negb].
    unfold become_new, in_range, fresh_slots. rewrite Hc. change ((2 ^ 61 <=? max_count)%N) with true.
    change (null (new_vec (A:=nat) 0)) with true. change (sz (new_vec (A:=nat) 0)) with 0. change (cap (new_vec (A:=nat) 0)) with 0. cbn [Nat.eqb andb assert_].
    change (ask (grants 1)) with (true, World [] 0). cbn [assert_]. eexists _, _. split; [reflexivity|]. split; [reflexivity|]. vm_compute. reflexivity. }
  destruct (H (N.to_nat (2 ^ 61)) (N2Nat.id _)) as (v & w & R). exists (N.to_nat (2 ^ 61)), v, w. split; [apply N2Nat.id|exact R].
Qed.

(** ** C59 *)
Section Two.
  Context {A : Type}.
  Variables triv alloc : bool.
  Variable esize : N.
  (** Two vectors and what happened to them. *)
  Definition two (n m : nat) (w : world) (opsa opsb : list (op A)) (a b : vec A) (w' : world) (xs ys : list (elt A)) : Prop :=
    (1 <= esize)%N /\ exists oksa oksb w1,
      permitted triv alloc esize w (new_vec n) [] opsa /\ run triv alloc esize w (new_vec n) opsa = Some (oksa, a, w1) /\ xs = meanings triv [] opsa oksa /\
      permitted triv alloc esize w1 (new_vec m) [] opsb /\ run triv alloc esize w1 (new_vec m) opsb = Some (oksb, b, w') /\ ys = meanings triv [] opsb oksb.
  Lemma two_inv : forall n m w opsa opsb a b w' xs ys, two n m w opsa opsb a b w' xs ys ->
    inv triv alloc a xs /\ inv triv alloc b ys /\ (blocks w' - uses a - uses b = blocks w)%Z /\ length (inl a) = n /\ length (inl b) = m.
  Proof.
    intros n m w opsa opsb a b w' xs ys (He & oksa & oksb & w1 & Pa & Ra & -> & Pb & Rb & ->).
    destruct (reached triv alloc esize n w opsa He Pa) as (o1 & v1 & w1' & E1 & _ & I1 & B1 & L1). assert (o1 = oksa /\ v1 = a /\ w1' = w1) as (-> & -> & ->) by (repeat split; congruence).
    destruct (reached triv alloc esize m w1 opsb He Pb) as (o2 & v2 & w2' & E2 & _ & I2 & B2 & L2). assert (o2 = oksb /\ v2 = b /\ w2' = w') as (-> & -> & ->) by (repeat split; congruence).
    split; [exact I1|]. split; [exact I2|]. split; [lia|auto].
  Qed.
End Two.

Theorem C59_swap_heap_partial : forall A triv alloc esize n m w (opsa opsb : list (op A)) a b w' xs ys,
  two triv alloc esize n m w opsa opsb a b w' xs ys -> is_sbo a = false -> is_sbo b = false ->
  exists a' b', swap triv alloc esize w' a b = Some (true, a', b', w') /\ contents a' = Some ys /\ contents b' = Some xs /\ truthful a' /\ truthful b' /\ (uses a' + uses b' = uses a + uses b)%Z.
Proof.
  intros A triv alloc esize n m w opsa opsb a b w' xs ys H Sa Sb. destruct (two_inv triv alloc esize _ _ _ _ _ _ _ _ _ _ H) as (Ia & Ib & _).
  destruct (swap_heap_ok triv alloc esize w' a xs b ys Ia Ib) as (a' & b' & E & Ia' & Ib' & U).
  - intros Q. rewrite (v_sbo _ _ _ _ Ia), Q in Sa. discriminate.
  - intros Q. rewrite (v_sbo _ _ _ _ Ib), Q in Sb. discriminate.
  - exists a', b'. split; [exact E|]. split; [now apply (inv_contents triv alloc)|]. split; [now apply (inv_contents triv alloc)|]. split; [exact (v_cap _ _ _ _ Ia')|]. split; [exact (v_cap _ _ _ _ Ib')|exact U].
Qed.
Theorem C59_swap_inline_partial : forall A triv alloc esize n m w (opsa opsb : list (op A)) a b w' xs ys,
  two triv alloc esize n m w opsa opsb a b w' xs ys -> is_sbo a = true \/ is_sbo b = true -> cap a = cap b -> 1 <= cap a ->
  exists a' b', swap triv alloc esize w' a b = Some (true, a', b', w') /\ contents a' = Some ys /\ contents b' = Some xs /\ truthful a' /\ truthful b' /\ uses a' = uses a /\ uses b' = uses b.
Proof.
  intros A triv alloc esize n m w opsa opsb a b w' xs ys H Hs Hc H1. destruct (two_inv triv alloc esize _ _ _ _ _ _ _ _ _ _ H) as (Ia & Ib & _).
  destruct (swap_inline_ok triv alloc esize w' a xs b ys Ia Ib) as (a' & b' & E & Ia' & Ib' & U1 & U2); [|exact H1|exact Hc|].
  - rewrite (v_sbo _ _ _ _ Ia), (v_sbo _ _ _ _ Ib) in Hs. destruct Hs as [Hs|Hs]; [left|right]; [destruct (ptr a)|destruct (ptr b)]; congruence.
  - exists a', b'. split; [exact E|]. split; [now apply (inv_contents triv alloc)|]. split; [now apply (inv_contents triv alloc)|]. split; [exact (v_cap _ _ _ _ Ia')|]. split; [exact (v_cap _ _ _ _ Ib')|auto].
Qed.
Example C59_case : exists a b w', two false true 8 3 3 (grants 5) [PushBack (Ext 1)] [PushBack (Ext 4); PushBack (Ext 5); PushBack (Ext 6)] a b w' [Val 1] [Val 4; Val 5; Val 6] /\
  is_sbo a = true /\ is_sbo b = true /\ cap a = cap b.
Proof.
  eexists _, _, _. split; [split; [lia|]; eexists _, _, _; split; [permit|]; split; [vm_compute; reflexivity|]; split; [reflexivity|]; split; [permit|]; split; [vm_compute; reflexivity|vm_compute; reflexivity]|]. auto.
Qed.
(** One vector inline: the capacities are exchanged but the storages are not; the next push_back leaves the storage. *)
Theorem C59_swap_refuted : exists a b w' a' b' w'',
  two true true 8 2 2 (grants 9) [PushBack (Ext 1)] [Reserve 6; PushBack (Ext 4); PushBack (Ext 5)] a b w' [Val 1] [Val 4; Val 5] /\
  swap true true 8 w' a b = Some (true, a', b', w'') /\ contents a' = Some [Val 4; Val 5] /\ cap a' = 6 /\ length (stor a') = 2 /\ push_back true true 8 w'' a' (Ext 9) = None.
Proof.
  eexists _, _, _, _, _, _. split; [split; [lia|]; eexists _, _, _; split; [permit|]; split; [vm_compute; reflexivity|]; split; [reflexivity|]; split; [permit|]; split; [vm_compute; reflexivity|vm_compute; reflexivity]|].
  conj.
Qed.
(** The reservation that swap relies on can be ignored (see C58): it then writes outside of the storage. *)
Theorem C59_swap_overflow_refuted : exists a b w',
  two true true 8 8 2 (grants 9) [] [Resize 10 (Ext 7)] a b w' [] (repeat (Val 7) 10) /\ swap true true 8 w' a b = None.
Proof.
  eexists _, _, _. split; [split; [lia|]; eexists _, _, _; split; [permit|]; split; [vm_compute; reflexivity|]; split; [reflexivity|]; split; [permit|]; split; [vm_compute; reflexivity|vm_compute; reflexivity]|].
  vm_compute. reflexivity.
Qed.

(** ** C93 *)
Theorem C93_shrink_to_fit_partial : forall A triv alloc esize n w (ops : list (op A)) oks v w', (1 <= esize)%N ->
  permitted triv alloc esize w (new_vec n) [] ops -> run triv alloc esize w (new_vec n) ops = Some (oks, v, w') ->
  (esize * N.of_nat (sz v) < 2 ^ 63)%N ->
  sz v = 0 \/ alloc = false \/ triv = true /\ ptr v = Heap /\ hd_error (oracle w') = Some true ->
  exists v2 w2, shrink_to_fit triv alloc esize w' v = Some (v2, w2) /\ contents v2 = contents v /\ truthful v2 /\ (blocks w2 - uses v2 = blocks w)%Z /\
    (alloc = true -> sz v = 0 -> cap v2 = n) /\ (alloc = true -> sz v <> 0 -> cap v2 = sz v).
Proof.
  intros A triv alloc esize n w ops oks v w' He P R F H. destruct (reached triv alloc esize n w ops He P) as (oks' & v' & w1 & E' & _ & I & B & L).
  assert (oks' = oks /\ v' = v /\ w1 = w') as (-> & -> & ->) by (repeat split; congruence). set (xs := meanings triv [] ops oks) in *. clearbody xs.
  pose proof (v_sz _ _ _ _ I) as Ez. pose proof (v_cap _ _ _ _ I) as Ec. rewrite (inv_contents triv alloc v xs I).
  assert (Ui : forall (u : vec A) ys, inv triv alloc u ys -> length (inl u) = n -> ptr u = Null \/ cap u = 0 -> inv triv alloc (use_inline u) [] /\ cap (use_inline u) = n /\ uses (use_inline u) = 0%Z /\ ys = []).
  { intros u ys Iu Lu Hu.
    assert (ys = []) as ->. { pose proof (inv_le triv alloc u ys Iu) as Q. rewrite (v_sz _ _ _ _ Iu) in Q. destruct Hu as [Hu|Hu]; [now destruct (inv_null triv alloc u ys Iu Hu)|]. destruct ys; [reflexivity|cbn in Q; lia]. }
    pose proof (inl_dead triv alloc u Iu) as D. unfold use_inline. rewrite Lu. destruct n as [|k].
    - split; [|repeat split; reflexivity]. constructor; cbn [sz cap ptr is_sbo stor inl blk]; [reflexivity|apply holds_dead; intros _ i; now destruct i|reflexivity|reflexivity|intros T _; exact (D T)|discriminate].
    - split; [|repeat split; reflexivity]. constructor; cbn [sz cap ptr is_sbo stor inl blk]; [reflexivity|apply holds_dead; exact D|now rewrite Lu|reflexivity|congruence|discriminate]. }
  unfold shrink_to_fit. assert (En : negb (null v) || (cap v =? 0) = true).
  { unfold null. destruct (ptr v) eqn:Ep; try reflexivity. destruct (inv_null triv alloc v xs I Ep) as (_ & _ & ->). reflexivity. }
  rewrite En. cbn [assert_].
  assert (Fin : forall (u : vec A) w2 ys, inv triv alloc u ys -> length (inl u) = n -> (blocks w2 - uses u = blocks w)%Z -> ys = xs -> (alloc = true -> sz v <> 0 -> cap u = sz v) ->
    (alloc = true -> sz v = 0 -> ptr u = Null \/ cap u = n) -> (ptr u = Heap -> cap u <> 0) ->
    exists v2 w3, Some (if null u || (cap u =? 0) then use_inline u else u, w2) = Some (v2, w3) /\ contents v2 = Some xs /\ truthful v2 /\ (blocks w3 - uses v2 = blocks w)%Z /\
      (alloc = true -> sz v = 0 -> cap v2 = n) /\ (alloc = true -> sz v <> 0 -> cap v2 = sz v)).
  { intros u w2 ys Iu Lu Bu -> Cu Cu0 Hh. destruct (null u || (cap u =? 0)) eqn:Q.
    - assert (Hu : ptr u = Null \/ cap u = 0). { unfold null in Q. destruct (ptr u); [now left|right; cbn [orb] in Q; lia|right; cbn [orb] in Q; lia]. }
      destruct (Ui u xs Iu Lu Hu) as (I2 & C2 & U2 & Ex). exists (use_inline u), w2. split; [reflexivity|]. split; [rewrite Ex; now apply (inv_contents triv alloc)|]. split; [exact (v_cap _ _ _ _ I2)|].
      split; [|split; [auto|intros _ Q'; rewrite Ez, Ex in Q'; now elim Q']]. rewrite U2.
      assert (uses u = 0%Z) by (unfold uses; destruct (ptr u) eqn:Q'; auto; destruct Hu as [Hu|Hu]; [congruence|now elim (Hh eq_refl)]). lia.
    - exists u, w2. split; [reflexivity|]. split; [now apply (inv_contents triv alloc)|]. split; [exact (v_cap _ _ _ _ Iu)|]. split; [exact Bu|]. split; [|exact Cu]. intros Q1 Q2. destruct (Cu0 Q1 Q2) as [Q3|Q3]; [|exact Q3]. unfold null in Q. rewrite Q3 in Q. discriminate. }
  unfold shrink_guts. destruct alloc eqn:Ea; cbn [negb].
  2:{ apply (Fin v w' xs I L B eq_refl); try congruence. intros Q. now elim (v_alloc _ _ _ _ I eq_refl). }
  destruct (Nat.eqb_spec (sz v) 0) as [Z0|Z0].
  - assert (xs = []) as -> by (destruct xs; [reflexivity|cbn in Ez; lia]). destruct (destroy_ok triv true w' v [] I) as (v1 & w1 & E1 & I1 & B1 & L1 & _ & P1 & P2 & P3 & _). rewrite E1.
    apply (Fin v1 w1 [] I1); [congruence| |reflexivity|congruence| |intros Q; now elim (P1 Q)].
    + unfold balanced in B1. change (uses v1) with (owned v1). change (uses v) with (owned v) in B. lia.
    + intros _ _. destruct (ptr v) eqn:Ep.
      * left. exact (proj2 (P2 ltac:(discriminate))).
      * right. rewrite (proj1 (P2 ltac:(discriminate))). rewrite Ec. unfold stor. now rewrite Ep.
      * left. exact (P3 eq_refl).
  - destruct H as [H|[H|(T & Hp & Ho)]]; [congruence|congruence|]. rewrite T, Hp. unfold ask. destruct (oracle w') as [|[|] r]; try discriminate Ho.
    assert (Fx : fits esize (sz v)) by exact F. rewrite (fits_range esize He _ Fx), (fresh_length esize He _ Fx). cbn [assert_].
    set (st := firstn (sz v) (blk v) ++ repeat Dead (sz v - length (blk v))).
    pose proof (v_holds _ _ _ _ I) as (H1 & H2 & _). unfold stor in H1, H2, Ec. rewrite Hp in H1, H2, Ec.
    assert (Lst : length st = sz v) by (unfold st; rewrite app_length, firstn_length, repeat_length; lia).
    apply (Fin _ _ xs); cbn [ptr sz cap is_sbo inl blk]; [|exact L| |reflexivity|reflexivity|congruence|auto].
    + constructor; cbn [ptr sz cap is_sbo inl blk stor]; [exact Ez| |now rewrite Lst|reflexivity|congruence|congruence].
      split; [lia|]. split; [|congruence]. intros i Hi. unfold cell, st. rewrite app_nth1 by (rewrite firstn_length; lia). rewrite nth_firstn_lt by lia. now apply H2.
    + unfold uses in *. rewrite Hp in B. cbn. exact B.
Qed.
Example C93_case : exists v w v2 w2, run true true 8 (grants 9) (new_vec 2) [Reserve 7; PushBack (Ext 1); PushBack (Ext 2); PushBack (Ext 3)] = Some ([true; true; true; true], v, w) /\ cap v = 7 /\
  shrink_to_fit true true 8 w v = Some (v2, w2) /\ contents v2 = Some [Val 1; Val 2; Val 3] /\ cap v2 = 3.
Proof. eexists _, _, _, _. conj. Qed.
(** Trivially copyable elements in the inline buffer: it is handed to realloc. Elsewhere, if realloc refuses and malloc does not, the elements are lost. *)
Theorem C93_shrink_to_fit_inline_refuted : exists v w, run true true 8 (grants 9) (new_vec 2) [PushBack (Ext 1)] = Some ([true], v, w) /\ shrink_to_fit true true 8 w v = None.
Proof. eexists _, _. conj. Qed.
Theorem C93_shrink_to_fit_loss_refuted : exists v w v2 w2,
  run true true 8 (World [true; true; false; true] 0) (new_vec 0) [Reserve 5; PushBack (Ext 1); Reserve 12] = Some ([true; true; true], v, w) /\
  contents v = Some [Val 1] /\ shrink_to_fit true true 8 w v = Some (v2, w2) /\ contents v2 = Some [].
Proof. eexists _, _, _, _. conj. Qed.

(** ** C94 *)
Theorem C94_copy_construct_partial : forall A triv alloc esize n w (ops : list (op A)) oks other w' m, (1 <= esize)%N ->
  permitted triv alloc esize w (new_vec n) [] ops -> run triv alloc esize w (new_vec n) ops = Some (oks, other, w') -> (esize * N.of_nat (sz other) < 2 ^ 63)%N ->
  exists v w2, copy_new triv alloc esize w' m other = Some (v, w2) /\ truthful v /\ (blocks w2 - uses v = blocks w')%Z /\
    (contents v = contents other \/ contents v = Some [] /\ m < sz other /\ (alloc = true -> hd_error (oracle w') <> Some true)).
Proof.
  intros A triv alloc esize n w ops oks other w' m He P R F. destruct (reached triv alloc esize n w ops He P) as (oks' & v' & w1 & E' & _ & I & B & L).
  assert (oks' = oks /\ v' = other /\ w1 = w') as (-> & -> & ->) by (repeat split; congruence). rewrite (inv_contents triv alloc _ _ I). rewrite (v_sz _ _ _ _ I) in *.
  destruct (copy_new_ok triv alloc esize He w' m other _ I F) as (v & w2 & ok & E & I2 & B2 & _ & G1 & G2). exists v, w2. split; [exact E|]. split; [exact (v_cap _ _ _ _ I2)|]. split; [exact B2|].
  rewrite (inv_contents triv alloc _ _ I2). destruct ok; [now left|right]. split; [reflexivity|]. split.
  - destruct (Nat.lt_ge_cases m (length (meanings triv [] ops oks))) as [G|G]; [exact G|now specialize (G1 G)].
  - intros Q1 Q2. now specialize (G2 Q1 Q2).
Qed.
Theorem C94_move_construct_partial : forall A triv alloc esize n w (ops : list (op A)) oks other w' m, (1 <= esize)%N ->
  permitted triv alloc esize w (new_vec n) [] ops -> run triv alloc esize w (new_vec n) ops = Some (oks, other, w') -> (esize * N.of_nat (sz other) < 2 ^ 63)%N ->
  exists v other' w2, move_new triv alloc esize w' m other = Some (v, other', w2) /\ truthful v /\ truthful other' /\ (blocks w2 - uses v - uses other' = blocks w)%Z /\ contents other' = Some [] /\
    (contents v = contents other \/ contents v = Some [] /\ m < sz other /\ is_sbo other = true /\ (alloc = true -> hd_error (oracle w') <> Some true)).
Proof.
  intros A triv alloc esize n w ops oks other w' m He P R F. destruct (reached triv alloc esize n w ops He P) as (oks' & v' & w1 & E' & _ & I & B & L).
  assert (oks' = oks /\ v' = other /\ w1 = w') as (-> & -> & ->) by (repeat split; congruence). rewrite (inv_contents triv alloc _ _ I). rewrite (v_sz _ _ _ _ I) in *.
  destruct (move_new_ok triv alloc esize He w' m other _ I F) as (v & o2 & w2 & ok & E & I2 & I3 & B2 & _ & _ & G1 & G2). exists v, o2, w2. split; [exact E|]. split; [exact (v_cap _ _ _ _ I2)|]. split; [exact (v_cap _ _ _ _ I3)|].
  split; [change (uses v) with (owned v); change (uses o2) with (owned o2); change (uses other) with (owned other) in B; lia|]. split; [now apply (inv_contents triv alloc)|].
  rewrite (inv_contents triv alloc _ _ I2). destruct ok; [now left|right]. split; [reflexivity|]. split; [|split].
  - destruct (Nat.lt_ge_cases m (length (meanings triv [] ops oks))) as [G|G]; [exact G|now specialize (G1 (or_introl G))].
  - rewrite (v_sbo _ _ _ _ I). destruct (ptr other); try reflexivity; now assert (false = true) by (apply G1; right; discriminate).
  - intros Q1 Q2. now specialize (G2 Q1 Q2).
Qed.
Theorem C94_copy_assign_partial : forall A triv alloc esize n m w (opsa opsb : list (op A)) a b w' xs ys,
  two triv alloc esize n m w opsa opsb a b w' xs ys -> (esize * N.of_nat (sz b) < 2 ^ 63)%N ->
  exists a' w2, copy_assign triv alloc esize w' a b = Some (a', w2) /\ truthful a' /\ (blocks w2 - uses a' - uses b = blocks w)%Z /\
    (contents a' = Some ys \/ contents a' = Some [] /\ cap a < sz b /\ (alloc = true -> hd_error (oracle w') <> Some true)).
Proof.
  intros A triv alloc esize n m w opsa opsb a b w' xs ys H F. pose proof (proj1 H) as He. destruct (two_inv triv alloc esize _ _ _ _ _ _ _ _ _ _ H) as (Ia & Ib & B & _). rewrite (v_sz _ _ _ _ Ib) in *.
  destruct (copy_assign_ok triv alloc esize He w' a xs b ys Ia Ib F) as (a' & w2 & ok & E & I2 & B2 & _ & G1 & G2). exists a', w2. split; [exact E|]. split; [exact (v_cap _ _ _ _ I2)|].
  split; [unfold balanced in B2; change (uses a') with (owned a'); change (uses a) with (owned a) in B; lia|].
  rewrite (inv_contents triv alloc _ _ I2). destruct ok; [now left|right]. split; [reflexivity|]. split.
  - destruct (Nat.lt_ge_cases (cap a) (length ys)) as [G|G]; [exact G|now specialize (G2 G)].
  - intros Q1 Q2. now specialize (G1 Q1 Q2).
Qed.
Theorem C94_move_assign_partial : forall A triv alloc esize n m w (opsa opsb : list (op A)) a b w' xs ys,
  two triv alloc esize n m w opsa opsb a b w' xs ys -> (esize * N.of_nat (sz b) < 2 ^ 63)%N ->
  exists a' b' w2, move_from triv alloc esize w' a b = Some (a', b', w2) /\ truthful a' /\ truthful b' /\ (blocks w2 - uses a' - uses b' = blocks w)%Z /\ contents b' = Some [] /\
    (contents a' = Some ys \/ contents a' = Some [] /\ cap a < sz b /\ is_sbo b = true /\ (alloc = true -> hd_error (oracle w') <> Some true)).
Proof.
  intros A triv alloc esize n m w opsa opsb a b w' xs ys H F. pose proof (proj1 H) as He. destruct (two_inv triv alloc esize _ _ _ _ _ _ _ _ _ _ H) as (Ia & Ib & B & _). rewrite (v_sz _ _ _ _ Ib) in *.
  destruct (move_from_ok triv alloc esize He w' a xs b ys Ia Ib F) as (a' & b' & w2 & ok & E & I2 & I3 & B2 & _ & _ & G1 & G2). exists a', b', w2. split; [exact E|]. split; [exact (v_cap _ _ _ _ I2)|]. split; [exact (v_cap _ _ _ _ I3)|].
  split; [change (uses a') with (owned a'); change (uses b') with (owned b'); change (uses a) with (owned a) in B; change (uses b) with (owned b) in B; lia|]. split; [now apply (inv_contents triv alloc)|].
  rewrite (inv_contents triv alloc _ _ I2). destruct ok; [now left|right]. split; [reflexivity|]. split; [|split].
  - destruct (Nat.lt_ge_cases (cap a) (length ys)) as [G|G]; [exact G|now specialize (G1 (or_introl G))].
  - rewrite (v_sbo _ _ _ _ Ib). destruct (ptr b); try reflexivity; now assert (false = true) by (apply G1; right; discriminate).
  - intros Q1 Q2. now specialize (G2 Q1 Q2).
Qed.
Example C94_case : exists b w v b' w2, run false true 8 (grants 9) (new_vec 2) [PushBack (Ext 1); PushBack (Ext 2); PushBack (Ext 3)] = Some ([true; true; true], b, w) /\
  move_new false true 8 w 1 b = Some (v, b', w2) /\ contents v = Some [Val 1; Val 2; Val 3] /\ blocks w2 = 1%Z.
Proof. eexists _, _, _, _, _. conj. Qed.
(** Without memory a copy is silently empty, and a move loses the elements. *)
Theorem C94_copy_move_refuted : exists b w, run false true 8 (grants 0) (new_vec 2) [PushBack (Ext 1); PushBack (Ext 2)] = Some ([true; true], b, w) /\ contents b = Some [Val 1; Val 2] /\
  (exists v w2, copy_new false true 8 w 1 b = Some (v, w2) /\ contents v = Some []) /\
  (exists v b' w2, move_new false true 8 w 1 b = Some (v, b', w2) /\ contents v = Some [] /\ contents b' = Some []).
Proof. eexists _, _. split; [vm_compute; reflexivity|]. split; [reflexivity|]. split; [eexists _, _|eexists _, _, _]; conj. Qed.
(** Without an allocator, assigning more elements than fit takes the inline buffer away for good. *)
Theorem C94_lost_buffer_refuted : exists v w v2 w2, run true false 8 (grants 0) (new_vec 2) [PushBack (Ext 1); AssignN 3 (Ext 5)] = Some ([true; false], v, w) /\ cap v = 0 /\
  push_back true false 8 w v (Ext 1) = Some (false, v2, w2).
Proof. eexists _, _, _, _. conj. Qed.

Print Assumptions C56_histories_partial.
Print Assumptions C56_success_partial.
Print Assumptions C56_failed_assign_refuted.
Print Assumptions C56_insert_nothing_refuted.
Print Assumptions C56_assign_nothing_refuted.
Print Assumptions C56_insert_null_range_refuted.
Print Assumptions C56_emplace_own_refuted.
Print Assumptions C56_failed_move_refuted.
Print Assumptions C57_lifetimes_partial.
Print Assumptions C57_shrink_to_fit_refuted.
Print Assumptions C58_reserve_partial.
Print Assumptions C58_reserve_refuted.
Print Assumptions C58_reserve_wrap_refuted.
Print Assumptions C59_swap_heap_partial.
Print Assumptions C59_swap_inline_partial.
Print Assumptions C59_swap_refuted.
Print Assumptions C59_swap_overflow_refuted.
Print Assumptions C93_shrink_to_fit_partial.
Print Assumptions C93_shrink_to_fit_inline_refuted.
Print Assumptions C93_shrink_to_fit_loss_refuted.
Print Assumptions C94_copy_construct_partial.
Print Assumptions C94_move_construct_partial.
Print Assumptions C94_copy_assign_partial.
Print Assumptions C94_move_assign_partial.
Print Assumptions C94_copy_move_refuted.
Print Assumptions C94_lost_buffer_refuted.
