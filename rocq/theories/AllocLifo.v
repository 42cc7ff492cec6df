(** Nested allocation and release on the stack allocator; resizing; reallocation and contents. *)
From Coq Require Import Arith NArith ZArith List Bool Lia ZifyBool ZifyNat ZifyN.
From Verif Require Import Base AllocModel AllocSpec AllocProofs AllocClient.
Import ListNotations.
Local Open Scope N_scope.

(** ** Nested scopes *)

(** [Scope size align inner next]: allocate a block and, if it was granted, do [inner] and free
    the block; then do [next]. *)
Inductive scopes := Done | Scope (size align : N) (inner next : scopes).

Fixpoint run (dbg : bool) (f : scopes) (s : stack) : option stack :=
  match f with
  | Done => Some s
  | Scope size a inner next =>
    ' (s1, r) <- allocate_bytes dbg s size a ;;
    s3 <- match r with Some (q, n) => s2 <- run dbg inner s1 ;; free_bytes dbg s2 q n a | None => Some s1 end ;;
    run dbg next s3
  end.

(** Scopes following each other do not decrease the alignment (starting from [lo]); nested ones may
    have any. *)
Fixpoint rising (capacity lo : N) (f : scopes) : Prop :=
  match f with
  | Done => True
  | Scope size a inner next =>
    pow2 a /\ lo <= a /\ capacity + a + size <= W64 /\ rising capacity 1 inner /\ rising capacity a next
  end.
(** The alignment of the last of the scopes. *)
Fixpoint last_align (lo : N) (f : scopes) : N :=
  match f with Done => lo | Scope _ a _ next => last_align a next end.

Definition released (s0 : stack) (hi : N) (s : stack) : Prop :=
  s = s0 \/ (p s = p s0 /\ cap s = cap s0 /\ pow2 (lpa s) /\ lpa s <= hi /\
             sz s = sz s0 + pad (p s0 + sz s0) (lpa s) /\ sz s <= cap s).

Lemma released_ok : forall s0 hi s, stack_ok s0 -> released s0 hi s -> stack_ok s.
Proof.
  intros s0 hi s H [->|(R1 & R2 & R3 & R4 & R5 & R6)]; [exact H|]. destruct H as (H1 & H2 & H3 & H4).
  unfold stack_ok. rewrite R1, R2. repeat split; lia.
Qed.
Lemma released_cap : forall s0 hi s, released s0 hi s -> p s = p s0 /\ cap s = cap s0.
Proof. intros s0 hi s [->|(R1 & R2 & _)]; auto. Qed.

(** The next block of an alignment that is not smaller starts where it would have. *)
Lemma released_pad : forall s0 hi s a, released s0 hi s -> pow2 a -> hi <= a ->
  sz s + pad (p s + sz s) a = sz s0 + pad (p s0 + sz s0) a.
Proof.
  intros s0 hi s a [->|(R1 & R2 & R3 & R4 & R5 & R6)] Pa Ha; [reflexivity|].
  rewrite R1, R5. destruct (pow2_pos _ Pa) as [A1 _]. destruct (pow2_pos _ R3) as [B1 _].
  pose proof (pad_pad (p s0 + sz s0) (lpa s) a B1 A1 (pow2_divide _ _ R3 Pa ltac:(lia))) as E.
  replace (p s0 + (sz s0 + pad (p s0 + sz s0) (lpa s))) with (p s0 + sz s0 + pad (p s0 + sz s0) (lpa s)) by lia. lia.
Qed.

Lemma released_alloc : forall dbg s0 hi s a size, stack_ok s0 -> released s0 hi s -> pow2 a -> hi <= a ->
  cap s0 + a + size <= W64 ->
  option_map snd (allocate_bytes dbg s size a) = option_map snd (allocate_bytes dbg s0 size a).
Proof.
  intros dbg s0 hi s a size H R Pa Ha Hn. pose proof (released_ok _ _ _ H R) as H'.
  destruct (released_cap _ _ _ R) as [Ep Ec]. pose proof (released_pad _ _ _ _ R Pa Ha) as E.
  rewrite (allocate_eq dbg s size a H' Pa) by lia. rewrite (allocate_eq dbg s0 size a H Pa Hn).
  rewrite E, Ec. destruct ((size =? 0) || (cap s0 <? sz s0 + pad (p s0 + sz s0) a + size)); [reflexivity|].
  cbn [option_map snd]. set (o := pad (p s + sz s) a) in *. set (o0 := pad (p s0 + sz s0) a) in *. clearbody o o0.
  do 3 f_equal. lia.
Qed.

Lemma free_top : forall dbg s q n a, stack_ok s -> pow2 (lpa s) -> p s <= q -> 1 <= n ->
  q + n + pad (q + n) (lpa s) = p s + sz s ->
  free_bytes dbg s q n a = Some (Stack (p s) (q - p s) (cap s) a).
Proof.
  intros dbg s q n a H Pl Hq Hn Q. pose proof H as (H1 & H2 & H3 & H4).
  unfold free_bytes. rewrite check_true by now apply ok_valid.
  assert (Q0 : (q =? 0) = false) by lia. rewrite Q0. cbn [orb]. assert (N0 : (n =? 0) = false) by lia. rewrite N0.
  rewrite recent_eq by (assumption || lia). rewrite Q, N.eqb_refl.
  assert (Eo : owns dbg s q = Some true).
  { unfold owns. rewrite Q0. assert (Et : (p s <=? q) && (q <? p s + sz s) = true) by lia. rewrite Et. now rewrite check_true. }
  rewrite Eo. assert (Hk : forall k : option stack, check_ dbg (Some true) k = k) by (intros k; unfold check_, assert_; destruct dbg; reflexivity).
  rewrite !Hk. cbv beta iota. rewrite w64_small by lia. rewrite alignment_offset_eq by (assumption || lia).
  do 2 f_equal. rewrite sub64_le by lia. lia.
Qed.

Lemma released_recent : forall dbg s0 hi s q n, stack_ok s0 -> lpa s0 = 1 -> q + n = p s0 + sz s0 -> released s0 hi s ->
  pow2 (lpa s) /\ q + n + pad (q + n) (lpa s) = p s + sz s /\ is_most_recent_allocation dbg s q n = Some true.
Proof.
  intros dbg s0 hi s q n H L E R. pose proof (released_ok _ _ _ H R) as H'. pose proof H' as (K1 & K2 & K3 & K4).
  assert (Pl : pow2 (lpa s)) by (destruct R as [->|R]; [rewrite L; exists 0; split; [lia|reflexivity]|tauto]).
  assert (Q : q + n + pad (q + n) (lpa s) = p s + sz s).
  { destruct R as [->|(R1 & R2 & R3 & R4 & R5 & R6)]; [rewrite L, pad_1; lia|]. rewrite R1, R5, E. lia. }
  split; [exact Pl|]. split; [exact Q|]. rewrite recent_eq by (assumption || lia). rewrite Q, N.eqb_refl. reflexivity.
Qed.

Lemma run_released : forall dbg f s0 lo s, stack_ok s0 -> rising (cap s0) lo f -> released s0 lo s ->
  exists s', run dbg f s = Some s' /\ released s0 (last_align lo f) s'.
Proof.
  intros dbg f. induction f as [|size a inner IHi next IHn]; intros s0 lo s H Hr R; cbn [run last_align].
  - exists s. split; [reflexivity|exact R].
  - cbn [rising] in Hr. destruct Hr as (Pa & Hlo & Hn & Hi & Hx).
    pose proof (released_ok _ _ _ H R) as H'. destruct (released_cap _ _ _ R) as [Ep Ec].
    pose proof (released_pad _ _ _ _ R Pa Hlo) as E. destruct (pow2_pos _ Pa) as [A1 _].
    rewrite (allocate_eq dbg s size a H' Pa) by lia.
    set (o := pad (p s + sz s) a) in *.
    assert (W : released s0 a s).
    { destruct R as [->|(R1 & R2 & R3 & R4 & R5 & R6)]; [now left|]. right. repeat split; try assumption. lia. }
    destruct ((size =? 0) || (cap s <? sz s + o + size)) eqn:G.
    + apply (IHn s0 a s H Hx W).
    + set (s1 := Stack (p s) (sz s + o + size) (cap s) 1).
      assert (H1 : stack_ok s1) by (destruct H' as (K1 & K2 & K3 & K4); unfold stack_ok, s1; cbn [p sz cap]; repeat split; lia).
      destruct (IHi s1 1 s1 H1) as (s2 & E2 & R2); [unfold s1; cbn [cap]; rewrite Ec; exact Hi|now left|]. rewrite E2.
      assert (Eq : p s + sz s + o + size = p s1 + sz s1) by (unfold s1; cbn [p sz]; lia).
      destruct (released_recent dbg s1 _ s2 (p s + sz s + o) size H1 eq_refl Eq R2) as (P2 & Q2 & _).
      pose proof (released_ok _ _ _ H1 R2) as H2. destruct (released_cap _ _ _ R2) as [Ep2 Ec2].
      unfold s1 in Ep2, Ec2. cbn [p cap] in Ep2, Ec2.
      rewrite (free_top dbg s2 (p s + sz s + o) size a H2 P2) by (assumption || lia).
      apply (IHn s0 a _ H Hx). right. cbn [p sz cap lpa]. destruct H' as (K1 & K2 & K3 & K4).
      assert (Es : p s + sz s + o - p s2 = sz s0 + pad (p s0 + sz s0) a) by lia.
      rewrite Es. repeat split; try assumption; lia.
Qed.

(** ** Resizing the most recent block *)
Lemma grow_in_place : forall dbg s q n new, stack_ok s -> pow2 (lpa s) -> p s <= q ->
  q + n + pad (q + n) (lpa s) = p s + sz s -> cap s + new < W64 ->
  reallocate_bytes_in_place dbg s q n new =
    if sz s + new - n <=? cap s then Some (Stack (p s) (sz s + new - n) (cap s) (lpa s), true) else Some (s, false).
Proof.
  intros dbg s q n new H Pl Hq Q Hn. pose proof H as (H1 & H2 & H3 & H4).
  unfold reallocate_bytes_in_place. rewrite check_true by lia. rewrite recent_eq by (assumption || lia).
  rewrite Q, N.eqb_refl. cbv beta iota. cbn [andb]. rewrite resize_eq by (assumption || lia). reflexivity.
Qed.

(** ** Contents *)
Section Contents.
  Variables (dbg : bool) (ptr capacity : N).

  (** [reallocate_bytes] moves the contents along and touches no other block. *)
  Lemma realloc_contents : forall mem c i b new s r mem', inv ptr capacity c -> nth_error (live c) i = Some b ->
    1 <= new -> cap (st c) + b_align b + new <= W64 ->
    reallocate_bytes dbg (st c) mem (b_ptr b) (b_size b) new (b_align b) = Some (s, r, mem') ->
    match r with
    | Some (q, n) => new <= n /\ (forall k, k < N.min (b_size b) n -> mem' (q + k) = mem (b_ptr b + k)) /\
        (forall x, ~ (q <= x < q + n /\ q <> b_ptr b) -> mem' x = mem x) /\
        (q = b_ptr b \/ ptr + sz (st c) <= q)
    | None => s = st c /\ mem' = mem
    end.
  Proof using.
    intros mem c i b new s r mem' I Eb Hn Hw E. pose proof I as (I1 & I2 & I3 & I4 & I5 & I6).
    pose proof (recent_live dbg ptr capacity c i b I Eb) as R. unfold reallocate_bytes in E.
    rewrite check_true in E by now apply ok_valid. rewrite R in E.
    destruct (stacked_nth _ _ _ _ _ I4 Eb) as (B1 & B2 & B3 & B4 & B5 & B6). destruct (pow2_pos _ B5) as [A1 A2].
    destruct (b_end b + pad (b_end b) (lpa (st c)) =? ptr + sz (st c)); cbv beta iota in E.
    - destruct (cap (st c) <? w64 (sz (st c) + sub64 new (b_size b))) eqn:G.
      + assert (Er : r = None) by congruence. subst r. split; congruence.
      + assert (Er : r = Some (b_ptr b, new)) by congruence. assert (Em : mem' = mem) by congruence. subst r mem'.
        split; [lia|]. split; [reflexivity|]. split; [reflexivity|now left].
    - destruct (N.ltb_spec new (b_size b)) as [G|G].
      + assert (Er : r = Some (b_ptr b, b_size b)) by congruence. assert (Em : mem' = mem) by congruence. subst r mem'.
        split; [lia|]. split; [reflexivity|]. split; [reflexivity|now left].
      + destruct (allocate_bytes dbg (st c) new (b_align b)) as [[s1 r1]|] eqn:Ea; [|discriminate E].
        pose proof (alloc_inv dbg ptr capacity c new (b_align b) s1 r1 I B5 Hw Ea) as A. destruct r1 as [[q n]|].
        * destruct A as (-> & C1 & C2 & C3 & C4 & C5 & C6 & C7 & C8). unfold b_end in B2.
          assert (Eo : (if b_size b <? new then b_size b else new) = b_size b) by (destruct (N.ltb_spec (b_size b) new); lia).
          rewrite Eo in E. unfold memcpy in E.
          assert (Ov : (q <? b_ptr b + b_size b) && (b_ptr b <? q + b_size b) = false) by lia. rewrite Ov in E.
          assert (Er : r = Some (q, new)) by congruence.
          assert (Em : mem' = fun x => if (q <=? x) && (x <? q + b_size b) then mem (b_ptr b + (x - q)) else mem x) by congruence.
          subst r. clear E. rewrite Em. split; [lia|]. split; [|split; [|right; lia]].
          -- intros k Hk. assert (T : (q <=? q + k) && (q + k <? q + b_size b) = true) by lia. rewrite T. f_equal. lia.
          -- intros x Hx. destruct ((q <=? x) && (x <? q + b_size b)) eqn:T; [|reflexivity]. exfalso. apply Hx. lia.
        * assert (Er : r = None) by congruence. subst r. subst s1. split; congruence.
  Qed.
End Contents.
