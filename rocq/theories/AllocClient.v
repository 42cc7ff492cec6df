(** Histories of a client of the stack allocator. *)
From Coq Require Import Arith NArith ZArith List Bool Lia ZifyBool ZifyNat ZifyN.
From Verif Require Import Base AllocModel AllocSpec AllocProofs.
Import ListNotations.
Local Open Scope N_scope.

(** ** The client *)

(** What a client does; blocks are named by their position among the live ones, most recent first. *)
Inductive op :=
| Alloc (size align : N)
| Free (i : nat)
| Realloc (i : nat) (new : N)
| ReallocInPlace (i : nat) (new : N)
| Clear.

(** The allocator, the live blocks, and whether a block was freed since the last allocation. *)
Record client := Client { st : stack; live : list block; popped : bool }.

Definition remove_nth (i : nat) (l : list block) : list block := firstn i l ++ skipn (S i) l.
Definition resized (i : nat) (l : list block) (n : N) : list block :=
  match nth_error l i with
  | Some b => firstn i l ++ Block (b_ptr b) n (b_align b) :: skipn (S i) l
  | None => l
  end.

(** One call, the client keeping book of the blocks it was given. *)
Definition exec (dbg : bool) (mem : N -> N) (c : client) (o : op) : option client :=
  match o with
  | Alloc size a =>
    ' (s, r) <- allocate_bytes dbg (st c) size a ;;
    Some (match r with
          | Some (q, n) => Client s (Block q n a :: live c) false
          | None => Client s (live c) (popped c)
          end)
  | Free i =>
    match nth_error (live c) i with
    | Some b => s <- free_bytes dbg (st c) (b_ptr b) (b_size b) (b_align b) ;; Some (Client s (remove_nth i (live c)) true)
    | None => Some c
    end
  | Realloc i new =>
    match nth_error (live c) i with
    | Some b =>
      ' (s, r, _) <- reallocate_bytes dbg (st c) mem (b_ptr b) (b_size b) new (b_align b) ;;
      Some (match r with
            | Some (q, n) =>
              if q =? b_ptr b then Client s (resized i (live c) n) (popped c)
              else Client s (Block q n (b_align b) :: remove_nth i (live c)) false
            | None => Client s (live c) (popped c)
            end)
    | None => Some c
    end
  | ReallocInPlace i new =>
    match nth_error (live c) i with
    | Some b =>
      ' (s, r) <- reallocate_bytes_in_place dbg (st c) (b_ptr b) (b_size b) new ;;
      Some (Client s (if r : bool then resized i (live c) new else live c) (popped c))
    | None => Some c
    end
  | Clear => Some (Client (clear (st c)) [] false)
  end.

(** Calls that stay clear of the top of the address range, free the most recent block only, and do
    not resize an older block between a free and the next allocation. *)
Definition allowed (c : client) (o : op) : Prop :=
  match o with
  | Alloc size a => pow2 a /\ cap (st c) + a + size <= W64
  | Free i => i = 0%nat
  | Realloc i new | ReallocInPlace i new =>
    1 <= new /\ (i = 0%nat \/ popped c = false) /\
    (forall b, nth_error (live c) i = Some b -> cap (st c) + b_align b + new <= W64)
  | Clear => True
  end.

Inductive history (dbg : bool) (ptr capacity : N) : client -> Prop :=
| H_create s : stack_create dbg ptr capacity = Some s -> history dbg ptr capacity (Client s [] false)
| H_step c o mem c' : history dbg ptr capacity c -> allowed c o -> exec dbg mem c o = Some c' ->
    history dbg ptr capacity c'.

(** ** The invariant *)
Fixpoint stacked (lo hi : N) (l : list block) : Prop :=
  match l with
  | [] => lo <= hi
  | b :: r => 1 <= b_size b /\ b_end b <= hi /\ aligned b /\ pow2 (b_align b) /\ stacked lo (b_ptr b) r
  end.

Definition inv (ptr capacity : N) (c : client) : Prop :=
  let s := st c in
  p s = ptr /\ cap s = capacity /\ stack_ok s /\ stacked ptr (ptr + sz s) (live c) /\
  (live c = [] \/ pow2 (lpa s)) /\ (popped c = false -> live c = [] \/ lpa s = 1).

Lemma stacked_mono : forall l lo hi hi', stacked lo hi l -> hi <= hi' -> stacked lo hi' l.
Proof. intros [|b l] lo hi hi'; cbn [stacked]; [lia|]. intros (A1 & A2 & A3) H. repeat split; try tauto; lia. Qed.
Lemma stacked_lo : forall l lo hi, stacked lo hi l -> lo <= hi.
Proof. induction l as [|b l IH]; intros lo hi; cbn [stacked]; [lia|]. intros (A1 & A2 & A3 & A4 & A5).
  apply IH in A5. unfold b_end in *. lia. Qed.
Lemma stacked_nth : forall l lo hi i b, stacked lo hi l -> nth_error l i = Some b ->
  lo <= b_ptr b /\ b_end b <= hi /\ 1 <= b_size b /\ aligned b /\ pow2 (b_align b) /\
  (i <> 0%nat -> b_end b < hi).
Proof.
  induction l as [|c l IH]; intros lo hi [|i] b Hs E; try discriminate E; cbn [stacked] in Hs; destruct Hs as (A1 & A2 & A3 & A4 & A5).
  - cbn in E. inversion E; subst c. apply stacked_lo in A5. repeat split; try assumption; try lia. 
  - cbn in E. destruct (IH _ _ _ _ A5 E) as (B1 & B2 & B3 & B4 & B5 & B6). unfold b_end in *. repeat split; try assumption; lia.
Qed.
Lemma stacked_skip : forall i l lo hi, stacked lo hi l -> stacked lo hi (skipn i l).
Proof.
  induction i as [|i IH]; intros [|b l] lo hi Hs; try exact Hs. cbn [skipn]. cbn [stacked] in Hs.
  apply IH. apply stacked_mono with (b_ptr b); [tauto|]. unfold b_end in Hs. lia.
Qed.
Lemma stacked_remove : forall i l lo hi, stacked lo hi l -> stacked lo hi (remove_nth i l).
Proof.
  induction i as [|i IH]; intros l lo hi Hs.
  - unfold remove_nth. cbn [firstn app]. apply (stacked_skip 1 l lo hi Hs).
  - destruct l as [|b l]; [exact Hs|]. unfold remove_nth in *. cbn [firstn skipn app stacked] in *.
    intuition.
Qed.

Lemma stacked_usable : forall l lo hi, stacked lo hi l -> usable lo hi l.
Proof.
  induction l as [|b l IH]; intros lo hi Hs; cbn [stacked] in Hs.
  - repeat split; constructor.
  - destruct Hs as (A1 & A2 & A3 & A4 & A5). destruct (IH _ _ A5) as (U1 & U2 & U3).
    pose proof (stacked_lo _ _ _ A5) as L. unfold b_end in *. repeat split.
    + constructor; [unfold inside, b_end; lia|]. eapply Forall_impl; [|exact U1]. intros c Hc. unfold inside, b_end in *. lia.
    + constructor; assumption.
    + constructor; [|assumption]. eapply Forall_impl; [|exact U1]. intros c Hc. right. unfold inside, b_end in *. lia.
Qed.

(** ** Preservation *)
Section Step.
  Variables (dbg : bool) (ptr capacity : N).
  Notation inv := (inv ptr capacity).

  Lemma alloc_inv : forall c size a s r, inv c -> pow2 a -> cap (st c) + a + size <= W64 ->
    allocate_bytes dbg (st c) size a = Some (s, r) ->
    match r with
    | None => s = st c
    | Some (q, n) => n = size /\ 1 <= size /\ ptr + sz (st c) <= q /\ q mod a = 0 /\ q + size = ptr + sz s /\
                     stack_ok s /\ p s = ptr /\ cap s = capacity /\ lpa s = 1
    end.
  Proof using.
    intros c size a s r (I1 & I2 & I3 & I4 & I5 & I6) Pa Hn E. rewrite (allocate_eq dbg (st c) size a I3 Pa Hn) in E.
    pose proof (pad_lt (p (st c) + sz (st c)) a (proj1 (pow2_pos _ Pa))) as L.
    pose proof (pad_aligned (p (st c) + sz (st c)) a (proj1 (pow2_pos _ Pa))) as A.
    set (o := pad (p (st c) + sz (st c)) a) in *. clearbody o.
    destruct (N.eqb_spec size 0) as [S0|S0]; cbn [orb] in E; [inversion E; subst r; reflexivity|].
    destruct (N.ltb_spec (cap (st c)) (sz (st c) + o + size)); [inversion E; subst r; reflexivity|].
    assert (Er : r = Some (p (st c) + sz (st c) + o, size)) by congruence.
    assert (Es : s = Stack (p (st c)) (sz (st c) + o + size) (cap (st c)) 1) by congruence. clear E. subst r s.
    destruct I3 as (J1 & J2 & J3 & J4). cbn [p sz cap lpa]. unfold stack_ok. cbn [p sz cap lpa]. repeat split; try assumption; lia.
  Qed.

  Lemma recent_live : forall c i b, inv c -> nth_error (live c) i = Some b ->
    is_most_recent_allocation dbg (st c) (b_ptr b) (b_size b)
      = Some (b_end b + pad (b_end b) (lpa (st c)) =? ptr + sz (st c)).
  Proof using.
    intros c i b (I1 & I2 & I3 & I4 & I5 & I6) E.
    assert (Pl : pow2 (lpa (st c))) by (destruct I5 as [I5|I5]; [rewrite I5 in E; destruct i; discriminate E|exact I5]).
    destruct (stacked_nth _ _ _ _ _ I4 E) as (B1 & B2 & B3 & B4 & B5 & B6). unfold b_end in *.
    rewrite recent_eq by (assumption || lia). rewrite I1. reflexivity.
  Qed.

  (** Only the top block can pass for the most recent one, unless something was freed. *)
  Lemma recent_top : forall c i b, inv c -> nth_error (live c) i = Some b -> i = 0%nat \/ popped c = false ->
    b_end b + pad (b_end b) (lpa (st c)) = ptr + sz (st c) -> i = 0%nat.
  Proof using.
    intros c i b I E D R. pose proof I as (I1 & I2 & I3 & I4 & I5 & I6). destruct D as [D|D]; [exact D|].
    destruct (I6 D) as [I7|I7]; [rewrite I7 in E; destruct i; discriminate E|]. rewrite I7, pad_1 in R.
    destruct (stacked_nth _ _ _ _ _ I4 E) as (B1 & B2 & B3 & B4 & B5 & B6).
    destruct (Nat.eq_dec i 0); [assumption|]. specialize (B6 n). lia.
  Qed.

  (** The most recent block takes another size in place. *)
  Lemma grown_inv : forall c b new, inv c -> nth_error (live c) 0 = Some b -> 1 <= new ->
    cap (st c) + b_align b + new <= W64 ->
    sz (st c) + new - b_size b <= cap (st c) ->
    inv (Client (Stack (p (st c)) (w64 (sz (st c) + sub64 new (b_size b))) (cap (st c)) (lpa (st c))) (resized 0 (live c) new) (popped c)).
  Proof using.
    intros c b new (I1 & I2 & I3 & I4 & I5 & I6) E Hn Hw Hc.
    destruct (stacked_nth _ _ _ _ _ I4 E) as (B1 & B2 & B3 & B4 & B5 & B6).
    destruct (pow2_pos _ B5) as [A1 A2]. unfold b_end in B2.
    rewrite resize_eq by (assumption || lia).
    destruct (live c) as [|b0 l] eqn:El; [discriminate E|]. cbn in E. inversion E; subst b0. clear E.
    unfold resized. cbn [nth_error firstn skipn app]. cbn [stacked] in I4. destruct I4 as (K1 & K2 & K3 & K4 & K5).
    destruct I3 as (J1 & J2 & J3 & J4).
    unfold AllocClient.inv, stack_ok. cbn [st live popped p sz cap lpa]. repeat split; try assumption; try lia.
    - cbn [stacked]. unfold b_end, aligned in *. cbn [b_ptr b_size b_align]. repeat split; try assumption; lia.
    - right. destruct I5 as [I5|I5]; [discriminate I5|exact I5].
    - intros P. right. destruct (I6 P) as [I7|I7]; [discriminate I7|exact I7].
  Qed.

  Lemma resize_fits : forall c b new, inv c -> nth_error (live c) 0 = Some b -> cap (st c) + b_align b + new <= W64 ->
    w64 (sz (st c) + sub64 new (b_size b)) = sz (st c) + new - b_size b.
  Proof using.
    intros c b new (I1 & I2 & I3 & I4 & I5 & I6) E Hw.
    destruct (stacked_nth _ _ _ _ _ I4 E) as (B1 & B2 & B3 & B4 & B5 & B6).
    destruct (pow2_pos _ B5) as [A1 A2]. unfold b_end in B2. apply resize_eq; try assumption; lia.
  Qed.

  Lemma resized_same : forall i l b, nth_error l i = Some b -> resized i l (b_size b) = l.
  Proof using.
    intros i l b E. unfold resized. rewrite E. destruct b as [q n a]. cbn [b_ptr b_size b_align].
    revert i E. induction l as [|x l IH]; intros [|i] E; try discriminate E.
    - cbn in E. inversion E; subst x. reflexivity.
    - cbn [firstn skipn app]. f_equal. cbn in E. now apply IH.
  Qed.

  Lemma step_inv : forall mem c o c', inv c -> allowed c o -> exec dbg mem c o = Some c' -> inv c'.
  Proof using.
    intros mem c o c' I D E. pose proof I as (I1 & I2 & I3 & I4 & I5 & I6).
    destruct o as [size a|i|i new|i new|]; cbn [exec allowed] in *.
    - (* Alloc *)
      destruct D as [Pa Hn]. destruct (allocate_bytes dbg (st c) size a) as [[s r]|] eqn:Ea; [|discriminate E].
      pose proof (alloc_inv c size a s r I Pa Hn Ea) as A. destruct r as [[q n]|].
      + destruct A as (-> & A1 & A2 & A3 & A4 & A5 & A6 & A7 & A8).
        assert (Ec : c' = Client s (Block q size a :: live c) false) by congruence. subst c'. clear E.
        unfold AllocClient.inv. cbn [st live popped]. split; [exact A6|]. split; [exact A7|]. split; [exact A5|]. split.
        * cbn [stacked]. unfold b_end, aligned. cbn [b_ptr b_size b_align]. repeat split; try assumption; try lia.
          apply stacked_mono with (ptr + sz (st c)); [exact I4|lia].
        * split; [right; rewrite A8; exists 0; split; [lia|reflexivity]|]. intros _. right. exact A8.
      + assert (Ec : c' = Client s (live c) (popped c)) by congruence. subst c' s. destruct c. exact I.
    - (* Free *)
      subst i. destruct (nth_error (live c) 0) as [b|] eqn:Eb; [|congruence].
      pose proof (recent_live c 0 b I Eb) as R.
      destruct (stacked_nth _ _ _ _ _ I4 Eb) as (B1 & B2 & B3 & B4 & B5 & B6).
      assert (Pl : pow2 (lpa (st c))) by (destruct I5 as [I5|I5]; [rewrite I5 in Eb; discriminate Eb|exact I5]).
      unfold free_bytes in E. rewrite check_true in E by now apply ok_valid.
      assert (Bp : (b_ptr b =? 0) = false) by (destruct I3; lia). rewrite Bp in E. cbn [orb] in E.
      assert (S0 : (b_size b =? 0) = false) by lia. rewrite S0, R in E.
      assert (Eo : owns dbg (st c) (b_ptr b) = Some true).
      { unfold owns. rewrite Bp, I1. unfold b_end in B2.
        assert (Et : (ptr <=? b_ptr b) && (b_ptr b <? ptr + sz (st c)) = true) by lia. rewrite Et. now rewrite check_true. }
      rewrite Eo in E.
      assert (Ec : exists s, c' = Client s (remove_nth 0 (live c)) true /\
        (s = st c \/ (b_end b + pad (b_end b) (lpa (st c)) = ptr + sz (st c) /\
                      s = Stack (p (st c)) (b_ptr b - ptr) (cap (st c)) (b_align b)))).
      { destruct (N.eqb_spec (b_end b + pad (b_end b) (lpa (st c))) (ptr + sz (st c))) as [Q|Q].
        - assert (Hk : check_ dbg (Some true) (A := stack) = fun k => k) by (unfold check_, assert_; destruct dbg; reflexivity).
          rewrite Hk in E. cbv beta iota in E. destruct I3 as (J1 & J2 & J3 & J4).
          rewrite w64_small in E by (unfold b_end in *; lia). rewrite alignment_offset_eq in E by (assumption || (unfold b_end in *; lia)).
          eexists. split; [symmetry; injection E; intros X; exact X|]. right. split; [exact Q|]. f_equal.
          unfold b_end in *. rewrite sub64_le by lia. lia.
        - destruct dbg; [discriminate E|]. cbn in E. eexists. split; [symmetry; injection E; intros X; exact X|]. now left. }
      destruct Ec as (s & -> & Hs).
      assert (Er : remove_nth 0 (live c) = tl (live c)) by (destruct (live c); reflexivity).
      rewrite Er. destruct (live c) as [|b0 l] eqn:El; [discriminate Eb|]. cbn in Eb. inversion Eb; subst b0. clear Eb. cbn [tl].
      cbn [stacked] in I4. destruct I4 as (K1 & K2 & K3 & K4 & K5). pose proof (stacked_lo _ _ _ K5) as L.
      destruct Hs as [->|[Q ->]]; unfold AllocClient.inv; cbn [st live popped p sz cap lpa].
      + split; [exact I1|]. split; [exact I2|]. split; [exact I3|]. split.
        * apply stacked_mono with (b_ptr b); [exact K5|]. unfold b_end in *. lia.
        * split; [now right|discriminate].
      + destruct I3 as (J1 & J2 & J3 & J4). split; [exact I1|]. split; [exact I2|]. split.
        { unfold stack_ok. cbn [p sz cap]. unfold b_end in *. repeat split; lia. }
        split; [replace (ptr + (b_ptr b - ptr)) with (b_ptr b) by lia; exact K5|].
        split; [now right|discriminate].
    - (* Realloc *)
      destruct D as (Hn & Di & Hw). destruct (nth_error (live c) i) as [b|] eqn:Eb; [|congruence]. specialize (Hw b eq_refl).
      pose proof (recent_live c i b I Eb) as R. unfold reallocate_bytes in E.
      rewrite check_true in E by now apply ok_valid. rewrite R in E.
      destruct (N.eqb_spec (b_end b + pad (b_end b) (lpa (st c))) (ptr + sz (st c))) as [Q|Q]; cbv beta iota in E.
      + pose proof (recent_top c i b I Eb Di Q) as ->. rewrite (resize_fits c b new I Eb Hw) in E.
        destruct (N.ltb_spec (cap (st c)) (sz (st c) + new - b_size b)) as [G|G].
        * cbn in E. assert (Ec : c' = Client (st c) (live c) (popped c)) by congruence. subst c'. destruct c. exact I.
        * cbn [app] in E. rewrite N.eqb_refl in E. rewrite <- (resize_fits c b new I Eb Hw) in E.
          pose proof (grown_inv c b new I Eb Hn Hw G) as GI. congruence.
      + destruct (N.ltb_spec new (b_size b)) as [G|G].
        * rewrite N.eqb_refl, (resized_same i (live c) b Eb) in E. assert (Ec : c' = Client (st c) (live c) (popped c)) by congruence.
          subst c'. destruct c. exact I.
        * destruct (allocate_bytes dbg (st c) new (b_align b)) as [[s r]|] eqn:Ea; [|discriminate E].
          destruct (stacked_nth _ _ _ _ _ I4 Eb) as (B1 & B2 & B3 & B4 & B5 & B6).
          pose proof (alloc_inv c new (b_align b) s r I B5 Hw Ea) as A. destruct r as [[q n]|].
          -- destruct A as (-> & A1 & A2 & A3 & A4 & A5 & A6 & A7 & A8).
             destruct (memcpy mem q (b_ptr b) (if b_size b <? new then b_size b else new)) as [m'|]; [|discriminate E].
             unfold b_end in B2. assert (Eq : (q =? b_ptr b) = false) by lia. rewrite Eq in E.
             assert (Ec : c' = Client s (Block q new (b_align b) :: remove_nth i (live c)) false) by congruence. subst c'. clear E.
             unfold AllocClient.inv. cbn [st live popped]. split; [exact A6|]. split; [exact A7|]. split; [exact A5|]. split.
             ++ cbn [stacked]. unfold b_end, aligned. cbn [b_ptr b_size b_align]. repeat split; try assumption; try lia.
                apply stacked_remove. apply stacked_mono with (ptr + sz (st c)); [exact I4|lia].
             ++ split; [right; rewrite A8; exists 0; split; [lia|reflexivity]|]. intros _. right. exact A8.
          -- assert (Ec : c' = Client s (live c) (popped c)) by congruence. subst c' s. destruct c. exact I.
    - (* ReallocInPlace *)
      destruct D as (Hn & Di & Hw). destruct (nth_error (live c) i) as [b|] eqn:Eb; [|congruence]. specialize (Hw b eq_refl).
      pose proof (recent_live c i b I Eb) as R. unfold reallocate_bytes_in_place in E.
      rewrite check_true in E by (destruct I3; lia). rewrite R in E.
      destruct (N.eqb_spec (b_end b + pad (b_end b) (lpa (st c))) (ptr + sz (st c))) as [Q|Q]; cbv beta iota in E; cbn [andb] in E.
      + pose proof (recent_top c i b I Eb Di Q) as ->. pose proof (resize_fits c b new I Eb Hw) as Z.
        destruct (N.leb_spec (w64 (sz (st c) + sub64 new (b_size b))) (cap (st c))) as [G|G].
        * rewrite Z in G. pose proof (grown_inv c b new I Eb Hn Hw G) as GI. congruence.
        * assert (Ec : c' = Client (st c) (live c) (popped c)) by congruence. subst c'. destruct c. exact I.
      + assert (Ec : c' = Client (st c) (live c) (popped c)) by congruence. subst c'. destruct c. exact I.
    - (* Clear *)
      assert (Ec : c' = Client (clear (st c)) [] false) by congruence. subst c'.
      destruct I3 as (J1 & J2 & J3 & J4). unfold AllocClient.inv, stack_ok, clear. cbn [st live popped p sz cap lpa stacked].
      repeat split; try assumption; try lia; now left.
  Qed.
End Step.

Lemma history_inv : forall dbg ptr capacity c, 1 <= ptr -> 1 <= capacity -> ptr + capacity < W64 ->
  history dbg ptr capacity c -> inv ptr capacity c.
Proof.
  intros dbg ptr capacity c H1 H2 H3 H. induction H as [s E|c o mem c' H IH D E].
  - unfold stack_create in E. assert (Es : s = Stack ptr 0 capacity 0).
    { destruct dbg; cbn [check] in E; [unfold check, assert_ in E; assert (X : negb (ptr =? 0) || (capacity =? 0) = true) by lia; rewrite X in E|]; cbn in E; congruence. }
    subst s. unfold inv, stack_ok. cbn [st live popped p sz cap lpa stacked]. repeat split; try lia; now left.
  - now apply (step_inv dbg ptr capacity mem c o c').
Qed.
