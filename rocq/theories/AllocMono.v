(** Calls that do not fail; the monotonic allocator. *)
From Coq Require Import Arith NArith ZArith List Bool Lia ZifyBool ZifyNat ZifyN.
From Verif Require Import Base AllocModel AllocSpec AllocProofs AllocClient AllocLifo.
Import ListNotations.
Local Open Scope N_scope.

(** ** No assertion fails, except for a free out of order *)
Lemma exec_total : forall dbg ptr capacity mem c o, inv ptr capacity c -> allowed c o -> (forall i, o <> Free i) ->
  exists c', exec dbg mem c o = Some c'.
Proof.
  intros dbg ptr capacity mem c o I D F. pose proof I as (I1 & I2 & I3 & I4 & I5 & I6).
  destruct o as [size a|i|i new|i new|]; cbn [exec allowed] in *.
  - destruct D as [Pa Hn]. rewrite (allocate_eq dbg (st c) size a I3 Pa Hn). cbv zeta.
    destruct ((size =? 0) || (cap (st c) <? sz (st c) + pad (p (st c) + sz (st c)) a + size)); eexists; reflexivity.
  - now elim (F i).
  - destruct D as (Hn & Di & Hw). destruct (nth_error (live c) i) as [b|] eqn:Eb; [|eexists; reflexivity].
    specialize (Hw b eq_refl). unfold reallocate_bytes. rewrite check_true by now apply ok_valid.
    rewrite (recent_live dbg ptr capacity c i b I Eb).
    destruct (stacked_nth _ _ _ _ _ I4 Eb) as (B1 & B2 & B3 & B4 & B5 & B6).
    destruct (b_end b + pad (b_end b) (lpa (st c)) =? ptr + sz (st c)); cbv beta iota.
    + destruct (cap (st c) <? w64 (sz (st c) + sub64 new (b_size b))); [eexists; reflexivity|].
      rewrite N.eqb_refl. eexists; reflexivity.
    + destruct (N.ltb_spec new (b_size b)) as [G|G]; [rewrite N.eqb_refl; eexists; reflexivity|].
      rewrite (allocate_eq dbg (st c) new (b_align b) I3 B5 Hw). cbv zeta.
      set (o := pad (p (st c) + sz (st c)) (b_align b)).
      destruct ((new =? 0) || (cap (st c) <? sz (st c) + o + new)); [eexists; reflexivity|].
      unfold memcpy. unfold b_end in B2.
      assert (Ov : (p (st c) + sz (st c) + o <? b_ptr b + (if b_size b <? new then b_size b else new)) &&
                   (b_ptr b <? p (st c) + sz (st c) + o + (if b_size b <? new then b_size b else new)) = false).
      { destruct (N.ltb_spec (b_size b) new); lia. }
      rewrite Ov. destruct (p (st c) + sz (st c) + o =? b_ptr b); eexists; reflexivity.
  - destruct D as (Hn & Di & Hw). destruct (nth_error (live c) i) as [b|] eqn:Eb; [|eexists; reflexivity].
    unfold reallocate_bytes_in_place. rewrite check_true by (destruct I3; lia).
    rewrite (recent_live dbg ptr capacity c i b I Eb).
    destruct ((b_end b + pad (b_end b) (lpa (st c)) =? ptr + sz (st c)) &&
              (w64 (sz (st c) + sub64 new (b_size b)) <=? cap (st c))); eexists; reflexivity.
  - eexists; reflexivity.
Qed.

(** Whatever is done, the buffer of the allocator stays the same. *)
Lemma exec_buffer : forall dbg mem c o c', exec dbg mem c o = Some c' -> p (st c') = p (st c) /\ cap (st c') = cap (st c).
Proof.
  assert (A : forall dbg s size a s' r, allocate_bytes dbg s size a = Some (s', r) -> p s' = p s /\ cap s' = cap s).
  { intros dbg s size a s' r E. unfold allocate_bytes in E. destruct (size =? 0); [inversion E; subst; auto|].
    destruct (end_ dbg s) as [e|]; [|discriminate E]. destruct (alignment_offset dbg e a) as [o|]; [|discriminate E].
    destruct (cap s <? w64 (sz s + o + size)); [inversion E; subst; auto|]. unfold check, assert_ in E.
    destruct dbg; [destruct (w64 (e + o) mod a =? 0); [|discriminate E]|]; inversion E; subst; auto. }
  intros dbg mem c o c' E. destruct o as [size a|i|i new|i new|]; cbn [exec] in E.
  - destruct (allocate_bytes dbg (st c) size a) as [[s r]|] eqn:Ea; [|discriminate E]. apply A in Ea.
    destruct r as [[q n]|]; inversion E; subst c'; exact Ea.
  - destruct (nth_error (live c) i) as [b|]; [|inversion E; subst; auto].
    destruct (free_bytes dbg (st c) (b_ptr b) (b_size b) (b_align b)) as [s|] eqn:Ef; [|discriminate E].
    inversion E; subst c'; cbn [st]. clear E. unfold free_bytes, check, check_, assert_ in Ef.
    assert (K : forall k : option stack, (k = Some s -> p s = p (st c) /\ cap s = cap (st c)) -> forall v : option bool,
      (if dbg then match v with Some w => if w then k else None | None => None end else k) = Some s -> p s = p (st c) /\ cap s = cap (st c)).
    { intros k Hk v. destruct dbg; [|exact Hk]. destruct v as [[|]|]; [exact Hk|discriminate|discriminate]. }
    destruct dbg.
    + destruct (is_valid (st c)); [|discriminate Ef].
      apply K in Ef; [exact Ef|]. clear Ef. intros Ef. apply K in Ef; [exact Ef|]. clear Ef. intros Ef.
      destruct (b_ptr b =? 0); [inversion Ef; subst; auto|].
      destruct (is_most_recent_allocation true (st c) (b_ptr b) (b_size b)) as [[|]|]; [| |discriminate Ef].
      * destruct (alignment_offset true (w64 (b_ptr b + b_size b)) (lpa (st c))); [|discriminate Ef]. inversion Ef; subst; auto.
      * inversion Ef; subst; auto.
    + destruct (b_ptr b =? 0); [inversion Ef; subst; auto|].
      destruct (is_most_recent_allocation false (st c) (b_ptr b) (b_size b)) as [[|]|]; [| |discriminate Ef].
      * destruct (alignment_offset false (w64 (b_ptr b + b_size b)) (lpa (st c))); [|discriminate Ef]. inversion Ef; subst; auto.
      * inversion Ef; subst; auto.
  - destruct (nth_error (live c) i) as [b|]; [|inversion E; subst; auto].
    destruct (reallocate_bytes dbg (st c) mem (b_ptr b) (b_size b) new (b_align b)) as [[[s r] m]|] eqn:Er; [|discriminate E].
    assert (B : p s = p (st c) /\ cap s = cap (st c)).
    { unfold reallocate_bytes in Er. unfold check, assert_ in Er.
      assert (Er' : (recent <- is_most_recent_allocation dbg (st c) (b_ptr b) (b_size b) ;;
       if recent : bool then
         if cap (st c) <? w64 (sz (st c) + sub64 new (b_size b)) then Some (st c, None, mem)
         else Some (Stack (p (st c)) (w64 (sz (st c) + sub64 new (b_size b))) (cap (st c)) (lpa (st c)), Some (b_ptr b, new), mem)
       else if new <? b_size b then Some (st c, Some (b_ptr b, b_size b), mem)
       else
         ' (s', result) <- allocate_bytes dbg (st c) new (b_align b) ;;
         match result with
         | None => Some (s', None, mem)
         | Some (r, n) => mem' <- memcpy mem r (b_ptr b) (if b_size b <? new then b_size b else new) ;; Some (s', Some (r, n), mem')
         end) = Some (s, r, m)) by (destruct dbg; [destruct (is_valid (st c)); [exact Er|discriminate Er]|exact Er]).
      clear Er. destruct (is_most_recent_allocation dbg (st c) (b_ptr b) (b_size b)) as [[|]|]; [| |discriminate Er'].
      - destruct (cap (st c) <? w64 (sz (st c) + sub64 new (b_size b))); inversion Er'; subst; auto.
      - destruct (new <? b_size b); [inversion Er'; subst; auto|].
        destruct (allocate_bytes dbg (st c) new (b_align b)) as [[s1 r1]|] eqn:Ea; [|discriminate Er']. apply A in Ea.
        destruct r1 as [[q n]|]; [|inversion Er'; subst; auto].
        destruct (memcpy mem q (b_ptr b) (if b_size b <? new then b_size b else new)); [|discriminate Er'].
        inversion Er'; subst; auto. }
    destruct r as [[q n]|]; [destruct (q =? b_ptr b)|]; inversion E; subst c'; exact B.
  - destruct (nth_error (live c) i) as [b|]; [|inversion E; subst; auto].
    destruct (reallocate_bytes_in_place dbg (st c) (b_ptr b) (b_size b) new) as [[s r]|] eqn:Er; [|discriminate E].
    inversion E; subst c'; cbn [st]. clear E. unfold reallocate_bytes_in_place, check, assert_ in Er.
    assert (Er' : (recent <- is_most_recent_allocation dbg (st c) (b_ptr b) (b_size b) ;;
     if (recent : bool) && (w64 (sz (st c) + sub64 new (b_size b)) <=? cap (st c))
     then Some (Stack (p (st c)) (w64 (sz (st c) + sub64 new (b_size b))) (cap (st c)) (lpa (st c)), true)
     else Some (st c, false)) = Some (s, r)) by (destruct dbg; [destruct (negb (p (st c) =? 0)); [exact Er|discriminate Er]|exact Er]).
    clear Er. destruct (is_most_recent_allocation dbg (st c) (b_ptr b) (b_size b)) as [w|]; [|discriminate Er'].
    destruct (w && (w64 (sz (st c) + sub64 new (b_size b)) <=? cap (st c))); inversion Er'; subst; auto.
  - inversion E; subst c'. auto.
Qed.

(** ** The monotonic allocator *)

(** The memory of two stack allocators does not overlap. *)
Definition apart (p1 n1 p2 n2 : N) : Prop := p1 + n1 <= p2 \/ p2 + n2 <= p1.
Definition empty_stack (s : stack) : Prop := p s = 0 /\ sz s = 0 /\ cap s = 0.
Definition owner (m : mono) (b : block) : Prop :=
  exists i s, nth_error (blocks m) i = Some (Some s) /\ stack_ok s /\ p s <= b_ptr b /\ b_end b <= p s + sz s.

Record mono_inv (m : mono) (live : list block) : Prop := {
  mi_current : (current m < length (blocks m))%nat;
  mi_ok : forall i o, nth_error (blocks m) i = Some o -> exists s, o = Some s /\ (empty_stack s \/ stack_ok s);
  mi_apart : forall i j s t, nth_error (blocks m) i = Some (Some s) -> nth_error (blocks m) j = Some (Some t) ->
    i <> j -> apart (p s) (cap s) (p t) (cap t);
  mi_live : Forall (owner m) live;
  mi_aligned : Forall aligned live;
  mi_disjoint : ForallOrdPairs disjoint live }.

(** What the system promises of a mapping: memory of its own, inside of the address space. *)
Definition fresh (m : mono) (mapped n : N) : Prop :=
  mapped = 0 \/
  (mapped + n < W64 /\ forall i s, nth_error (blocks m) i = Some (Some s) -> apart (p s) (cap s) mapped n).

Lemma stack_alloc : forall dbg s size a, empty_stack s \/ stack_ok s -> pow2 a -> cap s + a + size <= W64 ->
  exists s' r, allocate_bytes dbg s size a = Some (s', r) /\ p s' = p s /\ cap s' = cap s /\ sz s <= sz s' /\
    (empty_stack s' \/ stack_ok s') /\
    match r with
    | None => s' = s
    | Some (q, n) => stack_ok s' /\ n = size /\ p s + sz s <= q /\ q mod a = 0 /\ q + size = p s' + sz s'
    end.
Proof.
  intros dbg s size a [H|H] Pa Hn; destruct (pow2_pos _ Pa) as [A1 A2].
  - destruct H as (H1 & H2 & H3). exists s, None. split; [|repeat split; try lia; left; repeat split; assumption].
    unfold allocate_bytes. destruct (N.eqb_spec size 0) as [E|E]; [reflexivity|].
    unfold end_. rewrite check_true by (unfold is_valid; lia). rewrite H1, H2. change (w64 (0 + 0)) with 0.
    rewrite alignment_offset_eq by (assumption || lia). rewrite pad_aligned_0 by (assumption || apply N.mod_0_l; lia).
    rewrite w64_small by lia. rewrite H3. destruct (N.ltb_spec 0 (0 + 0 + size)); [reflexivity|lia].
  - rewrite (allocate_eq dbg s size a H Pa Hn). cbv zeta.
    pose proof (pad_aligned (p s + sz s) a A1) as Ea. set (o := pad (p s + sz s) a) in *. clearbody o.
    destruct ((size =? 0) || (cap s <? sz s + o + size)) eqn:G.
    + exists s, None. repeat split; try lia. now right.
    + exists (Stack (p s) (sz s + o + size) (cap s) 1), (Some (p s + sz s + o, size)).
      destruct H as (H1 & H2 & H3 & H4).
      assert (K : stack_ok (Stack (p s) (sz s + o + size) (cap s) 1)) by (unfold stack_ok; cbn [p sz cap]; repeat split; lia).
      split; [reflexivity|]. split; [reflexivity|]. split; [reflexivity|]. split; [cbn [sz]; lia|]. split; [now right|].
      split; [exact K|]. cbn [p sz]. repeat split; try assumption; lia.
Qed.

Lemma write_nth : forall {A} (l : list A) i x y, nth_error l i = Some x -> exists l', write l i y = Some l' /\
  length l' = length l /\ nth_error l' i = Some y /\ (forall j, j <> i -> nth_error l' j = nth_error l j).
Proof.
  induction l as [|h t IH]; intros [|i] x y E; try discriminate E.
  - exists (y :: t). repeat split. intros [|j] Hj; [congruence|reflexivity].
  - cbn in E. destruct (IH i x y E) as (l' & W & L & N1 & N2). exists (h :: l'). cbn [write]. rewrite W.
    split; [reflexivity|]. split; [cbn; congruence|]. split; [exact N1|]. intros [|j] Hj; [reflexivity|]. apply N2. congruence.
Qed.

Lemma owner_mono : forall m m' b, owner m b ->
  (forall i s, nth_error (blocks m) i = Some (Some s) -> stack_ok s ->
     exists s', nth_error (blocks m') i = Some (Some s') /\ stack_ok s' /\ p s' = p s /\ sz s <= sz s') -> owner m' b.
Proof.
  intros m m' b (i & s & E & K & O1 & O2) H. destruct (H i s E K) as (s' & E' & K' & P' & S').
  exists i, s'. split; [exact E'|]. split; [exact K'|]. lia.
Qed.

Lemma replace_inv : forall m live i s s' bs, mono_inv m live -> nth_error (blocks m) i = Some (Some s) ->
  p s' = p s -> cap s' = cap s -> sz s <= sz s' -> (empty_stack s' \/ stack_ok s') ->
  write (blocks m) i (Some s') = Some bs ->
  mono_inv (Mono bs (current m) (block_size m)) live.
Proof.
  intros m live i s s' bs I E P' C' Z' K' W. destruct (write_nth (blocks m) i _ (Some s') E) as (l' & W' & L & N1 & N2).
  rewrite W in W'. inversion W'; subst l'. clear W'.
  assert (At : forall j t, nth_error bs j = Some (Some t) -> exists t0, nth_error (blocks m) j = Some (Some t0) /\ p t = p t0 /\ cap t = cap t0).
  { intros j t Et. destruct (Nat.eq_dec j i) as [->|Hj]; [exists s; split; [exact E|]; rewrite N1 in Et; inversion Et; subst t; auto|].
    exists t. rewrite <- N2 by assumption. auto. }
  constructor; cbn [blocks current block_size].
  - rewrite L. exact (mi_current _ _ I).
  - intros j o Ej. destruct (Nat.eq_dec j i) as [->|Hj]; [|apply (mi_ok _ _ I j); now rewrite <- N2].
    rewrite N1 in Ej. inversion Ej; subst o. exists s'. auto.
  - intros j k t u Ej Ek Hjk. destruct (At _ _ Ej) as (t0 & Ej0 & -> & ->). destruct (At _ _ Ek) as (u0 & Ek0 & -> & ->).
    exact (mi_apart _ _ I j k t0 u0 Ej0 Ek0 Hjk).
  - eapply Forall_impl; [|exact (mi_live _ _ I)]. intros b Hb. apply (owner_mono m _ b Hb). intros j t Ej Kt. cbn [blocks].
    destruct (Nat.eq_dec j i) as [->|Hj]; [|exists t; rewrite N2 by assumption; split; [exact Ej|]; split; [exact Kt|lia]].
    rewrite E in Ej. inversion Ej; subst t. exists s'. split; [exact N1|]. split; [|auto].
    destruct K' as [(Q1 & _)|K']; [|exact K']. destruct Kt. lia.
  - exact (mi_aligned _ _ I).
  - exact (mi_disjoint _ _ I).
Qed.

Lemma add_inv : forall m live s cur, mono_inv m live -> (empty_stack s \/ stack_ok s) ->
  (forall i t, nth_error (blocks m) i = Some (Some t) -> apart (p t) (cap t) (p s) (cap s)) ->
  (cur < S (length (blocks m)))%nat ->
  mono_inv (Mono (blocks m ++ [Some s]) cur (block_size m)) live.
Proof.
  intros m live s cur I K F Hc.
  assert (At : forall i o, nth_error (blocks m ++ [Some s]) i = Some o ->
    nth_error (blocks m) i = Some o \/ (i = length (blocks m) /\ o = Some s)).
  { intros i o E. destruct (Nat.lt_ge_cases i (length (blocks m))) as [G|G]; [left; now rewrite nth_error_app1 in E|].
    right. rewrite nth_error_app2 in E by assumption. destruct (i - length (blocks m))%nat as [|k] eqn:Ek.
    - cbn in E. inversion E. split; [lia|reflexivity].
    - destruct k; discriminate E. }
  constructor; cbn [blocks current block_size].
  - rewrite app_length. cbn [length]. lia.
  - intros i o E. destruct (At i o E) as [E'|[_ ->]]; [exact (mi_ok _ _ I i o E')|exists s; auto].
  - intros i j t u Ei Ej Hij. destruct (At _ _ Ei) as [Ei'|[-> Ei']]; destruct (At _ _ Ej) as [Ej'|[-> Ej']].
    + exact (mi_apart _ _ I i j t u Ei' Ej' Hij).
    + inversion Ej'; subst u. exact (F i t Ei').
    + inversion Ei'; subst t. destruct (F j u Ej') as [G|G]; [right|left]; exact G.
    + congruence.
  - eapply Forall_impl; [|exact (mi_live _ _ I)]. intros b Hb. apply (owner_mono m _ b Hb). intros j t Ej Kt. cbn [blocks].
    exists t. rewrite nth_error_app1 by (apply nth_error_Some; congruence). split; [exact Ej|]. split; [exact Kt|lia].
  - exact (mi_aligned _ _ I).
  - exact (mi_disjoint _ _ I).
Qed.

(** A block cut from above everything an allocator handed out so far. *)
Lemma hand_out : forall m live i s s' bs q size a, mono_inv m live -> nth_error (blocks m) i = Some (Some s) ->
  p s' = p s -> cap s' = cap s -> sz s <= sz s' -> stack_ok s' ->
  write (blocks m) i (Some s') = Some bs ->
  p s + sz s <= q -> q mod a = 0 -> q + size = p s' + sz s' ->
  mono_inv (Mono bs (current m) (block_size m)) (Block q size a :: live).
Proof.
  intros m live i s s' bs q size a I E P' C' Z' K' W Q1 Q2 Q3.
  pose proof (replace_inv m live i s s' bs I E P' C' Z' (or_intror K') W) as I'.
  destruct (write_nth (blocks m) i _ (Some s') E) as (l' & W' & L & N1 & N2). rewrite W in W'. inversion W'; subst l'. clear W'.
  constructor; try exact (mi_current _ _ I'); try exact (mi_ok _ _ I'); try exact (mi_apart _ _ I').
  - constructor; [|exact (mi_live _ _ I')]. exists i, s'. unfold b_end. cbn [b_ptr b_size blocks]. split; [exact N1|]. split; [exact K'|]. lia.
  - constructor; [exact Q2|exact (mi_aligned _ _ I')].
  - constructor; [|exact (mi_disjoint _ _ I')]. eapply Forall_impl; [|exact (mi_live _ _ I)].
    intros b (j & t & Ej & (T1 & T2 & T3 & T4) & O1 & O2). unfold disjoint, b_end in *. cbn [b_ptr b_size]. destruct K' as (K1 & K2 & K3 & K4).
    destruct (Nat.eq_dec j i) as [->|Hj].
    + rewrite E in Ej. inversion Ej; subst t. right. lia.
    + destruct (mi_apart _ _ I j i t s Ej E Hj) as [G|G]; [right|left]; lia.
Qed.

Definition mono_allowed (m : mono) (size a mapped : N) : Prop :=
  pow2 a /\ 1 <= block_size m /\ block_size m + a + size <= W64 /\ size + a + size <= W64 /\
  (forall i s, nth_error (blocks m) i = Some (Some s) -> cap s + a + size <= W64) /\
  fresh m mapped (if size <=? block_size m then block_size m else size).

Lemma mono_step : forall dbg m live size a realloc_ok mapped, mono_inv m live -> mono_allowed m size a mapped ->
  exists m' r, mono_allocate dbg m size a realloc_ok mapped = Some (m', r) /\ block_size m' = block_size m /\
    match r with
    | Some (q, n) => n = size /\ mono_inv m' (Block q size a :: live)
    | None => mono_inv m' live
    end.
Proof.
  intros dbg m live size a realloc_ok mapped I (Pa & Hb & H1 & H2 & H3 & Hf). unfold mono_allocate.
  destruct (nth_error (blocks m) (current m)) as [o|] eqn:E; [|apply nth_error_None in E; pose proof (mi_current _ _ I); lia].
  destruct (mi_ok _ _ I _ _ E) as (s & -> & K).
  destruct (stack_alloc dbg s size a K Pa (H3 _ _ E)) as (s' & r & Ea & P' & C' & Z' & K' & R). rewrite Ea.
  destruct (write_nth (blocks m) (current m) _ (Some s') E) as (bs & W & L & N1 & N2). rewrite W.
  pose proof (replace_inv m live (current m) s s' bs I E P' C' Z' K' W) as I'.
  destruct r as [[q n]|].
  - destruct R as (K2 & -> & R1 & R2 & R3). eexists _, _. split; [reflexivity|]. split; [reflexivity|]. split; [reflexivity|].
    exact (hand_out m live (current m) s s' bs q size a I E P' C' Z' K2 W R1 R2 R3).
  - destruct realloc_ok; cbn [negb]; [|eexists _, _; split; [reflexivity|]; split; [reflexivity|exact I']].
    cbv zeta. set (cur := if size <=? block_size m then length bs else current m).
    set (n := if size <=? block_size m then block_size m else size) in *.
    assert (Hc : (cur < S (length bs))%nat) by (pose proof (mi_current _ _ I') as X; cbn [blocks current] in X; unfold cur; destruct (size <=? block_size m); lia).
    destruct (N.eqb_spec mapped 0) as [M|M].
    + eexists _, _. split; [reflexivity|]. split; [reflexivity|].
      apply (add_inv (Mono bs (current m) (block_size m)) live (Stack 0 0 0 0) cur I'); [left; repeat split| |exact Hc].
      intros i t Et. right. cbn [p cap]. lia.
    + destruct Hf as [Hf|[F1 F2]]; [congruence|]. unfold stack_create. rewrite check_true by lia.
      set (s0 := Stack mapped 0 n 0).
      assert (Hn : 1 <= n /\ n + a + size <= W64) by (unfold n; destruct (N.leb_spec size (block_size m)); lia).
      assert (K0 : stack_ok s0) by (unfold stack_ok, s0; cbn [p sz cap]; lia).
      destruct (stack_alloc dbg s0 size a (or_intror K0) Pa) as (s1 & r1 & Ea1 & P1 & C1 & Z1 & K1 & R1); [unfold s0; cbn [cap]; lia|].
      rewrite Ea1.
      assert (I2 : mono_inv (Mono (bs ++ [Some s0]) cur (block_size m)) live).
      { apply (add_inv (Mono bs (current m) (block_size m)) live s0 cur I'); [now right| |exact Hc].
        cbn [blocks]. intros i t Et. cbn [p cap s0]. destruct (Nat.eq_dec i (current m)) as [->|Hi].
        - rewrite N1 in Et. inversion Et; subst t. rewrite P', C'. exact (F2 _ _ E).
        - rewrite N2 in Et by assumption. exact (F2 _ _ Et). }
      assert (Et : nth_error (bs ++ [Some s0]) (length bs) = Some (Some s0)) by (rewrite nth_error_app2, Nat.sub_diag by lia; reflexivity).
      assert (Wt : write (bs ++ [Some s0]) (length bs) (Some s1) = Some (bs ++ [Some s1])).
      { clear. induction bs as [|h t IH]; [reflexivity|]. cbn [app length write]. rewrite IH. reflexivity. }
      eexists _, _. split; [reflexivity|]. split; [reflexivity|].
      destruct r1 as [[q n1]|].
      * destruct R1 as (K2 & -> & R1 & R2 & R3). split; [reflexivity|].
        exact (hand_out (Mono (bs ++ [Some s0]) cur (block_size m)) live (length bs) s0 s1 _ q size a I2 Et P1 C1 Z1 K2 Wt R1 R2 R3).
      * exact (replace_inv (Mono (bs ++ [Some s0]) cur (block_size m)) live (length bs) s0 s1 _ I2 Et P1 C1 Z1 K1 Wt).
Qed.
